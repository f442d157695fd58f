(* Lemmas about the daemon. *)
From Coq Require Import ZArith List Bool String Arith Lia.
From Verif Require Import DaemonModel DaemonSpec.
Import ListNotations.
Open Scope Z_scope.

Local Arguments Nat.ltb : simpl never.
Local Arguments Nat.leb : simpl never.
Local Arguments Nat.eqb : simpl never.

(* ---- lists ---- *)

Lemma update_length {A} i (a : A) l : List.length (update i a l) = List.length l.
Proof. revert i. induction l; destruct i; cbn; auto. Qed.

Lemma update_nth {A} i (a : A) l j : nth_error (update i a l) j =
  if Nat.eqb i j then (match nth_error l j with Some _ => Some a | None => None end) else nth_error l j.
Proof.
  revert i j. induction l as [|x l IH]; intros [|i] [|j]; cbn [update nth_error]; auto.
  - destruct (Nat.eqb (S i) (S j)); reflexivity.
  - rewrite IH. reflexivity.
Qed.

(* ---- invariant ---- *)

Definition unborn (v : svc) : Prop := v_thread v = TNone /\ v_request v = false /\ v_down v = false.
Definition working (v : svc) : Prop := v_thread v = TReady \/ v_thread v = TServing \/ v_thread v = TAccept.
Definition live (v : svc) : Prop := working v /\ v_request v = false /\ v_down v = false.
Definition called (v : svc) : Prop := working v /\ v_request v = true /\ v_down v = false.
Definition gone (v : svc) : Prop := v_thread v = TDone /\ v_request v = false /\ v_down v = true.

Definition class (p : pc) (i : nat) (v : svc) : Prop :=
  match p with
  | MInstallInt | MInstallTerm | MStart => unborn v
  | MStartSvc k => if (i <? k)%nat then live v else unborn v
  | MNotify | MCheck | MPause | MBlocked | MWoken => live v
  | MStop k _ => if (i <? k)%nat then gone v else live v
  | MWait k _ => if (i <? k)%nat then gone v else if (i =? k)%nat then called v \/ gone v else live v
  | MExit c => c = 0 -> gone v
  | MKilled => True
  end.

Record Inv (n : nat) (s : state) : Prop := {
  i_len : List.length (s_svcs s) = n;
  i_class : forall i v, nth_error (s_svcs s) i = Some v -> class (s_pc s) i v;
  i_wait : forall k f, s_pc s = MWait k f -> (k < n)%nat;
  i_start : forall k, s_pc s = MStartSvc k -> (k <= n)%nat;
  i_stop : forall k f, s_pc s = MStop k f -> (k <= n)%nat;
  i_quiet : s_signals s = 0%nat -> s_pending s = false /\
    match s_pc s with
    | MInstallInt | MInstallTerm | MStart => s_running s = false
    | MStartSvc _ | MNotify | MCheck | MPause | MBlocked => s_running s = true
    | MStop _ f | MWait _ f => f = true
    | MExit c => c = 1
    | MWoken => False
    | MKilled => True
    end;
  i_handlers : match s_pc s with
    | MInstallInt => True
    | MInstallTerm => s_int s = true
    | MKilled => True
    | _ => s_int s = true /\ s_term s = true
    end
}.

Lemma ready_inv svcs : fresh svcs -> Inv (List.length svcs) (ready svcs).
Proof.
  intros F. constructor; cbn; auto; try discriminate.
  intros i v H. apply nth_error_In in H. unfold fresh in F. rewrite Forall_forall in F.
  rewrite (F v H). repeat split.
Qed.

Ltac inv H := injection H as <-.
Ltac nob x y := destruct (Nat.eqb_spec x y); try lia.
Ltac ltb x y := destruct (Nat.ltb_spec x y); try lia.

Lemma step_inv n l s s' : Inv n s -> step l s = Some s' -> Inv n s'.
Proof.
  intros [L C W1 W2 W3 Q HH] H. destruct s as [p run pend hi ht vs sg]. cbn [s_pc s_running s_pending s_int s_term s_svcs s_signals] in *.
  destruct l as [ok| |sig|i a]; cbn [step] in H.
  - (* main *)
    unfold main_step, set_pc, set_svc, terminate in H. cbn [s_pc s_running s_pending s_int s_term s_svcs s_signals] in H.
    destruct p; cbn in H; try discriminate.
    + inv H. constructor; cbn; auto; try discriminate.
    + inv H. constructor; cbn; auto; try discriminate.
    + destruct run; inv H; constructor; cbn; auto; try discriminate.
      1: intros E; destruct (Q E); discriminate.
      1: intros k [= <-]; lia.
      intros E; destruct (Q E); auto.
    + destruct (nth_error vs i) as [v|] eqn:N; [destruct ok|]; inv H; cbn in *.
      * assert (I : (i < List.length vs)%nat) by (apply nth_error_Some; congruence).
        constructor; cbn; auto; try discriminate.
        -- rewrite update_length. auto.
        -- intros j w. rewrite update_nth. nob i j; intros J.
           ++ subst j. rewrite N in J. inv J. ltb i (S i). specialize (C i v N). cbn in C.
              rewrite Nat.ltb_irrefl in C. destruct C as (C1 & C2 & C3). split; [left; reflexivity|]. auto.
           ++ specialize (C j w J). cbn in C. ltb j i; ltb j (S i); auto.
        -- intros k [= <-]. lia.
      * constructor; cbn; auto; try discriminate. intros E. destruct (Q E); auto.
      * assert (I : (List.length vs <= i)%nat) by (apply nth_error_None; auto).
        constructor; cbn; auto; try discriminate.
        intros j w J. assert (JJ : (j < List.length vs)%nat) by (apply nth_error_Some; congruence).
        specialize (C j w J). cbn in C. ltb j i; auto.
    + destruct ok; inv H; constructor; cbn; auto; try discriminate;
        try (intros k f [= <- <-]; lia); intros E; destruct (Q E); auto.
    + destruct run; inv H; constructor; cbn; auto; try discriminate;
        try (intros k f [= <- <-]; lia); intros E; destruct (Q E); discriminate.
    + inv H. constructor; cbn; auto; try discriminate.
    + inv H. constructor; cbn; auto; try discriminate. intros E. destruct (Q E) as [_ []].
    + destruct (nth_error vs i) as [v|] eqn:N.
      * destruct (negb ok && v_unix v); inv H; cbn in *.
        -- constructor; cbn; auto; try discriminate. intros E. destruct (Q E); auto.
        -- assert (I : (i < List.length vs)%nat) by (apply nth_error_Some; congruence).
           constructor; cbn; auto; try discriminate.
           ++ rewrite update_length. auto.
           ++ intros j w. rewrite update_nth. nob i j; intros J.
              ** subst j. rewrite N in J. inv J. rewrite Nat.ltb_irrefl, Nat.eqb_refl. left.
                 specialize (C i v N). cbn in C. rewrite Nat.ltb_irrefl in C. destruct C as (C1 & C2 & C3).
                 split; [exact C1|]. auto.
              ** specialize (C j w J). cbn in C. nob j i. auto.
           ++ intros k f [= <- <-]. lia.
      * assert (I : (List.length vs <= i)%nat) by (apply nth_error_None; auto).
        inv H. constructor; cbn; auto; try discriminate.
        -- intros j w J E. assert (JJ : (j < List.length vs)%nat) by (apply nth_error_Some; congruence).
           specialize (C j w J). cbn in C. ltb j i. auto.
        -- intros E. destruct (Q E) as [Q1 ->]. auto.
    + destruct (nth_error vs i) as [v|] eqn:N; [|discriminate]. destruct (v_down v) eqn:D; [|discriminate]. inv H.
      assert (I : (i < List.length vs)%nat) by (apply nth_error_Some; congruence).
      constructor; cbn; auto; try discriminate.
      * intros j w J. specialize (C j w J). cbn in C. ltb j i; ltb j (S i); auto; nob j i; auto.
        subst j. rewrite N in J. inv J. destruct C as [(_ & _ & C)|C]; [congruence|exact C].
      * intros k f [= <- <-]. lia.
  - (* handler *)
    unfold handler_step, terminate in H. cbn in H.
    destruct p; try discriminate; (destruct pend; [|discriminate]); inv H; constructor; cbn; auto; try discriminate;
      intros E; destruct (Q E); discriminate.
  - (* signal *)
    unfold signal_step in H. cbn in H. destruct (over p) eqn:O; [discriminate|].
    destruct (match sig with SIGINT => hi | SIGTERM => ht end).
    + inv H. destruct p; cbn in *; try discriminate O; constructor; cbn; auto; try discriminate.
    + inv H. constructor; cbn; auto; try discriminate.
      intros E. destruct (Q E); auto.
  - (* threads *)
    unfold thread_step in H. cbn in H. destruct (over p) eqn:O; [discriminate|].
    destruct (nth_error vs i) as [v|] eqn:N; [|discriminate].
    assert (X : exists w, s' = State p run pend hi ht (update i w vs) sg /\
              (forall k, class p k v -> i = k -> class p k w)).
    { destruct a, (v_thread v) eqn:T; try discriminate; unfold set_svc in H; cbn in H.
      - inv H. eexists. split; [reflexivity|]. intros k CC <-.
        assert (G : (live v -> live (Svc (v_unix v) TServing (v_request v) false)) /\
                    (called v -> called (Svc (v_unix v) TServing (v_request v) false)) /\ ~ unborn v /\ ~ gone v).
        { unfold live, called, unborn, gone, working. cbn. rewrite T. repeat split; try tauto; intros (? & ? & ?); discriminate. }
        destruct G as (G1 & G2 & G3 & G4).
        destruct p; cbn in *; try discriminate O; auto; try tauto; try (ltb i i0; tauto).
        ltb i i0; [tauto|]. nob i i0; tauto.
      - destruct (v_request v) eqn:R; [discriminate|]. inv H. eexists. split; [reflexivity|]. intros k CC <-.
        assert (G : (live v -> live (Svc (v_unix v) TAccept false (v_down v))) /\ ~ called v /\ ~ unborn v /\ ~ gone v).
        { unfold live, called, unborn, gone, working. cbn. rewrite T, R. repeat split; try tauto; intros (? & ? & ?); discriminate. }
        destruct G as (G1 & G2 & G3 & G4).
        destruct p; cbn in *; try discriminate O; auto; try tauto; try (ltb i i0; tauto).
        ltb i i0; [tauto|]. nob i i0; tauto.
      - inv H. eexists. split; [reflexivity|]. intros k CC <-.
        assert (G : (live v -> live (Svc (v_unix v) TServing (v_request v) (v_down v))) /\
                    (called v -> called (Svc (v_unix v) TServing (v_request v) (v_down v))) /\ ~ unborn v /\ ~ gone v).
        { unfold live, called, unborn, gone, working. cbn. rewrite T. repeat split; try tauto; intros (? & ? & ?); discriminate. }
        destruct G as (G1 & G2 & G3 & G4).
        destruct p; cbn in *; try discriminate O; auto; try tauto; try (ltb i i0; tauto).
        ltb i i0; [tauto|]. nob i i0; tauto.
      - destruct (v_request v) eqn:R; [|discriminate]. inv H. eexists. split; [reflexivity|]. intros k CC <-.
        assert (G : gone (Svc (v_unix v) TDone false true) /\ ~ live v /\ ~ unborn v /\ ~ gone v).
        { unfold live, called, unborn, gone, working. cbn. rewrite T, R. repeat split; try tauto; intros (? & ? & ?); discriminate. }
        destruct G as (G1 & G2 & G3 & G4).
        destruct p; cbn in *; try discriminate O; auto; try tauto; try (ltb i i0; tauto).
        ltb i i0; [tauto|]. nob i i0; tauto. }
    destruct X as (w & -> & X). constructor; cbn; auto.
    + rewrite update_length. auto.
    + intros j u. rewrite update_nth. nob i j; intros J; [|apply C; auto].
      subst j. rewrite N in J. inv J. apply X; auto.
Qed.

Lemma exec_inv n tr : forall s s', Inv n s -> exec tr s = Some s' -> Inv n s'.
Proof.
  induction tr as [|l tr IH]; cbn; intros s s' I H; [inv H; auto|].
  destruct (step l s) as [s1|] eqn:S; [|discriminate]. eauto using step_inv.
Qed.

Lemma reached_inv svcs s : fresh svcs -> reached svcs s -> Inv (List.length svcs) s.
Proof. intros F [tr H]. eapply exec_inv; eauto. apply ready_inv; auto. Qed.

Lemma exec_app tr1 : forall s tr2, exec (tr1 ++ tr2) s = match exec tr1 s with Some s1 => exec tr2 s1 | None => None end.
Proof. induction tr1 as [|l tr1 IH]; cbn; intros; auto. destruct (step l s); auto. Qed.

(* ---- termination ---- *)

Definition thread_left (v : option svc) : nat :=
  match v with
  | Some v => match v_thread v with TReady | TAccept => 2 | TServing => 1 | _ => 0 end
  | None => 0
  end%nat.
Definition left (n : nat) (s : state) : nat :=
  match s_pc s with
  | MStartSvc i => 5 * n + 4 + (n - i)
  | MNotify | MWoken => 5 * n + 3
  | MCheck => 5 * n + 2
  | MStop i _ => 5 * (n - i) + 1
  | MWait i _ => 5 * (n - i) - 2 + thread_left (nth_error (s_svcs s) i)
  | _ => 0
  end%nat.

Lemma asked_step n l s s' : Inv n s -> asked s -> step l s = Some s' ->
  (asked s' \/ ended s') /\ (left n s' <= left n s)%nat /\
  (useful s l = true -> (left n s' < left n s)%nat).
Proof.
  intros I A H. pose proof (i_class _ _ I) as C. pose proof (i_len _ _ I) as L.
  pose proof (i_wait _ _ I) as W1. pose proof (i_start _ _ I) as W2. pose proof (i_stop _ _ I) as W3.
  pose proof (i_handlers _ _ I) as HH. clear I.
  destruct s as [p run pend hi ht vs sg]. unfold asked in A. cbn [s_pc s_running s_pending s_int s_term s_svcs s_signals] in *.
  assert (TL : forall o, (thread_left o <= 2)%nat).
  { intros [v|]; cbn; [destruct (v_thread v)|]; lia. }
  destruct l as [ok| |sig|i a]; cbn [step] in H.
  - unfold main_step, set_pc, set_svc, terminate in H. cbn in H.
    assert (G : (asked s' \/ ended s') /\ (left n s' < left n (State p run pend hi ht vs sg))%nat).
    { destruct p; cbn in *; try contradiction.
      - specialize (W2 _ eq_refl). destruct (nth_error vs i) as [v|] eqn:N; [destruct ok|]; inv H.
        + assert (I : (i < List.length vs)%nat) by (apply nth_error_Some; congruence).
          split; [left; exact A|]. unfold left. cbn -[Nat.mul]. lia.
        + split; [right; eexists; reflexivity|]. unfold left. cbn -[Nat.mul]. lia.
        + split; [left; exact A|]. unfold left. cbn -[Nat.mul]. lia.
      - inv H. destruct ok; (split; [left; cbn; auto; exact A || exact I|]); unfold left; cbn -[Nat.mul]; lia.
      - rewrite A in H. inv H. split; [left; exact I|]. unfold left; cbn -[Nat.mul]; lia.
      - inv H. split; [left; reflexivity|]. unfold left; cbn -[Nat.mul]; lia.
      - specialize (W3 _ _ eq_refl). destruct (nth_error vs i) as [v|] eqn:N.
        + assert (I' : (i < List.length vs)%nat) by (apply nth_error_Some; congruence).
          destruct (negb ok && v_unix v); inv H.
          * split; [right; eexists; reflexivity|]. unfold left; cbn -[Nat.mul]; lia.
          * split; [left; exact I|]. unfold left; cbn -[Nat.mul thread_left].
            match goal with |- context [thread_left ?o] => pose proof (TL o) end. lia.
        + inv H. split; [right; eexists; reflexivity|]. unfold left; cbn -[Nat.mul]; lia.
      - specialize (W1 _ _ eq_refl). destruct (nth_error vs i) as [v|] eqn:N; [|discriminate].
        destruct (v_down v) eqn:D; [|discriminate]. inv H.
        split; [left; exact I|]. unfold left; cbn -[Nat.mul thread_left]. lia. }
    destruct G as [G1 G2]. split; [exact G1|]. split; [lia|auto].
  - unfold handler_step, terminate in H. cbn in H.
    destruct p; try contradiction; try discriminate; (destruct pend; [|discriminate]); inv H;
      (split; [left; cbn; auto|split; [unfold left; cbn; lia|discriminate]]).
  - unfold signal_step in H. cbn in H. destruct (over p) eqn:O; [discriminate|].
    assert (HA : hi = true /\ ht = true) by (destruct p; try contradiction; auto). destruct HA as [-> ->].
    replace (match sig with SIGINT => true | SIGTERM => true end) with true in H by (destruct sig; auto). inv H.
    destruct p; try contradiction; (split; [left; cbn; auto|split; [unfold left; cbn; lia|discriminate]]).
  - unfold thread_step in H. cbn in H. destruct (over p) eqn:O; [discriminate|].
    destruct (nth_error vs i) as [v|] eqn:N; [|discriminate].
    assert (X : exists w, s' = State p run pend hi ht (update i w vs) sg /\
       ((a = Poll /\ v_request v = false) \/ (thread_left (Some w) < thread_left (Some v))%nat)).
    { destruct a, (v_thread v) eqn:T; try discriminate; unfold set_svc in H; cbn in H.
      - inv H. eexists. split; [reflexivity|]. right. cbn. rewrite T. lia.
      - destruct (v_request v) eqn:R; [discriminate|]. inv H. eexists. split; [reflexivity|]. auto.
      - inv H. eexists. split; [reflexivity|]. right. cbn. rewrite T. lia.
      - destruct (v_request v) eqn:R; [|discriminate]. inv H. eexists. split; [reflexivity|]. right. cbn. rewrite T. lia. }
    destruct X as (w & -> & X).
    split; [left; destruct p; try contradiction; exact A|].
    destruct p; try contradiction; unfold left; cbn [s_pc s_svcs useful]; try (split; [lia|discriminate]).
    rewrite update_nth. destruct (Nat.eqb_spec i i0) as [EE|EE].
    + subst i0. rewrite N. specialize (C i v N). cbn [class] in C. rewrite Nat.ltb_irrefl, Nat.eqb_refl in C.
      specialize (W1 _ _ eq_refl).
      destruct X as [[-> X]|X]; [|lia].
      exfalso. destruct C as [(_ & C & _)|(C & _ & _)]; [congruence|].
      cbn in H. rewrite C in H. discriminate.
    + split; [lia|]. discriminate.
Qed.

Lemma asked_work n tr : forall s s', Inv n s -> asked s -> exec tr s = Some s' ->
  (asked s' \/ ended s') /\ (work tr s + left n s' <= left n s)%nat.
Proof.
  induction tr as [|l tr IH]; cbn [exec work]; intros s s' I A H; [inv H; split; auto; cbn; lia|].
  destruct (step l s) as [s1|] eqn:S; [|discriminate].
  destruct (asked_step _ _ _ _ I A S) as (B & D1 & D2).
  assert (I1 := step_inv _ _ _ _ I S).
  destruct B as [B|B].
  - destruct (IH _ _ I1 B H) as [E1 E2]. split; auto.
    destruct (useful s l); [specialize (D2 eq_refl)|]; lia.
  - destruct tr as [|l2 tr].
    + cbn in H. inv H. split; auto. cbn [work]. destruct (useful s l); [specialize (D2 eq_refl)|]; lia.
    + exfalso. cbn [exec] in H. destruct B as [c B].
      destruct l2 as [ok| |sig|i a]; cbn in H; unfold main_step, handler_step, signal_step, thread_step in H;
        rewrite B in H; discriminate.
Qed.

Lemma left_bound n s : (left n s <= 6 * n + 4)%nat.
Proof.
  unfold left. destruct (s_pc s); try lia.
  assert (H : forall o, (thread_left o <= 2)%nat).
  { intros [v|]; cbn; [destruct (v_thread v)|]; lia. }
  specialize (H (nth_error (s_svcs s) i)). lia.
Qed.

Lemma asked_not_stuck n s : Inv n s -> asked s -> exists l s', useful s l = true /\ step l s = Some s'.
Proof.
  intros I A. pose proof (i_class _ _ I) as C. pose proof (i_wait _ _ I) as W1. pose proof (i_len _ _ I) as L.
  destruct s as [p run pend hi ht vs sg]. cbn [s_pc s_svcs] in *.
  destruct p; cbn in A; try contradiction.
  - exists (LMain true). cbn. destruct (nth_error vs i); eexists; split; reflexivity.
  - exists (LMain true). eexists. split; reflexivity.
  - exists (LMain true). cbn. eexists. split; reflexivity.
  - exists (LMain true). eexists. split; reflexivity.
  - exists (LMain true). cbn. destruct (nth_error vs i); eexists; split; reflexivity.
  - specialize (W1 _ _ eq_refl). destruct (nth_error vs i) as [v|] eqn:N.
    2: { apply nth_error_None in N. lia. }
    specialize (C i v N). cbn in C. rewrite Nat.ltb_irrefl, Nat.eqb_refl in C.
    destruct C as [(C1 & C2 & C3)|(C1 & C2 & C3)].
    + destruct C1 as [T|[T|T]].
      * exists (LThread i Enter). cbn. unfold thread_step. cbn. rewrite N, T, Nat.eqb_refl. eexists. split; reflexivity.
      * exists (LThread i Leave). cbn. unfold thread_step. cbn. rewrite N, T, C2, Nat.eqb_refl. eexists. split; reflexivity.
      * exists (LThread i Accept). cbn. unfold thread_step. cbn. rewrite N, T, Nat.eqb_refl. eexists. split; reflexivity.
    + exists (LMain true). cbn. unfold main_step. cbn. rewrite N, C3. eexists. split; reflexivity.
Qed.

(* Only a signal wakes a sleeping main thread. *)
Lemma blocked_stays tr : forall s s', s_pc s = MBlocked -> quiet tr -> exec tr s = Some s' ->
  s_pc s' = MBlocked /\ s_running s' = s_running s.
Proof.
  induction tr as [|l tr IH]; cbn [exec]; intros s s' P Q H; [inv H; auto|].
  inversion Q as [|? ? Q1 Q2]; subst.
  destruct (step l s) as [s1|] eqn:S; [|discriminate].
  assert (X : s_pc s1 = MBlocked /\ s_running s1 = s_running s).
  { destruct l as [ok| |sig|i a]; cbn in S.
    - unfold main_step in S. rewrite P in S. discriminate.
    - unfold handler_step in S. rewrite P in S. discriminate.
    - discriminate.
    - unfold thread_step in S. rewrite P in S. cbn in S.
      destruct (nth_error (s_svcs s) i) as [v|]; [|discriminate].
      destruct a, (v_thread v); try discriminate; try (inv S; auto);
        destruct (v_request v); try discriminate; inv S; auto. }
  destruct X as [X1 X2]. destruct (IH _ _ X1 Q2 H). split; congruence.
Qed.

(* ---- exit status ---- *)

Definition clean (s : state) : Prop :=
  match s_pc s with
  | MStop _ f | MWait _ f => f = false
  | MExit c => c = 0
  | MInstallInt | MInstallTerm | MStart => s_running s = false
  | _ => True
  end.
Lemma clean_step l s s' : fine l -> clean s -> step l s = Some s' -> clean s'.
Proof.
  unfold clean, fine. intros F C H. destruct s as [p run pend hi ht vs sg]. cbn [s_pc s_running] in *.
  destruct l as [ok| |sig|i a]; cbn [step] in H.
  - destruct ok; [|congruence]. unfold main_step, set_pc, set_svc, terminate in H. cbn in H.
    destruct p; try discriminate; try (inv H; cbn; auto; fail).
    + subst run. inv H. cbn. auto.
    + destruct (nth_error vs i); inv H; cbn; auto.
    + inv H. destruct run; cbn; auto.
    + destruct (nth_error vs i); inv H; cbn; auto. rewrite C. auto.
    + destruct (nth_error vs i) as [v|]; [|discriminate]. destruct (v_down v); [|discriminate]. inv H. cbn. auto.
  - unfold handler_step, terminate in H. cbn in H. destruct p; try discriminate; (destruct pend; [|discriminate]); inv H; cbn; auto.
  - unfold signal_step in H. cbn in H. destruct (over p); [discriminate|].
    destruct (match sig with SIGINT => hi | SIGTERM => ht end); inv H; cbn; auto. destruct p; auto.
  - unfold thread_step in H. cbn in H. destruct (over p); [discriminate|].
    destruct (nth_error vs i) as [v|]; [|discriminate].
    destruct a, (v_thread v); try discriminate; try (inv H; exact C); destruct (v_request v); try discriminate; inv H; exact C.
Qed.
Lemma clean_exec tr : forall s s', Forall fine tr -> clean s -> exec tr s = Some s' -> clean s'.
Proof.
  induction tr as [|l tr IH]; cbn [exec]; intros s s' F C H; [inv H; auto|].
  inversion F; subst. destruct (step l s) as [s1|] eqn:S; [|discriminate]. eauto using clean_step.
Qed.

Definition bad (s : state) : Prop :=
  match s_pc s with MStop _ f | MWait _ f => f = true | MExit c => c = 1 | _ => False end.
Lemma bad_step n l s s' : Inv n s -> bad s -> step l s = Some s' -> bad s'.
Proof.
  intros I C H. pose proof (i_handlers _ _ I) as HH. unfold bad in *.
  destruct s as [p run pend hi ht vs sg]. cbn [s_pc s_running s_int s_term] in *.
  destruct l as [ok| |sig|i a]; cbn [step] in H.
  - unfold main_step, set_pc, set_svc, terminate in H. cbn in H.
    destruct p; try contradiction; try discriminate.
    + destruct (nth_error vs i) as [v|]; [|inv H; cbn; rewrite C; auto].
      destruct (negb ok && v_unix v); inv H; cbn; auto.
    + destruct (nth_error vs i) as [v|]; [|discriminate]. destruct (v_down v); [|discriminate]. inv H. cbn. auto.
  - unfold handler_step, terminate in H. cbn in H. destruct p; try discriminate; (destruct pend; [|discriminate]); inv H; cbn; auto.
  - unfold signal_step in H. cbn in H. destruct (over p) eqn:O; [discriminate|].
    destruct p; try contradiction; destruct HH as [-> ->]; destruct sig; inv H; cbn; auto; discriminate.
  - unfold thread_step in H. cbn in H. destruct (over p); [discriminate|].
    destruct (nth_error vs i) as [v|]; [|discriminate].
    destruct a, (v_thread v); try discriminate; try (inv H; exact C); destruct (v_request v); try discriminate; inv H; exact C.
Qed.
Lemma bad_exec n tr : forall s s', Inv n s -> bad s -> exec tr s = Some s' -> bad s'.
Proof.
  induction tr as [|l tr IH]; cbn [exec]; intros s s' F C H; [inv H; auto|].
  destruct (step l s) as [s1|] eqn:S; [|discriminate]. eauto using bad_step, step_inv.
Qed.

(* ---- starting ---- *)

(* Programs that do not change the credentials, and make only some calls. *)
Definition keeps (f : event -> bool) (m : M unit) : Prop :=
  forall s, s_cred (snd (m s)) = s_cred s /\
    exists l, s_log (snd (m s)) = l ++ s_log s /\
      Forall (fun e => f (fst e) = true /\ snd e = s_cred s) l.

Lemma keeps_ret f : keeps f (ret tt).
Proof. intros s. split; auto. exists []. auto. Qed.
Lemma keeps_fail f e : keeps f (fail e).
Proof. intros s. split; auto. exists []. auto. Qed.
Lemma keeps_seq f m k : keeps f m -> keeps f k -> keeps f (seq m k).
Proof.
  intros A B s. unfold seq, bind. destruct (A s) as (A1 & l1 & A2 & A3).
  destruct (m s) as [[u|e] s1]; cbn [snd] in *; [|split; [exact A1|exists l1; auto]].
  destruct (B s1) as (B1 & l2 & B2 & B3). split; [congruence|]. exists (l2 ++ l1).
  rewrite B2, A2, app_assoc. split; auto. apply Forall_app. rewrite <- A1. split; auto.
  rewrite A1. auto.
Qed.
Lemma keeps_when f b m : (b = true -> keeps f m) -> keeps f (when b m).
Proof. destruct b; cbn; auto using keeps_ret. Qed.
Lemma keeps_dep f (g : st -> M unit) : (forall s, keeps f (g s)) -> keeps f (fun s => g s s).
Proof. intros H s. apply (H s s). Qed.
Lemma keeps_each f {A} (l : list A) g : (forall a, keeps f (g a)) -> keeps f (each l g).
Proof. intros H. induction l; cbn; auto using keeps_ret, keeps_seq. Qed.
Lemma keeps_call y f ev eff : f ev = true ->
  (forall c fs c' fs', eff c fs = Some (c', fs') -> c' = c) -> keeps f (call y ev eff).
Proof.
  intros F H s. unfold call. destruct (y_fail y (s_calls s)); cbn.
  - split; auto. exists [(ev, s_cred s)]. auto.
  - destruct (eff (s_cred s) (s_files s)) as [[c' fs']|] eqn:E; cbn.
    + apply H in E. subst. split; auto. exists [(ev, s_cred s)]. auto.
    + split; auto. exists [(ev, s_cred s)]. auto.
Qed.

Definition setting_up (e : event) : bool :=
  match e with EBindTcp _ | EBindAbstract | EBindPath _ | EChmod _ _ => true | _ => false end.
Definition chowning (e : event) : bool := match e with EChown _ _ _ => true | _ => false end.

Section S.
Variable y : system.

Definition setup (c : config) : M unit :=
  seq (remote_service y c) (seq (when (c_local c) (local_service y c)) (when (c_control c) (control_service y c))).
Definition dropping (c : config) : M unit :=
  fun s => when (privileged (s_cred s) && c_drop c) (drop_privileges y c) s.
Definition ticketing (c : config) : M unit := match c_ticket c with Some t => add_ticket y t | None => ret tt end.
Definition chowns (c : config) (uid gid : Z) : M unit :=
  seq (fun s => when (match s_files s (c_run_dir c) with Some _ => true | None => false end)
                     (chown y (Path (c_run_dir c)) uid gid) s)
      (seq (each (c_logs c) (fun p => chown y (Path p) uid gid))
           (when (c_control c && match c_transport c with Unix => true | _ => false end)
                 (chown y (c_control_socket c) uid gid))).
Definition becoming (c : config) (uid gid : Z) : M unit :=
  seq (call y (ESetgroups (gid :: y_members y (c_user c)))
           (fun k f => option_map (fun k => (k, f)) (setgroups (gid :: y_members y (c_user c)) k)))
  (seq (call y (ESetgid gid) (fun k f => option_map (fun k => (k, f)) (setgid gid k)))
       (call y (ESetuid uid) (fun k f => option_map (fun k => (k, f)) (setuid uid k)))).

Lemma seq_assoc (a b k : M unit) s : seq (seq a b) k s = seq a (seq b k) s.
Proof. unfold seq, bind. destruct (a s) as [[[]|] s1]; auto. Qed.
Lemma seq_ext (a a' b b' : M unit) : (forall s, a s = a' s) -> (forall s, b s = b' s) -> forall s, seq a b s = seq a' b' s.
Proof. intros A B s. unfold seq, bind. rewrite A. destruct (a' s) as [[[]|] s1]; auto. Qed.

Lemma init_parts c s : init y c s = seq (setup c) (seq (dropping c) (ticketing c)) s.
Proof.
  unfold init, setup. rewrite seq_assoc. apply seq_ext; [reflexivity|]. intros s1. rewrite seq_assoc. reflexivity.
Qed.
Lemma drop_parts c s : drop_privileges y c s =
  match y_user y (c_user c), y_group y (c_group c) with
  | Some uid, Some gid => seq (chowns c uid gid) (becoming c uid gid) s
  | _, _ => fail KeyError s
  end.
Proof.
  unfold drop_privileges. destruct (y_user y (c_user c)) as [uid|]; [|reflexivity].
  destruct (y_group y (c_group c)) as [gid|]; [|reflexivity].
  unfold chowns. rewrite seq_assoc. apply seq_ext; [reflexivity|]. intros s1. rewrite seq_assoc. reflexivity.
Qed.

Lemma keeps_setup c : keeps setting_up (setup c).
Proof.
  assert (BU : forall a, keeps setting_up (bind_unix y a)).
  { intros [|a|p]; apply keeps_call; auto; intros ? ? ? ? [= <- _]; auto. }
  assert (BT : forall p, keeps setting_up (bind_tcp y p)).
  { intros p. apply keeps_call; auto. intros ? ? ? ? [= <- _]; auto. }
  apply keeps_seq; [|apply keeps_seq].
  - unfold remote_service. destruct (negb (valid_port (c_remote_port c))); [apply keeps_fail|].
    apply keeps_seq; auto. destruct (c_tls c && negb (c_tls_files c)); [apply keeps_fail|apply keeps_ret].
  - apply keeps_when. intros _. apply BU.
  - apply keeps_when. intros _. unfold control_service. destruct (c_transport c).
    + destruct (negb (valid_port (c_control_port c))); [apply keeps_fail|auto].
    + apply keeps_seq; auto. destruct (c_control_socket c); try apply keeps_fail.
      apply keeps_call; auto. intros k f k' f'. destruct (f path); [|discriminate].
      destruct (_ || _); [|discriminate]. intros [= <- _]; auto.
    + apply keeps_fail.
Qed.
Lemma keeps_chown a u g : keeps chowning (chown y a u g).
Proof.
  destruct a; try apply keeps_fail. apply keeps_call; auto. intros k f k' f'.
  destruct (f path); [|discriminate]. destruct (privileged k); [|discriminate]. intros [= <- _]; auto.
Qed.
Lemma keeps_chowns c u g : keeps chowning (chowns c u g).
Proof.
  apply keeps_seq; [|apply keeps_seq].
  - apply (keeps_dep chowning (fun s => when _ (chown y (Path (c_run_dir c)) u g))).
    intros s. apply keeps_when. intros _. apply keeps_chown.
  - apply keeps_each. intros. apply keeps_chown.
  - apply keeps_when. intros _. apply keeps_chown.
Qed.

Definition user_cred (c : config) (uid gid : Z) : cred := Cred uid uid uid gid gid gid (gid :: y_members y (c_user c)).

Lemma becoming_spec c uid gid s : privileged (s_cred s) = true ->
  (fst (becoming c uid gid s) = inl tt -> s_cred (snd (becoming c uid gid s)) = user_cred c uid gid /\
     s_files (snd (becoming c uid gid s)) = s_files s) /\
  exists l, s_log (snd (becoming c uid gid s)) = l ++ s_log s /\
    Forall (fun e => is_bind (fst e) = false /\ forall t, fst e <> ETicket t) l.
Proof.
  intros P. unfold becoming, seq, bind, call, setgroups. rewrite P. cbn.
  destruct (y_fail y (s_calls s)); cbn.
  { split; [discriminate|]. eexists [_]. split; [reflexivity|]. repeat constructor; cbn; try reflexivity; intros; discriminate. }
  unfold setgid. change (privileged (Cred _ _ _ _ _ _ _)) with (euid (s_cred s) =? 0). unfold privileged in P. rewrite P.
  destruct (y_fail y _); cbn.
  { split; [discriminate|]. eexists [_;_]. split; [reflexivity|]. repeat constructor; cbn; try reflexivity; intros; discriminate. }
  unfold setuid. change (privileged (Cred _ _ _ _ _ _ _)) with (euid (s_cred s) =? 0). rewrite P.
  destruct (y_fail y _); cbn.
  { split; [discriminate|]. eexists [_;_;_]. split; [reflexivity|]. repeat constructor; cbn; try reflexivity; intros; discriminate. }
  split; [auto|]. eexists [_;_;_]. split; [reflexivity|]. repeat constructor; cbn; try reflexivity; intros; discriminate.
Qed.

Lemma drop_spec c s : privileged (s_cred s) = true ->
  (fst (drop_privileges y c s) = inl tt -> exists uid gid,
     y_user y (c_user c) = Some uid /\ y_group y (c_group c) = Some gid /\
     s_cred (snd (drop_privileges y c s)) = user_cred c uid gid) /\
  exists l, s_log (snd (drop_privileges y c s)) = l ++ s_log s /\
    Forall (fun e => is_bind (fst e) = false /\ forall t, fst e <> ETicket t) l.
Proof.
  intros P. rewrite drop_parts.
  destruct (y_user y (c_user c)) as [uid|]; [|split; [discriminate|exists []; auto]].
  destruct (y_group y (c_group c)) as [gid|]; [|split; [discriminate|exists []; auto]].
  unfold seq, bind. destruct (keeps_chowns c uid gid s) as (K1 & l1 & K2 & K3).
  assert (K3' : Forall (fun e : event * cred => is_bind (fst e) = false /\ forall t, fst e <> ETicket t) l1).
  { eapply Forall_impl; [|exact K3]. intros [e k] [E _]. cbn in *. destruct e; try discriminate. split; [reflexivity|intros; discriminate]. }
  destruct (chowns c uid gid s) as [[[]|e] s1]; cbn [fst snd] in *.
  2: { split; [discriminate|]. exists l1. auto. }
  assert (P1 : privileged (s_cred s1) = true) by congruence.
  destruct (becoming_spec c uid gid s1 P1) as (B1 & l2 & B2 & B3). split.
  - intros H. destruct (B1 H). eauto.
  - exists (l2 ++ l1). rewrite B2, K2, app_assoc. split; auto. apply Forall_app; auto.
Qed.
End S.

(* ---- files ---- *)

Section F.
Variable y : system.

Lemma seq_ok (a b : M unit) s s' : seq a b s = (inl tt, s') -> exists s1, a s = (inl tt, s1) /\ b s1 = (inl tt, s').
Proof. unfold seq, bind. destruct (a s) as [[[]|] s1]; [eauto|discriminate]. Qed.
Lemma seq_run (a b : M unit) s s1 : a s = (inl tt, s1) -> seq a b s = b s1.
Proof. unfold seq, bind. intros ->. auto. Qed.

Lemma call_ok ev eff s s' : call y ev eff s = (inl tt, s') ->
  eff (s_cred s) (s_files s) = Some (s_cred s', s_files s').
Proof.
  unfold call. destruct (y_fail y (s_calls s)); [discriminate|].
  destruct (eff (s_cred s) (s_files s)) as [[c f]|]; [|discriminate]. intros [= <-]. auto.
Qed.

Lemma set_file_same p m f : set_file p m f p = Some m.
Proof. unfold set_file. rewrite String.eqb_refl. auto. Qed.

Lemma chown_ok p u g s s' : chown y (Path p) u g s = (inl tt, s') ->
  s_cred s' = s_cred s /\ (exists m, s_files s p = Some m /\ s_files s' p = Some (Meta u g (m_mode m))) /\
  forall q, option_map m_mode (s_files s' q) = option_map m_mode (s_files s q).
Proof.
  intros H. apply call_ok in H. cbn in H. destruct (s_files s p) as [m|] eqn:E; [|discriminate].
  destruct (privileged (s_cred s)); [|discriminate]. injection H as <- <-. split; auto. split.
  - exists m. rewrite set_file_same. auto.
  - intros q. unfold set_file. destruct (String.eqb_spec p q); auto. subst. rewrite E. auto.
Qed.

Lemma each_chown_modes l u g : forall s s', each l (fun p => chown y (Path p) u g) s = (inl tt, s') ->
  s_cred s' = s_cred s /\ forall q, option_map m_mode (s_files s' q) = option_map m_mode (s_files s q).
Proof.
  induction l as [|p l IH]; cbn [each]; intros s s' H; [injection H as <-; auto|].
  apply seq_ok in H. destruct H as (s1 & H1 & H2). apply chown_ok in H1. destruct H1 as (A & _ & B).
  destruct (IH _ _ H2) as (C & D). split; [congruence|]. intros q. rewrite D, B. auto.
Qed.

Lemma setup_control c p s s' : setup y c s = (inl tt, s') -> c_control c = true -> c_transport c = Unix ->
  c_control_socket c = Path p ->
  s_files s' p = Some (Meta (euid (s_cred s)) (egid (s_cred s)) DEFAULT_SOCKET_MODE).
Proof.
  intros H C T P. destruct (keeps_setup y c s) as (K & _). rewrite H in K. cbn [snd] in K.
  unfold setup in H. apply seq_ok in H. destruct H as (s1 & _ & H).
  apply seq_ok in H. destruct H as (s2 & _ & H). rewrite C in H. cbn [when] in H.
  unfold control_service in H. rewrite T, P in H. apply seq_ok in H. destruct H as (s3 & H1 & H2).
  apply call_ok in H1. injection H1 as A1 A2. apply call_ok in H2. rewrite <- A2, set_file_same in H2.
  destruct (_ || _); [|discriminate]. injection H2 as B1 B2. rewrite <- B2, set_file_same. cbn [m_uid m_gid].
  congruence.
Qed.

Lemma ticket_ok c s s' : ticketing y c s = (inl tt, s') -> s_cred s' = s_cred s /\ s_files s' = s_files s.
Proof.
  unfold ticketing. destruct (c_ticket c); [|intros [= <-]; auto]. intros H. apply call_ok in H.
  injection H as -> ->. auto.
Qed.

Lemma drop_control c p s s' : drop_privileges y c s = (inl tt, s') -> privileged (s_cred s) = true ->
  c_control c = true -> c_transport c = Unix -> c_control_socket c = Path p ->
  forall m, s_files s p = Some m -> exists uid gid, y_user y (c_user c) = Some uid /\ y_group y (c_group c) = Some gid /\
    s_files s' p = Some (Meta uid gid (m_mode m)).
Proof.
  intros H PR C T P m M. rewrite drop_parts in H.
  destruct (y_user y (c_user c)) as [uid|]; [|discriminate].
  destruct (y_group y (c_group c)) as [gid|]; [|discriminate]. exists uid, gid. split; auto. split; auto.
  apply seq_ok in H. destruct H as (s1 & H1 & H2).
  destruct (keeps_chowns y c uid gid s) as (K & _). rewrite H1 in K. cbn [snd] in K.
  assert (P1 : privileged (s_cred s1) = true) by congruence.
  destruct (becoming_spec y c uid gid s1 P1) as (B & _). rewrite H2 in B. cbn [fst snd] in B. destruct (B eq_refl) as [_ ->].
  unfold chowns in H1. apply seq_ok in H1. destruct H1 as (s2 & D1 & H1).
  apply seq_ok in H1. destruct H1 as (s3 & D2 & D3).
  assert (E1 : option_map m_mode (s_files s2 p) = option_map m_mode (s_files s p)).
  { destruct (s_files s (c_run_dir c)); cbn [when] in D1; [|injection D1 as <-; auto].
    apply chown_ok in D1. apply D1. }
  destruct (each_chown_modes _ _ _ _ _ D2) as (_ & E2).
  rewrite C, T in D3. cbn [andb when] in D3. rewrite P in D3. apply chown_ok in D3.
  destruct D3 as (_ & (m3 & F1 & F2) & _). rewrite F2. f_equal. f_equal.
  specialize (E2 p). rewrite E1, M, F1 in E2. cbn in E2. congruence.
Qed.

(* ---- success ---- *)

Hypothesis nofail : forall i, y_fail y i = false.

Definition grows (s s' : st) : Prop :=
  s_cred s' = s_cred s /\ forall p, s_files s p <> None -> s_files s' p <> None.
Lemma grows_refl s : grows s s.
Proof. split; auto. Qed.
Lemma grows_trans a b c : grows a b -> grows b c -> grows a c.
Proof. intros [A1 A2] [B1 B2]. split; [congruence|auto]. Qed.

Lemma call_run ev eff s c f : eff (s_cred s) (s_files s) = Some (c, f) ->
  exists s', call y ev eff s = (inl tt, s') /\ s_cred s' = c /\ s_files s' = f.
Proof. intros H. unfold call. rewrite nofail, H. eexists. split; [reflexivity|]. auto. Qed.

Lemma set_file_grows p m f q : f q <> None -> set_file p m f q <> None.
Proof. unfold set_file. destruct (String.eqb p q); auto. discriminate. Qed.

Lemma bind_tcp_run p s : exists s', bind_tcp y p s = (inl tt, s') /\ grows s s'.
Proof.
  destruct (call_run (EBindTcp p) (fun c f => Some (c, f)) s _ _ eq_refl) as (s' & A & B & C).
  exists s'. split; auto. split; auto. rewrite C. auto.
Qed.
Lemma bind_unix_run a s : exists s', bind_unix y a s = (inl tt, s') /\ grows s s' /\
  forall p, a = Path p -> s_files s' p = Some (Meta (euid (s_cred s)) (egid (s_cred s)) (y_umask y)).
Proof.
  destruct a as [|a|p].
  - destruct (call_run EBindAbstract (fun c f => Some (c, f)) s _ _ eq_refl) as (s' & A & B & C).
    exists s'. split; auto. split; [|discriminate]. split; auto. rewrite C. auto.
  - destruct (call_run EBindAbstract (fun c f => Some (c, f)) s _ _ eq_refl) as (s' & A & B & C).
    exists s'. split; auto. split; [|discriminate]. split; auto. rewrite C. auto.
  - destruct (call_run (EBindPath p) (fun c f => Some (c, set_file p (Meta (euid c) (egid c) (y_umask y)) f)) s _ _ eq_refl)
      as (s' & A & B & C).
    exists s'. split; auto. split.
    + split; auto. rewrite C. intros q. apply set_file_grows.
    + intros q [= <-]. rewrite C, set_file_same. auto.
Qed.
Lemma chown_run p u g s : privileged (s_cred s) = true -> s_files s p <> None ->
  exists s', chown y (Path p) u g s = (inl tt, s') /\ grows s s'.
Proof.
  intros P N. destruct (s_files s p) as [m|] eqn:E; [|congruence].
  destruct (call_run (EChown p u g) (fun k f => match f p with
      | Some m => if privileged k then Some (k, set_file p (Meta u g (m_mode m)) f) else None | None => None end) s
      (s_cred s) (set_file p (Meta u g (m_mode m)) (s_files s))) as (s' & A & B & C).
  { rewrite E, P. auto. }
  exists s'. split; auto. split; auto. rewrite C. intros q. apply set_file_grows.
Qed.
Lemma each_chown_run l u g : forall s, privileged (s_cred s) = true -> Forall (fun p => s_files s p <> None) l ->
  exists s', each l (fun p => chown y (Path p) u g) s = (inl tt, s') /\ grows s s'.
Proof.
  induction l as [|p l IH]; cbn [each]; intros s P F; [exists s; split; auto using grows_refl|].
  inversion F; subst. destruct (chown_run p u g s P) as (s1 & A & B); auto.
  destruct (IH s1) as (s2 & C & D).
  - destruct B. congruence.
  - eapply Forall_impl; [|eassumption]. intros q. apply B.
  - exists s2. rewrite (seq_run _ _ _ _ A). split; eauto using grows_trans.
Qed.

Lemma setup_run c s : 0 <= c_remote_port c <= 65534 -> (c_tls c = true -> c_tls_files c = true) ->
  (c_control c = true ->
     match c_transport c with
     | Tcp => 0 <= c_control_port c <= 65534
     | Unix => exists p, c_control_socket c = Path p
     | OtherTransport => False
     end) ->
  exists s', setup y c s = (inl tt, s') /\ grows s s' /\
    (c_control c = true -> c_transport c = Unix -> forall p, c_control_socket c = Path p -> s_files s' p <> None).
Proof.
  intros P T C. unfold setup, remote_service.
  assert (V : forall p, 0 <= p <= 65534 -> valid_port p = true).
  { intros p R. unfold valid_port. apply andb_true_iff. split; [apply Z.leb_le|apply Z.ltb_lt]; lia. }
  rewrite (V _ P). cbn [negb].
  destruct (bind_tcp_run (c_remote_port c) s) as (s1 & A1 & G1).
  assert (B1 : seq (bind_tcp y (c_remote_port c))
     (if c_tls c && negb (c_tls_files c) then fail TlsConfigurationError else ret tt) s = (inl tt, s1)).
  { rewrite (seq_run _ _ _ _ A1). destruct (c_tls c); [rewrite (T eq_refl)|]; auto. }
  rewrite (seq_run _ _ _ _ B1).
  assert (L : exists s2, when (c_local c) (local_service y c) s1 = (inl tt, s2) /\ grows s1 s2).
  { destruct (c_local c); cbn [when]; [|exists s1; split; auto using grows_refl].
    destruct (bind_unix_run (c_local_socket c) s1) as (s2 & A2 & G2 & _). eauto. }
  destruct L as (s2 & B2 & G2). rewrite (seq_run _ _ _ _ B2).
  destruct (c_control c) eqn:CC; cbn [when].
  2: { exists s2. split; [reflexivity|]. split; [eauto using grows_trans|discriminate]. }
  specialize (C eq_refl). unfold control_service. destruct (c_transport c) eqn:TT; [| |contradiction].
  - rewrite (V _ C). cbn [negb]. destruct (bind_tcp_run (c_control_port c) s2) as (s3 & A3 & G3).
    exists s3. split; auto. split; [eauto using grows_trans|discriminate].
  - destruct C as [p C]. rewrite C. destruct (bind_unix_run (Path p) s2) as (s3 & A3 & G3 & E3).
    rewrite (seq_run _ _ _ _ A3). specialize (E3 p eq_refl).
    destruct (call_run (EChmod p DEFAULT_SOCKET_MODE) (fun c f => match f p with
      | Some m => if privileged c || (m_uid m =? euid c)
                  then Some (c, set_file p (Meta (m_uid m) (m_gid m) DEFAULT_SOCKET_MODE) f) else None
      | None => None end) s3 (s_cred s3)
      (set_file p (Meta (euid (s_cred s2)) (egid (s_cred s2)) DEFAULT_SOCKET_MODE) (s_files s3))) as (s4 & A4 & B4 & C4).
    { rewrite E3. cbn [m_uid m_gid]. destruct G3 as [-> _]. rewrite Z.eqb_refl, orb_true_r. auto. }
    exists s4. split; [exact A4|]. split.
    + eapply grows_trans; [exact G1|]. eapply grows_trans; [exact G2|]. eapply grows_trans; [exact G3|].
      split; auto. rewrite C4. intros q. apply set_file_grows.
    + intros _ _ q [= <-]. rewrite C4, set_file_same. discriminate.
Qed.

Lemma drop_run c uid gid s : privileged (s_cred s) = true -> y_user y (c_user c) = Some uid -> y_group y (c_group c) = Some gid ->
  Forall (fun p => s_files s p <> None) (c_logs c) ->
  (c_control c = true -> c_transport c = Unix -> exists p, c_control_socket c = Path p /\ s_files s p <> None) ->
  exists s', drop_privileges y c s = (inl tt, s').
Proof.
  intros P U G L C. rewrite drop_parts, U, G. unfold chowns. rewrite seq_assoc.
  assert (R : exists s1, when (match s_files s (c_run_dir c) with Some _ => true | None => false end)
                     (chown y (Path (c_run_dir c)) uid gid) s = (inl tt, s1) /\ grows s s1).
  { destruct (s_files s (c_run_dir c)) eqn:E; cbn [when]; [|exists s; split; auto using grows_refl].
    apply chown_run; auto. congruence. }
  destruct R as (s1 & A1 & G1).
  match goal with |- exists s', seq ?f ?k s = _ => assert (A1' : f s = (inl tt, s1)) by exact A1 end.
  rewrite (seq_run _ _ _ _ A1'). rewrite seq_assoc.
  assert (P1 : privileged (s_cred s1) = true) by (destruct G1; congruence).
  destruct (each_chown_run (c_logs c) uid gid s1 P1) as (s2 & A2 & G2).
  { eapply Forall_impl; [|eassumption]. intros q. apply G1. }
  rewrite (seq_run _ _ _ _ A2).
  assert (P2 : privileged (s_cred s2) = true) by (destruct G2; congruence).
  assert (R : exists s3, when (c_control c && match c_transport c with Unix => true | _ => false end)
                 (chown y (c_control_socket c) uid gid) s2 = (inl tt, s3) /\ grows s2 s3).
  { destruct (c_control c) eqn:CC; cbn [andb when]; [|exists s2; split; auto using grows_refl].
    destruct (c_transport c) eqn:TT; cbn [andb when]; try (exists s2; split; auto using grows_refl; fail).
    destruct (C eq_refl eq_refl) as (p & C1 & C2). rewrite C1. apply chown_run; auto. apply G2, G1. auto. }
  destruct R as (s3 & A3 & G3). rewrite (seq_run _ _ _ _ A3).
  assert (P3 : privileged (s_cred s3) = true) by (destruct G3; congruence).
  unfold becoming.
  destruct (call_run (ESetgroups (gid :: y_members y (c_user c)))
     (fun k f => option_map (fun k => (k, f)) (setgroups (gid :: y_members y (c_user c)) k)) s3
     (Cred (ruid (s_cred s3)) (euid (s_cred s3)) (suid (s_cred s3)) (rgid (s_cred s3)) (egid (s_cred s3)) (sgid (s_cred s3))
        (gid :: y_members y (c_user c))) (s_files s3)) as (s4 & A4 & B4 & C4).
  { unfold setgroups. rewrite P3. auto. }
  rewrite (seq_run _ _ _ _ A4).
  assert (P4 : privileged (s_cred s4) = true) by (rewrite B4; exact P3).
  destruct (call_run (ESetgid gid) (fun k f => option_map (fun k => (k, f)) (setgid gid k)) s4
     (Cred (ruid (s_cred s4)) (euid (s_cred s4)) (suid (s_cred s4)) gid gid gid (groups (s_cred s4))) (s_files s4)) as (s5 & A5 & B5 & C5).
  { unfold setgid. rewrite P4. auto. }
  rewrite (seq_run _ _ _ _ A5).
  assert (P5 : privileged (s_cred s5) = true) by (rewrite B5; exact P4).
  destruct (call_run (ESetuid uid) (fun k f => option_map (fun k => (k, f)) (setuid uid k)) s5
     (Cred uid uid uid (rgid (s_cred s5)) (egid (s_cred s5)) (sgid (s_cred s5)) (groups (s_cred s5))) (s_files s5)) as (s6 & A6 & _).
  { unfold setuid. rewrite P5. auto. }
  exists s6. exact A6.
Qed.
End F.
