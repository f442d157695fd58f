(* Lemmas about the servers and their names. *)
From Coq Require Import ZArith List Bool Lia Arith.
From Verif Require Import ListenModel ListenSpec.
Import ListNotations.
Open Scope Z_scope.

Lemma pathname_iff a : pathname a = true <-> is_path a.
Proof.
  unfold is_path. destruct a as [|c r]; cbn [pathname].
  - split; [discriminate|]. intros (c & r & H & _). discriminate.
  - destruct (Z.eqb_spec c 0) as [->|H]; cbn [negb].
    + split; [discriminate|]. intros (c' & r' & E & H). injection E as <- <-. congruence.
    + split; [|reflexivity]. intros _. exists c, r. auto.
Qed.

Lemma asked_new given uuid : asked given uuid (new_address given uuid).
Proof. destruct given; [right; split; reflexivity|left; split; [discriminate|reflexivity]]. Qed.

Lemma asked_eq given uuid n : asked given uuid n -> n = new_address given uuid.
Proof. intros [[H ->]|[-> ->]]; [destruct given; [congruence|reflexivity]|reflexivity]. Qed.

(* What holds in every execution. *)
Record inv (w : world) : Prop := {
  i_sock p s : files w p = Some (Sock s) ->
    address w s = p /\ pathname p = true /\ (phase_of w s = Serving \/ phase_of w s = Gone);
  i_abs a s : abstract w a = Some s ->
    address w s = a /\ pathname a = false /\
    (phase_of w s = Serving \/ phase_of w s = Stopping \/ phase_of w s = Stopped);
  i_bound s : phase_of w s = Serving \/ phase_of w s = Stopping \/ phase_of w s = Stopped ->
    pathname (address w s) = false -> abstract w (address w s) = Some s
}.

Lemma inv_init fs : (forall p s, fs p <> Some (Sock s)) -> inv (init fs).
Proof.
  intros H. split; cbn.
  - intros p s E. destruct (H p s E).
  - discriminate.
  - intros s [E|[E|E]]; discriminate.
Qed.

Ltac eqs := repeat match goal with
  | H : context [Nat.eqb ?a ?b] |- _ => revert H; destruct (Nat.eqb_spec a b); [subst|]; intros H
  | |- context [Nat.eqb ?a ?b] => destruct (Nat.eqb_spec a b); [subst|]
  | H : context [name_dec ?a ?b] |- _ => revert H; destruct (name_dec a b); [subst|]; intros H
  | |- context [name_dec ?a ?b] => destruct (name_dec a b); [subst|]
  end.

(* A change of phase of a server without files and names. *)
Lemma inv_phase w s p :
  inv w ->
  (forall q, files w q = Some (Sock s) -> p = Serving \/ p = Gone) ->
  (forall a, abstract w a = Some s -> p = Serving \/ p = Stopping \/ p = Stopped) ->
  (p = Serving \/ p = Stopping \/ p = Stopped -> pathname (address w s) = false -> abstract w (address w s) = Some s) ->
  inv (set_phase w s p).
Proof.
  intros I F A B. split; cbn [files abstract address phase_of set_phase].
  - intros q t E. destruct (i_sock _ I _ _ E) as (E1 & E2 & E3). repeat (split; [assumption|]). eqs; eauto.
  - intros a t E. destruct (i_abs _ I _ _ E) as (E1 & E2 & E3). repeat (split; [assumption|]). eqs; eauto.
  - intros t E P. eqs; [auto|]. apply (i_bound _ I); assumption.
Qed.

Lemma inv_files w p n : inv w -> (forall s, n <> Some (Sock s)) -> inv (set_file w p n).
Proof.
  intros I N. split; cbn [files abstract address phase_of set_file].
  - intros q t E. eqs; [destruct (N t E)|]. apply (i_sock _ I); assumption.
  - apply (i_abs _ I).
  - apply (i_bound _ I).
Qed.

Lemma remove_cases w s d :
  (exists w1, remove_socket w s d = inl w1 /\ files w1 (address w s) = None /\
     (forall q, q <> address w s -> files w1 q = files w q) /\
     abstract w1 = abstract w /\ address w1 = address w /\ phase_of w1 = phase_of w /\ (inv w -> inv w1)) \/
  (exists e, remove_socket w s d = inr e).
Proof.
  unfold remove_socket, unlink. destruct d; [right; eexists; reflexivity|].
  destruct (files w (address w s)) as [[t|f|]|] eqn:E; try (right; eexists; reflexivity); left;
    eexists; (split; [reflexivity|]); cbn [files set_file];
    try (split; [eqs; congruence|]; split; [intros q N; eqs; congruence|]; cbn [abstract address phase_of];
         repeat (split; [reflexivity|]); intros I; apply inv_files; [exact I|discriminate]).
  repeat (split; [auto|]). auto.
Qed.

Lemma close_eq w s a : abstract w a = Some s -> address w s = a -> close w s = set_abstract w a None.
Proof. intros A E. unfold close. rewrite E, A, Nat.eqb_refl. reflexivity. Qed.

Lemma close_path w s : inv w -> pathname (address w s) = true -> close w s = w.
Proof.
  intros I P. unfold close. destruct (abstract w (address w s)) as [t|] eqn:E; [|reflexivity].
  destruct (i_abs _ I _ _ E) as (_ & H & _). congruence.
Qed.

Lemma inv_step w l w' : inv w -> exec w l = Some w' -> inv w'.
Proof.
  intros I. destruct l as [s given uuid|s d|s d|s d|s|s|p n]; cbn [exec].
  - destruct (phase_of w s) eqn:E; try discriminate. intros [= <-].
    assert (I' : inv (set_address w s (new_address given uuid))).
    { split; cbn [files abstract address phase_of set_address].
      - intros q t F. destruct (i_sock _ I _ _ F) as (F1 & F2 & F3). eqs; [destruct F3; congruence|]. auto.
      - intros q t F. destruct (i_abs _ I _ _ F) as (F1 & F2 & F3). eqs; [destruct F3 as [|[|]]; congruence|]. auto.
      - intros t H P. eqs; [destruct H as [|[|]]; congruence|]. apply (i_bound _ I); assumption. }
    apply inv_phase; [exact I'|..].
    + intros q F. destruct (i_sock _ I' _ _ F) as (_ & _ & [H|H]); cbn in H; congruence.
    + intros q F. destruct (i_abs _ I' _ _ F) as (_ & _ & [H|[H|H]]); cbn in H; congruence.
    + intros [H|[H|H]]; discriminate.
  - destruct (phase_of w s) eqn:E; try discriminate.
    assert (G : forall w1 p, inv w1 -> phase_of w1 s = Created -> p = Ready \/ (exists e, p = Failed e) -> inv (set_phase w1 s p)).
    { intros w1 p I1 E1 H. apply inv_phase; [exact I1|..].
      - intros q F. destruct (i_sock _ I1 _ _ F) as (_ & _ & [X|X]); congruence.
      - intros q F. destruct (i_abs _ I1 _ _ F) as (_ & _ & [X|[X|X]]); congruence.
      - intros X. destruct H as [->|(e & ->)]; destruct X as [|[|]]; discriminate. }
    destruct (pathname (address w s)).
    + destruct (remove_cases w s d) as [(w1 & -> & _ & _ & _ & _ & P & K)|(e & ->)]; intros [= <-]; apply G;
        [apply K; exact I|congruence|auto|exact I|exact E|eauto].
    + intros [= <-]. apply G; auto.
  - destruct (phase_of w s) eqn:E; try discriminate.
    assert (F0 : forall e, inv (set_phase w s (Failed e))).
    { intros e. apply inv_phase; [exact I|..].
      - intros q F. destruct (i_sock _ I _ _ F) as (_ & _ & [X|X]); congruence.
      - intros q F. destruct (i_abs _ I _ _ F) as (_ & _ & [X|[X|X]]); congruence.
      - intros [|[|]]; discriminate. }
    unfold bind. destruct d; [intros [= <-]; apply F0|]. destruct (pathname (address w s)) eqn:P.
    + destruct (files w (address w s)) eqn:F; intros [= <-]; [apply F0|].
      split; cbn [files abstract address phase_of set_phase set_file].
      * intros q t H. destruct (name_dec q (address w s)) as [->|N].
        -- assert (t = s) as -> by congruence. rewrite Nat.eqb_refl. auto.
        -- destruct (i_sock _ I _ _ H) as (X & Y & Z). repeat (split; [assumption|]). eqs; auto.
      * intros q t H. destruct (i_abs _ I _ _ H) as (X & Y & Z). eqs; auto.
      * intros t H Q. eqs; [congruence|]. apply (i_bound _ I); assumption.
    + destruct (abstract w (address w s)) eqn:F; intros [= <-]; [apply F0|].
      split; cbn [files abstract address phase_of set_phase set_abstract].
      * intros q t H. destruct (i_sock _ I _ _ H) as (X & Y & Z). eqs; auto.
      * intros q t H. destruct (name_dec q (address w s)) as [->|N].
        -- assert (t = s) as -> by congruence. rewrite Nat.eqb_refl. auto.
        -- destruct (i_abs _ I _ _ H) as (X & Y & Z). repeat (split; [assumption|]). eqs; auto.
      * intros t. destruct (Nat.eqb_spec t s) as [->|N]; intros H Q.
        -- destruct (name_dec (address w s) (address w s)); congruence.
        -- pose proof (i_bound _ I t H Q) as X. destruct (name_dec (address w t) (address w s)); congruence.
  - destruct (phase_of w s) eqn:E; try discriminate. destruct (pathname (address w s)) eqn:P.
    + destruct (remove_cases w s d) as [(w1 & -> & N & _ & A & D & Q & K)|(e & ->)]; intros [= <-]; [|exact I].
      specialize (K I). apply inv_phase; [exact K|..].
      * intros q F. destruct (i_sock _ K _ _ F) as (X & _). rewrite D in X. congruence.
      * auto.
      * intros _ X. rewrite D in X. congruence.
    + intros [= <-]. apply inv_phase; [exact I|..].
      * intros q F. destruct (i_sock _ I _ _ F) as (X & Y & _). congruence.
      * auto.
      * intros _ _. apply (i_bound _ I); auto.
  - destruct (phase_of w s) eqn:E; try discriminate. intros [= <-]. apply inv_phase; [exact I|..].
    + intros q F. destruct (i_sock _ I _ _ F) as (_ & _ & [X|X]); congruence.
    + auto.
    + intros _ P. apply (i_bound _ I); auto.
  - assert (G : phase_of w s = Serving \/ phase_of w s = Stopping \/ phase_of w s = Stopped -> inv (set_phase (close w s) s Gone)).
    { intros H. destruct (pathname (address w s)) eqn:P.
      - rewrite (close_path _ _ I P). apply inv_phase; [exact I|auto|..].
        + intros q F. destruct (i_abs _ I _ _ F) as (X & Y & _). congruence.
        + intros [|[|]]; discriminate.
      - rewrite (close_eq w s (address w s) (i_bound _ I _ H P) eq_refl).
        split; cbn [files abstract address phase_of set_phase set_abstract].
        + intros q t F. destruct (i_sock _ I _ _ F) as (X & Y & Z). eqs; auto.
        + intros q t F. destruct (name_dec q (address w s)) as [->|N]; [discriminate|].
          destruct (i_abs _ I _ _ F) as (X & Y & Z). destruct (Nat.eqb_spec t s) as [->|M]; [congruence|auto].
        + intros t. destruct (Nat.eqb_spec t s) as [->|M]; intros T Q; [destruct T as [|[|]]; discriminate|].
          pose proof (i_bound _ I t T Q) as X. pose proof (i_bound _ I s H P) as Y.
          destruct (name_dec (address w t) (address w s)); congruence. }
    assert (G2 : ~ (phase_of w s = Serving \/ phase_of w s = Stopping \/ phase_of w s = Stopped) -> inv (set_phase w s Gone)).
    { intros H. apply inv_phase; [exact I|auto|..].
      - intros q F. destruct (i_abs _ I _ _ F) as (_ & _ & X). tauto.
      - intros [|[|]]; discriminate. }
    destruct (phase_of w s) eqn:E; intros [= <-];
      first [apply G; auto; fail|apply G2; intros [|[|]]; discriminate].
  - intros [= <-]. apply inv_files; [exact I|]. destruct n; discriminate.
Qed.

Lemma inv_run tr : forall w w', inv w -> run w tr = Some w' -> inv w'.
Proof.
  induction tr as [|l tr IH]; cbn [run]; intros w w' I; [intros [= <-]; exact I|].
  destruct (exec w l) eqn:E; [|discriminate]. intros R. eapply IH; [eapply inv_step; eassumption|exact R].
Qed.

Lemma orderly_run w tr w' : orderly w tr w' -> run w tr = Some w'.
Proof. induction 1 as [|w l w1 tr w2 P E O IH]; cbn [run]; [reflexivity|]. rewrite E. exact IH. Qed.

(* What a step of a server does not change. *)
Definition server_of (l : label) : option nat :=
  match l with
  | LCreate s _ _ | LRemove s _ | LBind s _ | LShutdownRemove s _ | LShutdown s | LExit s => Some s
  | LEnv _ _ => None
  end.

Lemma close_same w s : files (close w s) = files w /\ address (close w s) = address w /\ phase_of (close w s) = phase_of w /\
  (forall a, a <> address w s -> abstract (close w s) a = abstract w a).
Proof.
  unfold close. destruct (abstract w (address w s)) as [t|]; [|auto]. destruct (Nat.eqb t s); [|auto].
  cbn [set_abstract files address phase_of abstract]. repeat (split; [reflexivity|]). intros a N. eqs; congruence.
Qed.

Lemma exec_same w l w' : exec w l = Some w' ->
  (forall t, server_of l <> Some t -> phase_of w' t = phase_of w t /\ address w' t = address w t) /\
  (forall p, match l with LEnv q _ => p <> q | LCreate _ _ _ => True
             | _ => forall s, server_of l = Some s -> p <> address w s end ->
     files w' p = files w p /\ abstract w' p = abstract w p).
Proof.
  destruct l as [s given uuid|s d|s d|s d|s|s|p n]; cbn [exec server_of].
  - destruct (phase_of w s) eqn:E; try discriminate. intros [= <-]. cbn [set_phase set_address phase_of address files abstract].
    split; [|auto]. intros t N. eqs; [congruence|auto].
  - destruct (phase_of w s) eqn:E; try discriminate.
    destruct (pathname (address w s)).
    + destruct (remove_cases w s d) as [(w1 & -> & N & X & A & D & Q & K)|(e & ->)]; intros [= <-];
        cbn [set_phase phase_of address files abstract].
      * rewrite A, D, Q. split; [intros t M; eqs; [congruence|auto]|]. intros p H. split; [apply X, H; reflexivity|reflexivity].
      * split; [intros t M; eqs; [congruence|auto]|auto].
    + intros [= <-]. cbn [set_phase phase_of address files abstract]. split; [intros t M; eqs; [congruence|auto]|auto].
  - destruct (phase_of w s) eqn:E; try discriminate. unfold bind. destruct d.
    { intros [= <-]. cbn [set_phase phase_of address files abstract]. split; [intros t M; eqs; [congruence|auto]|auto]. }
    destruct (pathname (address w s)).
    + destruct (files w (address w s)); intros [= <-]; cbn [set_phase set_file phase_of address files abstract].
      * split; [intros t M; eqs; [congruence|auto]|auto].
      * split; [intros t M; eqs; [congruence|auto]|]. intros p H. split; [|reflexivity].
        specialize (H s eq_refl). eqs; congruence.
    + destruct (abstract w (address w s)); intros [= <-]; cbn [set_phase set_abstract phase_of address files abstract].
      * split; [intros t M; eqs; [congruence|auto]|auto].
      * split; [intros t M; eqs; [congruence|auto]|]. intros p H. split; [reflexivity|].
        specialize (H s eq_refl). eqs; congruence.
  - destruct (phase_of w s) eqn:E; try discriminate.
    destruct (pathname (address w s)).
    + destruct (remove_cases w s d) as [(w1 & -> & N & X & A & D & Q & K)|(e & ->)]; intros [= <-];
        cbn [set_phase phase_of address files abstract]; [|auto].
      rewrite A, D, Q. split; [intros t M; eqs; [congruence|auto]|]. intros p H. split; [apply X, H; reflexivity|reflexivity].
    + intros [= <-]. cbn [set_phase phase_of address files abstract]. split; [intros t M; eqs; [congruence|auto]|auto].
  - destruct (phase_of w s) eqn:E; try discriminate. intros [= <-]. cbn [set_phase phase_of address files abstract].
    split; [intros t M; eqs; [congruence|auto]|auto].
  - destruct (close_same w s) as (A & B & C & D).
    destruct (phase_of w s); intros [= <-]; cbn [set_phase phase_of address files abstract];
      try rewrite A; try rewrite B; try rewrite C;
      (split; [intros t M; eqs; [congruence|auto]|]; intros p H; split; auto).
  - intros [= <-]. cbn [set_file phase_of address files abstract]. split; [auto|]. intros q N. split; [|reflexivity].
    eqs; congruence.
Qed.

(* A server is created once, with its address. *)
Lemma step_address w l w' s : exec w l = Some w' -> phase_of w s <> New ->
  address w' s = address w s /\ phase_of w' s <> New.
Proof.
  intros E N. destruct (exec_same _ _ _ E) as [H _].
  assert (D : server_of l = Some s \/ server_of l <> Some s).
  { destruct (server_of l) as [t|]; [|right; discriminate]. destruct (Nat.eq_dec t s); [left|right]; congruence. }
  destruct D as [D|D]; [|destruct (H s D) as [-> ->]; auto].
  destruct l as [t given uuid|t d|t d|t d|t|t|p n]; cbn [server_of] in D; try discriminate; injection D as ->;
    cbn [exec] in E.
  - destruct (phase_of w s); congruence.
  - destruct (phase_of w s) eqn:P; try discriminate. destruct (pathname (address w s)).
    + destruct (remove_cases w s d) as [(w1 & R & _ & _ & _ & X & _)|(e & R)]; rewrite R in E; injection E as <-;
        cbn [set_phase phase_of address]; rewrite Nat.eqb_refl; (split; [congruence|discriminate]).
    + injection E as <-. cbn [set_phase phase_of address]. rewrite Nat.eqb_refl. split; [congruence|discriminate].
  - destruct (phase_of w s) eqn:P; try discriminate. unfold bind in E. destruct d, (pathname (address w s));
      try (destruct (files w (address w s))); try (destruct (abstract w (address w s))); injection E as <-;
      cbn [set_phase set_file set_abstract phase_of address]; rewrite Nat.eqb_refl; (split; [congruence|discriminate]).
  - destruct (phase_of w s) eqn:P; try discriminate. destruct (pathname (address w s)).
    + destruct (remove_cases w s d) as [(w1 & R & _ & _ & _ & X & _)|(e & R)]; rewrite R in E; injection E as <-;
        cbn [set_phase phase_of address]; try rewrite Nat.eqb_refl; (split; congruence).
    + injection E as <-. cbn [set_phase phase_of address]. rewrite Nat.eqb_refl. split; [congruence|discriminate].
  - destruct (phase_of w s) eqn:P; try discriminate. injection E as <-. cbn [set_phase phase_of address].
    rewrite Nat.eqb_refl. split; [congruence|discriminate].
  - destruct (close_same w s) as (_ & B & _).
    destruct (phase_of w s); injection E as <-; cbn [set_phase phase_of address]; try rewrite B; rewrite Nat.eqb_refl;
      (split; [congruence|discriminate]).
Qed.

Lemma run_address tr : forall w w' s, run w tr = Some w' -> phase_of w s <> New ->
  address w' s = address w s /\ phase_of w' s <> New.
Proof.
  induction tr as [|l tr IH]; cbn [run]; intros w w' s; [intros [= <-]; auto|].
  destruct (exec w l) as [w1|] eqn:E; [|discriminate]. intros R N.
  destruct (step_address _ _ _ _ E N) as [A B]. destruct (IH _ _ _ R B) as [C D]. split; congruence.
Qed.

Lemma create_address tr : forall w w' s given uuid, run w tr = Some w' -> In (LCreate s given uuid) tr ->
  address w' s = new_address given uuid.
Proof.
  induction tr as [|l tr IH]; cbn [run In]; intros w w' s given uuid; [intros _ []|].
  destruct (exec w l) as [w1|] eqn:E; [|discriminate]. intros R [->|H]; [|eapply IH; eassumption].
  cbn [exec] in E. destruct (phase_of w s); try discriminate. injection E as <-.
  destruct (run_address _ _ _ s R) as [-> _]; cbn [set_phase set_address phase_of address]; rewrite Nat.eqb_refl;
    [discriminate|reflexivity].
Qed.

Lemma run_created tr : forall w w' s, run w tr = Some w' -> phase_of w s = New \/ phase_of w s = Gone ->
  phase_of w' s = New \/ phase_of w' s = Gone \/ exists given uuid, In (LCreate s given uuid) tr.
Proof.
  induction tr as [|l tr IH]; cbn [run In]; intros w w' s; [intros [= <-]; tauto|].
  destruct (exec w l) as [w1|] eqn:E; [|discriminate]. intros R P.
  assert (D : phase_of w1 s = New \/ phase_of w1 s = Gone \/ exists given uuid, l = LCreate s given uuid).
  { destruct (exec_same _ _ _ E) as [H _].
    assert (D : server_of l = Some s \/ server_of l <> Some s).
    { destruct (server_of l) as [t|]; [|right; discriminate]. destruct (Nat.eq_dec t s); [left|right]; congruence. }
    destruct D as [D|D]; [|destruct (H s D) as [-> _]; tauto].
    destruct l as [t given uuid|t d|t d|t d|t|t|p n]; cbn [server_of] in D; try discriminate; injection D as ->;
      [right; right; eauto|..]; cbn [exec] in E; destruct P as [P|P]; rewrite P in E; try discriminate;
      injection E as <-; right; left; cbn [set_phase phase_of]; rewrite Nat.eqb_refl; reflexivity. }
  destruct D as [D|[D|(g & u & ->)]].
  - destruct (IH _ _ _ R (or_introl D)) as [X|[X|(g & u & X)]]; eauto 6.
  - destruct (IH _ _ _ R (or_intror D)) as [X|[X|(g & u & X)]]; eauto 6.
  - eauto 6.
Qed.

(* What holds when a name is used by one server at a time. *)
Record oinv (w : world) : Prop := {
  o_one s t : live w s -> live w t -> address w s = address w t -> s = t;
  o_path s : phase_of w s = Serving -> pathname (address w s) = true -> files w (address w s) = Some (Sock s);
  o_stop s : phase_of w s = Stopping -> pathname (address w s) = true -> files w (address w s) = None
}.

Lemma oinv_init fs : oinv (init fs).
Proof. split; cbn; [intros ? ? []|discriminate|discriminate]. Qed.

Lemma step_live w l w' s : exec w l = Some w' -> live w' s ->
  (live w s /\ address w' s = address w s) \/ (exists given uuid, l = LCreate s given uuid /\ address w' s = new_address given uuid).
Proof.
  intros E L. destruct (exec_same _ _ _ E) as [H _].
  assert (D : server_of l = Some s \/ server_of l <> Some s).
  { destruct (server_of l) as [t|]; [|right; discriminate]. destruct (Nat.eq_dec t s); [left|right]; congruence. }
  destruct D as [D|D]; [|left; destruct (H s D) as [X Y]; unfold live in *; rewrite X in L; auto].
  destruct (phase_of w s) eqn:P.
  - destruct l as [t given uuid|t d|t d|t d|t|t|p n]; cbn [server_of] in D; try discriminate; injection D as ->;
      cbn [exec] in E; rewrite P in E; try discriminate; injection E as <-.
    + right. exists given, uuid. split; [reflexivity|]. cbn [set_phase set_address address]. rewrite Nat.eqb_refl. reflexivity.
    + unfold live in L. cbn [set_phase phase_of] in L. rewrite Nat.eqb_refl in L. destruct L.
  - left. destruct (step_address _ _ _ s E) as [A _]; [congruence|]. unfold live. rewrite P. auto.
  - left. destruct (step_address _ _ _ s E) as [A _]; [congruence|]. unfold live. rewrite P. auto.
  - left. destruct (step_address _ _ _ s E) as [A _]; [congruence|]. unfold live. rewrite P. auto.
  - left. destruct (step_address _ _ _ s E) as [A _]; [congruence|]. unfold live. rewrite P. auto.
  - exfalso. destruct l as [t given uuid|t d|t d|t d|t|t|p n]; cbn [server_of] in D; try discriminate; injection D as ->;
      cbn [exec] in E; rewrite P in E; try discriminate; injection E as <-.
    unfold live in L. cbn [set_phase phase_of] in L. rewrite Nat.eqb_refl in L. destruct L.
  - exfalso. destruct l as [t given uuid|t d|t d|t d|t|t|p n]; cbn [server_of] in D; try discriminate; injection D as ->;
      cbn [exec] in E; rewrite P in E; try discriminate; injection E as <-.
    unfold live in L. cbn [set_phase phase_of] in L. rewrite Nat.eqb_refl in L. destruct L.
  - exfalso. destruct l as [t given uuid|t d|t d|t d|t|t|p n]; cbn [server_of] in D; try discriminate; injection D as ->;
      cbn [exec] in E; rewrite P in E; try discriminate; injection E as <-.
    unfold live in L. cbn [set_phase phase_of] in L. rewrite Nat.eqb_refl in L. destruct L.
Qed.

(* The steps of other servers leave the file of a live server alone. *)
Lemma other_step w l w' s : oinv w -> proper w l -> exec w l = Some w' -> live w s -> server_of l <> Some s ->
  (forall t, server_of l = Some t -> match l with LExit _ | LCreate _ _ _ => True | _ => live w t end) /\
  (match l with LExit t => files w' = files w | _ => True end) ->
  files w' (address w s) = files w (address w s).
Proof.
  intros O P E L N [LT X]. destruct (exec_same _ _ _ E) as [_ F].
  destruct l as [t given uuid|t d|t d|t d|t|t|p n]; cbn [server_of] in *;
    try (apply F; [exact I || (intros t' [= <-] C; apply N; f_equal; symmetry; apply (o_one _ O); [exact L|apply LT; reflexivity|exact C])]; fail).
  - rewrite X. reflexivity.
  - apply F. cbn [proper] in P. apply P. exact L.
Qed.

Lemma oinv_step w l w' : inv w -> oinv w -> proper w l -> exec w l = Some w' -> oinv w'.
Proof.
  intros I O P E. destruct (exec_same _ _ _ E) as [H F].
  assert (OS : forall s, live w s -> server_of l <> Some s -> files w' (address w s) = files w (address w s)).
  { intros s L N. eapply other_step; try eassumption. split.
    - intros t D. destruct l as [t' given uuid|t' d|t' d|t' d|t'|t'|p n]; cbn [server_of] in D; try discriminate;
        injection D as ->; auto; unfold live; cbn [exec] in E; destruct (phase_of w t); try discriminate; exact Logic.I.
    - destruct l as [t' given uuid|t' d|t' d|t' d|t'|t'|p n]; auto. cbn [exec] in E. destruct (close_same w t') as (X & _).
      destruct (phase_of w t'); injection E as <-; cbn [set_phase files]; auto. }
  split.
  - intros s t Ls Lt A.
    destruct (step_live _ _ _ _ E Ls) as [[Ls' As]|(g & u & -> & As)], (step_live _ _ _ _ E Lt) as [[Lt' At]|(g' & u' & El & At)].
    + apply (o_one _ O); congruence.
    + subst l. exfalso. cbn [proper] in P. apply (P _ (asked_new g' u') s Ls'). congruence.
    + exfalso. cbn [proper] in P. apply (P _ (asked_new g u) t Lt'). congruence.
    + congruence.
  - intros s S Q.
    assert (D : server_of l = Some s \/ server_of l <> Some s).
    { destruct (server_of l) as [t|]; [|right; discriminate]. destruct (Nat.eq_dec t s); [left|right]; congruence. }
    destruct D as [D|D].
    + destruct l as [t given uuid|t d|t d|t d|t|t|p n]; cbn [server_of] in D; try discriminate; injection D as ->; cbn [exec] in E.
      * destruct (phase_of w s); try discriminate. injection E as <-. cbn [set_phase phase_of] in S. rewrite Nat.eqb_refl in S. discriminate.
      * destruct (phase_of w s); try discriminate. destruct (pathname (address w s)).
        -- destruct (remove_socket w s d); injection E as <-; cbn [set_phase phase_of] in S; rewrite Nat.eqb_refl in S; discriminate.
        -- injection E as <-. cbn [set_phase phase_of] in S. rewrite Nat.eqb_refl in S. discriminate.
      * destruct (phase_of w s) eqn:PS; try discriminate. unfold bind in E. destruct d.
        { injection E as <-. cbn [set_phase phase_of] in S. rewrite Nat.eqb_refl in S. discriminate. }
        destruct (pathname (address w s)) eqn:PN.
        -- destruct (files w (address w s)); injection E as <-.
           ++ cbn [set_phase phase_of] in S. rewrite Nat.eqb_refl in S. discriminate.
           ++ cbn [set_phase set_file files address]. destruct (name_dec (address w s) (address w s)); congruence.
        -- destruct (abstract w (address w s)); injection E as <-; cbn [set_phase set_abstract address] in Q; congruence.
      * destruct (phase_of w s) eqn:PS; try discriminate. destruct (pathname (address w s)) eqn:PN.
        -- destruct (remove_socket w s d); injection E as <-; [|apply (o_path _ O); assumption].
           cbn [set_phase phase_of] in S. rewrite Nat.eqb_refl in S. discriminate.
        -- injection E as <-. cbn [set_phase phase_of] in S. rewrite Nat.eqb_refl in S. discriminate.
      * destruct (phase_of w s); try discriminate. injection E as <-. cbn [set_phase phase_of] in S. rewrite Nat.eqb_refl in S. discriminate.
      * destruct (phase_of w s); injection E as <-; cbn [set_phase phase_of] in S; rewrite Nat.eqb_refl in S; discriminate.
    + destruct (H s D) as [X Y]. rewrite X in S. rewrite Y in *. rewrite OS; [apply (o_path _ O); assumption| |exact D].
      unfold live. rewrite S. exact Logic.I.
  - intros s S Q.
    assert (D : server_of l = Some s \/ server_of l <> Some s).
    { destruct (server_of l) as [t|]; [|right; discriminate]. destruct (Nat.eq_dec t s); [left|right]; congruence. }
    destruct D as [D|D].
    + destruct l as [t given uuid|t d|t d|t d|t|t|p n]; cbn [server_of] in D; try discriminate; injection D as ->; cbn [exec] in E.
      * destruct (phase_of w s); try discriminate. injection E as <-. cbn [set_phase phase_of] in S. rewrite Nat.eqb_refl in S. discriminate.
      * destruct (phase_of w s); try discriminate. destruct (pathname (address w s)).
        -- destruct (remove_socket w s d); injection E as <-; cbn [set_phase phase_of] in S; rewrite Nat.eqb_refl in S; discriminate.
        -- injection E as <-. cbn [set_phase phase_of] in S. rewrite Nat.eqb_refl in S. discriminate.
      * destruct (phase_of w s) eqn:PS; try discriminate. destruct (bind w s d); injection E as <-;
          cbn [set_phase phase_of] in S; rewrite Nat.eqb_refl in S; discriminate.
      * destruct (phase_of w s) eqn:PS; try discriminate. destruct (pathname (address w s)) eqn:PN.
        -- destruct (remove_cases w s d) as [(w1 & R & NF & _ & _ & AD & _)|(e & R)]; rewrite R in E; injection E as <-; [|congruence].
           cbn [set_phase files address]. rewrite AD. exact NF.
        -- injection E as <-. cbn [set_phase address] in Q. congruence.
      * destruct (phase_of w s); try discriminate. injection E as <-. cbn [set_phase phase_of] in S. rewrite Nat.eqb_refl in S. discriminate.
      * destruct (phase_of w s); injection E as <-; cbn [set_phase phase_of] in S; rewrite Nat.eqb_refl in S; discriminate.
    + destruct (H s D) as [X Y]. rewrite X in S. rewrite Y in *. rewrite OS; [apply (o_stop _ O); assumption| |exact D].
      unfold live. rewrite S. exact Logic.I.
Qed.

Lemma oinv_run w tr w' : orderly w tr w' -> inv w -> oinv w -> inv w' /\ oinv w'.
Proof.
  induction 1 as [|w l w1 tr w2 P E O IH]; [auto|]. intros I J. apply IH; [eapply inv_step|eapply oinv_step]; eassumption.
Qed.

(* ---- TCP ---- *)

Lemma link_local_iff a : is_link_local a = true <-> link_local a.
Proof.
  unfold is_link_local, link_local. destruct (fam a); rewrite Z.eqb_eq.
  - pose proof (Z.div_mod (ip a) 65536 ltac:(lia)). pose proof (Z.mod_pos_bound (ip a) 65536 ltac:(lia)).
    split; intros; lia.
  - change (2 ^ 118) with (64 * 2 ^ 112). pose proof (Z.div_mod (ip a) (64 * 2 ^ 112) ltac:(lia)).
    pose proof (Z.mod_pos_bound (ip a) (64 * 2 ^ 112) ltac:(lia)).
    split; intros; nia.
Qed.

Lemma find_addresses_iff resolve host a : In a (find_addresses resolve host) <-> usable resolve host a.
Proof.
  unfold find_addresses, usable, lookup_host. rewrite filter_In, negb_true_iff, <- not_true_iff_false, link_local_iff. tauto.
Qed.
