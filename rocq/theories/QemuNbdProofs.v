(* Lemmas about running qemu-nbd. *)
From Coq Require Import ZArith List Bool String Lia.
From Coq.Strings Require Import Byte.
From Verif Require Import BytesLib QemuNbdModel QemuNbdSpec.
Import ListNotations.
Open Scope Z_scope.

Lemma count_app f a b : count f (a ++ b) = count f a + count f b.
Proof. induction a; cbn [count fold_right app]; [reflexivity|]. unfold count in *. cbn. rewrite IHa. lia. Qed.
Lemma processes_app a b : processes (a ++ b) = processes a + processes b.
Proof. unfold processes. rewrite !count_app. lia. Qed.
Lemma directories_app a b : directories (a ++ b) = directories a + directories b.
Proof. unfold directories. rewrite !count_app. lia. Qed.
Lemma connections_app a b : connections (a ++ b) = connections a + connections b.
Proof. unfold connections. rewrite !count_app. lia. Qed.
Lemma slept_app a b : slept (a ++ b) = slept a + slept b.
Proof. induction a; cbn [slept fold_right app]; [reflexivity|]. unfold slept in *. cbn. rewrite IHa. lia. Qed.
Lemma attempts_app a b : attempts (a ++ b) = attempts a + attempts b.
Proof. apply count_app. Qed.

(* Calls that hold nothing. *)
Definition plain (x : call * answer) : Prop :=
  match fst x with
  | CPopen _ | CReap _ | CMkdtemp | CRmtree | COpenHttp _ | CCloseHttp => False
  | _ => True
  end.
Lemma plain_holds l : Forall plain l -> processes l = 0 /\ directories l = 0 /\ connections l = 0.
Proof.
  induction 1 as [|[c a] l P F (IH1 & IH2 & IH3)]; [repeat split|].
  change ((c, a) :: l) with ([(c, a)] ++ l). rewrite processes_app, directories_app, connections_app, IH1, IH2, IH3.
  destruct c; cbn in P; try contradiction; repeat split; reflexivity.
Qed.

Section L.
Variable e : env.

(* What a program adds to the log. *)
Definition adds {A} (m : M A) (P : st -> A + exn -> st -> list (call * answer) -> Prop) : Prop :=
  forall s, exists l, s_log (snd (m s)) = l ++ s_log s /\ P s (fst (m s)) (snd (m s)) l.

Lemma ask_log c s : ask e c s = (inl (e_answer e (s_calls s)),
  St (S (s_calls s)) (s_clock s) ((c, e_answer e (s_calls s)) :: s_log s) (s_proc s)).
Proof. reflexivity. Qed.

Lemma do_log c s : exists a, s_log (snd (do_ e c s)) = [(c, a)] ++ s_log s /\ s_proc (snd (do_ e c s)) = s_proc s /\
  s_clock (snd (do_ e c s)) = s_clock s /\
  fst (do_ e c s) = match a with AOk => inl tt | a => inr (exn_of a) end.
Proof.
  unfold do_, bind. rewrite ask_log. destruct (e_answer e (s_calls s)); eexists; repeat split; reflexivity.
Qed.

(* ---- wait_for_socket ---- *)

Lemma wait_loop_S fuel d step s : wait_loop e (S fuel) d step s =
  let a := e_answer e (s_calls s) in
  match a with
  | AOk => (inl (Some true), St (S (s_calls s)) (s_clock s) ((CConnect, a) :: s_log s) (s_proc s))
  | ARefused =>
      if d <=? e_now e (s_clock s)
      then (inl (Some false), St (S (s_calls s)) (S (s_clock s)) ((CConnect, a) :: s_log s) (s_proc s))
      else wait_loop e fuel d step (St (S (s_calls s)) (S (s_clock s))
             ((CSleep (Z.min step (d - e_now e (s_clock s))), AOk) :: (CConnect, a) :: s_log s) (s_proc s))
  | a' => (inr (exn_of a'), St (S (s_calls s)) (s_clock s) ((CConnect, a) :: s_log s) (s_proc s))
  end.
Proof.
  cbn [wait_loop]. unfold bind at 1. rewrite ask_log. cbv zeta. destruct (e_answer e (s_calls s)); try reflexivity.
  unfold bind at 1. unfold now. cbn [s_calls s_clock s_log s_proc].
  destruct (d <=? e_now e (s_clock s)); reflexivity.
Qed.

Lemma wait_loop_log step fuel : forall deadline s, exists l,
  s_log (snd (wait_loop e fuel deadline step s)) = l ++ s_log s /\
  s_proc (snd (wait_loop e fuel deadline step s)) = s_proc s /\
  Forall plain l /\
  (forall x, fst (wait_loop e fuel deadline step s) = inr x -> ~ Forall polite l) /\
  (fst (wait_loop e fuel deadline step s) = inl (Some true) -> exists l', l = (CConnect, AOk) :: l') /\
  (fst (wait_loop e fuel deadline step s) = inl (Some false) ->
     (forall a, In (CConnect, a) l -> a = ARefused) /\
     deadline <= e_now e (pred (s_clock (snd (wait_loop e fuel deadline step s))))).
Proof.
  induction fuel as [|fuel IH]; intros deadline s.
  { exists []. cbn. repeat split; auto; discriminate. }
  rewrite wait_loop_S. cbv zeta. generalize (e_answer e (s_calls s)). intros a.
  destruct a.
  - exists [(CConnect, AOk)]. cbn. repeat split; auto; try discriminate. repeat constructor. eauto.
  - destruct (deadline <=? e_now e (s_clock s)) eqn:D.
    + exists [(CConnect, ARefused)]. cbn. apply Z.leb_le in D.
      split; auto. split; auto. split; [repeat constructor|]. split; [discriminate|]. split; [discriminate|].
      intros _. split; auto. intros a [[= <-]|[]]. auto.
    + match goal with |- context [wait_loop e fuel deadline step ?s1] => destruct (IH deadline s1) as (l & A & B & C & D1 & D2 & D3);
        remember (wait_loop e fuel deadline step s1) as res eqn:ER end.
      cbn [s_log s_proc] in A, B.
      exists (l ++ [(CSleep (Z.min step (deadline - e_now e (s_clock s))), AOk); (CConnect, ARefused)]).
      split; [rewrite A, <- app_assoc; reflexivity|]. split; [exact B|].
      split; [apply Forall_app; split; [exact C|repeat constructor]|].
      split. { intros x X F. apply Forall_app in F. exact (D1 x X (proj1 F)). }
      split. { intros X. destruct (D2 X) as [l' ->]. eexists. reflexivity. }
      intros X. destruct (D3 X) as [F G]. split; auto. intros a I. apply in_app_iff in I.
      destruct I as [I|[I|[I|[]]]]; auto; congruence.
  - exists [(CConnect, ATimeout)]. cbn. repeat split; auto; try discriminate. repeat constructor.
    intros x _ F. inversion F as [|? ? P]. destruct P; discriminate.
  - exists [(CConnect, AOs)]. cbn. repeat split; auto; try discriminate. repeat constructor.
    intros x _ F. inversion F as [|? ? P]. destruct P; discriminate.
  - exists [(CConnect, AError)]. cbn. repeat split; auto; try discriminate. repeat constructor.
    intros x _ F. inversion F as [|? ? P]. destruct P; discriminate.
Qed.

(* Progress of the clock: [g] is what is left to the deadline at the last
   reading. *)
Lemma wait_loop_ends step timeout k : 0 < step ->
  forall fuel s, clock_ok e k timeout step -> (k < s_clock s)%nat ->
  forall g, Z.max 0 (e_now e k + timeout - e_now e (s_clock s)) <= g -> 0 <= g ->
  g + step < step * Z.of_nat fuel ->
  fst (wait_loop e fuel (e_now e k + timeout) step s) <> inl None /\
  exists l, s_log (snd (wait_loop e fuel (e_now e k + timeout) step s)) = l ++ s_log s /\
    attempts l * step <= g + 2 * step - 1 /\ slept l <= g.
Proof.
  intros ST. induction fuel as [|fuel IH]; intros s CK K g G G0 F; [lia|].
  rewrite wait_loop_S. cbv zeta. generalize (e_answer e (s_calls s)). intros a.
  destruct a; try (split; [discriminate|eexists [_]; split; [reflexivity|]; unfold attempts, count, slept; cbn [fold_right]; lia]).
  destruct (Z.leb_spec (e_now e k + timeout) (e_now e (s_clock s))) as [D|D].
  { split; [discriminate|]. eexists [_]. split; [reflexivity|]. unfold attempts, count, slept; cbn [fold_right]; lia. }
  pose proof CK as [_ CK2]. specialize (CK2 _ K D).
  set (w := Z.min step (e_now e k + timeout - e_now e (s_clock s))) in *.
  assert (W : 0 < w <= step) by (unfold w; lia).
  match goal with |- context [wait_loop e fuel _ step ?s1] => set (s2 := s1) end.
  destruct (Z.eq_dec w step) as [E|E].
  - destruct (IH s2 CK) with (g := g - step) as (R1 & l & R2 & R3 & R4).
    + cbn. lia.
    + cbn. lia.
    + unfold w in E. lia.
    + lia.
    + split; [exact R1|]. exists (l ++ [(CSleep w, AOk); (CConnect, ARefused)]).
      split; [rewrite R2, <- app_assoc; reflexivity|]. rewrite attempts_app, slept_app.
      change (attempts [(CSleep w, AOk); (CConnect, ARefused)]) with 1.
      change (slept [(CSleep w, AOk); (CConnect, ARefused)]) with (w + 0). lia.
  - assert (LE : e_now e k + timeout <= e_now e (S (s_clock s))) by (unfold w in *; lia).
    destruct fuel as [|fuel]; [lia|]. clear IH.
    split.
    + rewrite wait_loop_S. cbv zeta. destruct (e_answer e (s_calls s2)); try discriminate.
      change (s_clock s2) with (S (s_clock s)). rewrite (proj2 (Z.leb_le _ _) LE). discriminate.
    + exists ([(CConnect, e_answer e (s_calls s2))] ++ [(CSleep w, AOk); (CConnect, ARefused)]).
      split.
      * rewrite wait_loop_S. cbv zeta. destruct (e_answer e (s_calls s2)); try reflexivity.
        change (s_clock s2) with (S (s_clock s)). rewrite (proj2 (Z.leb_le _ _) LE). reflexivity.
      * rewrite attempts_app, slept_app.
        change (attempts [(CSleep w, AOk); (CConnect, ARefused)]) with 1.
        change (slept [(CSleep w, AOk); (CConnect, ARefused)]) with (w + 0).
        change (attempts [(CConnect, e_answer e (s_calls s2))]) with 1.
        change (slept [(CConnect, e_answer e (s_calls s2))]) with 0. unfold w in *. lia.
Qed.

(* ---- programs ---- *)

Definition nowork (l : list (call * answer)) : Prop := forall a, ~ In (CWork, a) l.
Lemma nowork_app a b : nowork a -> nowork b -> nowork (a ++ b).
Proof. intros A B x I. apply in_app_iff in I. destruct I; [apply (A x)|apply (B x)]; auto. Qed.

Lemma stop_cases s : s_proc s = true -> exists l r b, stop e s = (r, St (s_calls (snd (stop e s))) (s_clock s) (l ++ s_log s) b) /\
  ((l = [(CReap false, AOk); (CTerminate, AOk)] /\ r = inl tt /\ b = false) \/
   (l = [(CReap true, AOk); (CKill, AOk); (CReap false, ATimeout); (CTerminate, AOk)] /\ r = inl tt /\ b = false) \/
   (exists a, a <> AOk /\ l = [(CReap true, a); (CKill, AOk); (CReap false, ATimeout); (CTerminate, AOk)] /\ r = inr (exn_of a) /\ b = true) \/
   (exists a, a <> AOk /\ a <> ATimeout /\ l = [(CReap false, a); (CTerminate, AOk)] /\ r = inr (exn_of a) /\ b = true)).
Proof.
  intros P. unfold stop. rewrite P.
  unfold bind, note, ask, do_, set_proc, raise. cbn [s_calls s_clock s_log s_proc].
  destruct (e_answer e (s_calls s)) eqn:A1; cbn [s_calls s_clock s_log s_proc fst snd].
  - do 3 eexists. split; [|left; split; [reflexivity|split; reflexivity]]. reflexivity.
  - do 3 eexists. split; [|right; right; right; exists ARefused; repeat split; discriminate || reflexivity]. rewrite P. reflexivity.
  - unfold bind, ask. cbn [s_calls s_clock s_log s_proc fst snd].
    destruct (e_answer e (S (s_calls s))) eqn:A2; cbn [s_calls s_clock s_log s_proc fst snd ret raise exn_of].
    + do 3 eexists. split; [|right; left; split; [reflexivity|split; reflexivity]]. reflexivity.
    + do 3 eexists. split; [|right; right; left; exists ARefused; repeat split; discriminate || reflexivity]. rewrite P. reflexivity.
    + do 3 eexists. split; [|right; right; left; exists ATimeout; repeat split; discriminate || reflexivity]. rewrite P. reflexivity.
    + do 3 eexists. split; [|right; right; left; exists AOs; repeat split; discriminate || reflexivity]. rewrite P. reflexivity.
    + do 3 eexists. split; [|right; right; left; exists AError; repeat split; discriminate || reflexivity]. rewrite P. reflexivity.
  - do 3 eexists. split; [|right; right; right; exists AOs; repeat split; discriminate || reflexivity]. rewrite P. reflexivity.
  - do 3 eexists. split; [|right; right; right; exists AError; repeat split; discriminate || reflexivity]. rewrite P. reflexivity.
Qed.

Lemma stop_spec s : exists l, s_log (snd (stop e s)) = l ++ s_log s /\
  directories l = 0 /\ connections l = 0 /\ nowork l /\
  (s_proc s = false -> stop e s = (inl tt, s)) /\
  (s_proc s = true -> Forall polite l -> fst (stop e s) = inl tt /\ processes l = -1 /\ s_proc (snd (stop e s)) = false).
Proof.
  destruct (s_proc s) eqn:P.
  - destruct (stop_cases s P) as (l & r & b & E & C). exists l. rewrite E. cbn [fst snd s_log s_proc].
    split; auto.
    destruct C as [(-> & -> & ->)|[(-> & -> & ->)|[(a & NA & -> & -> & ->)|(a & NA & NB & -> & -> & ->)]]].
    + split; [reflexivity|]. split; [reflexivity|]. split; [intros a [I|[I|[]]]; discriminate|]. split; [discriminate|]. auto.
    + split; [reflexivity|]. split; [reflexivity|]. split; [intros a [I|[I|[I|[I|[]]]]]; discriminate|]. split; [discriminate|]. auto.
    + split; [destruct a; reflexivity|]. split; [destruct a; reflexivity|]. split; [intros x [I|[I|[I|[I|[]]]]]; discriminate|]. split; [discriminate|].
      intros _ F. inversion F as [|? ? Q]. cbn in Q. congruence.
    + split; [destruct a; reflexivity|]. split; [destruct a; reflexivity|]. split; [intros x [I|[I|[]]]; discriminate|]. split; [discriminate|].
      intros _ F. inversion F as [|? ? Q]. cbn in Q. destruct Q; congruence.
  - exists []. unfold stop. rewrite P. cbn. repeat split; auto; try discriminate; try (intros ? []).
Qed.

Definition enough (fuel : nat) (timeout : Z) : Prop :=
  0 <= timeout /\ (forall k, clock_ok e k timeout STEP) /\ timeout + STEP < STEP * Z.of_nat fuel.

Lemma wait_spec fuel timeout s : enough fuel timeout -> exists l,
  s_log (snd (wait_for_socket e fuel timeout STEP s)) = l ++ s_log s /\
  s_proc (snd (wait_for_socket e fuel timeout STEP s)) = s_proc s /\ Forall plain l /\ nowork l /\
  fst (wait_for_socket e fuel timeout STEP s) <> inl None /\
  (forall x, fst (wait_for_socket e fuel timeout STEP s) = inr x -> ~ Forall polite l) /\
  (fst (wait_for_socket e fuel timeout STEP s) = inl (Some true) -> exists l', l = (CConnect, AOk) :: l').
Proof.
  intros (T & CK & F). unfold wait_for_socket, bind, now.
  set (s1 := St (s_calls s) (S (s_clock s)) (s_log s) (s_proc s)).
  destruct (wait_loop_log STEP fuel (e_now e (s_clock s) + timeout) s1) as (l & A & B & C & D & D2 & _).
  destruct (wait_loop_ends STEP timeout (s_clock s) eq_refl fuel s1 (CK (s_clock s))) with (g := timeout) as (N & _).
  - cbn. lia.
  - cbn. destruct (CK (s_clock s)) as [H _]. lia.
  - lia.
  - lia.
  - exists l. split; [exact A|]. split; [exact B|]. split; [exact C|]. split.
    { intros a I. (* only CConnect and CSleep *) clear - A I.
      revert A I. generalize (e_now e (s_clock s) + timeout). intros d. unfold s1. clear s1.
      assert (X : forall fuel s, exists l', s_log (snd (wait_loop e fuel d STEP s)) = l' ++ s_log s /\ nowork l').
      { clear. induction fuel as [|fuel IH]; intros s; [exists []; cbn; split; auto; intros ? []|].
        rewrite wait_loop_S. cbv zeta. destruct (e_answer e (s_calls s));
          try (eexists [_]; split; [reflexivity|]; intros ? [I|[]]; discriminate).
        destruct (d <=? e_now e (s_clock s)); [eexists [_]; split; [reflexivity|]; intros ? [I|[]]; discriminate|].
        match goal with |- context [wait_loop e fuel d STEP ?s1] => destruct (IH s1) as (l' & A & B) end.
        eexists (l' ++ [_; _]). split; [rewrite A, <- app_assoc; reflexivity|]. apply nowork_app; auto.
        intros ? [I|[I|[]]]; discriminate. }
      destruct (X fuel (St (s_calls s) (S (s_clock s)) (s_log s) (s_proc s))) as (l' & A' & N). intros A I.
      rewrite A in A'. cbn [s_log] in A'. apply app_inv_tail in A'. subst l'. apply (N a I). }
    split; [exact N|]. split; [exact D|exact D2].
Qed.

(* Triples: the state of server.proc before, and what is known after about the
   result, server.proc and the calls. *)
Definition tri {A} (b : bool) (m : M A) (Q : A + exn -> bool -> list (call * answer) -> Prop) : Prop :=
  forall s, s_proc s = b -> exists l, s_log (snd (m s)) = l ++ s_log s /\ Q (fst (m s)) (s_proc (snd (m s))) l.

Lemma tri_bind {A B} b (m : M A) (k : A -> M B) Q1 Q :
  tri b m Q1 -> (forall a b' l1, Q1 (inl a) b' l1 -> tri b' (k a) (fun r b'' l2 => Q r b'' (l2 ++ l1))) ->
  (forall x b' l1, Q1 (inr x) b' l1 -> Q (inr x) b' l1) -> tri b (bind m k) Q.
Proof.
  intros H1 H2 H3 s P. destruct (H1 s P) as (l1 & L1 & R1). unfold bind.
  destruct (m s) as [[a|x] s1]; cbn [fst snd] in *; [|exists l1; auto].
  destruct (H2 a _ l1 R1 s1 eq_refl) as (l2 & L2 & R2). exists (l2 ++ l1). rewrite L2, L1, app_assoc. auto.
Qed.
Lemma tri_finally {A} b (m : M A) f Q1 Q :
  tri b m Q1 -> (forall r b' l1, Q1 r b' l1 -> tri b' f (fun r2 b'' l2 =>
     match r2 with inl _ => Q r b'' (l2 ++ l1) | inr x => Q (inr x) b'' (l2 ++ l1) end)) ->
  tri b (finally m f) Q.
Proof.
  intros H1 H2 s P. destruct (H1 s P) as (l1 & L1 & R1). unfold finally.
  destruct (m s) as [r s1]; cbn [fst snd] in *.
  destruct (H2 r _ l1 R1 s1 eq_refl) as (l2 & L2 & R2). destruct (f s1) as [[u|x] s2]; cbn [fst snd] in *;
    exists (l2 ++ l1); rewrite L2, L1, app_assoc; auto.
Qed.
Lemma tri_ret {A} b (a : A) (Q : A + exn -> bool -> list (call * answer) -> Prop) : Q (inl a) b [] -> tri b (ret a) Q.
Proof. intros H s P. exists []. cbn. rewrite P. auto. Qed.
Lemma tri_raise {A} b x (Q : A + exn -> bool -> list (call * answer) -> Prop) : Q (inr x) b [] -> tri b (raise x) Q.
Proof. intros H s P. exists []. cbn. rewrite P. auto. Qed.
Lemma tri_weaken {A} b (m : M A) (Q1 Q : A + exn -> bool -> list (call * answer) -> Prop) :
  tri b m Q1 -> (forall r b' l, Q1 r b' l -> Q r b' l) -> tri b m Q.
Proof. intros H1 H2 s P. destruct (H1 s P) as (l & L & R). exists l. auto. Qed.
Lemma tri_do b c : tri b (do_ e c) (fun r b' l => b' = b /\ exists a, l = [(c, a)] /\
  r = match a with AOk => inl tt | a => inr (exn_of a) end).
Proof.
  intros s P. destruct (do_log c s) as (a & L & PR & _ & R). exists [(c, a)]. rewrite L, PR, R.
  split; [reflexivity|]. split; [exact P|]. exists a. auto.
Qed.
Lemma tri_set b b1 : tri b (set_proc b1) (fun r b' l => r = inl tt /\ b' = b1 /\ l = []).
Proof. intros s P. exists []. cbn. auto. Qed.

Definition holds0 (l : list (call * answer)) : Prop := directories l = 0 /\ connections l = 0 /\ nowork l.
Lemma holds0_app a b : holds0 a -> holds0 b -> holds0 (a ++ b).
Proof.
  intros (A1 & A2 & A3) (B1 & B2 & B3). split; [|split].
  - rewrite directories_app. lia.
  - rewrite connections_app. lia.
  - apply nowork_app; auto.
Qed.

Definition started (r : option unit + exn) (b : bool) (l : list (call * answer)) : Prop :=
  holds0 l /\ r <> inl None /\
  (Forall polite l -> match r with inl _ => processes l = 1 /\ b = true | inr _ => processes l = 0 /\ b = false end) /\
  (forall x, r = inl x -> b = true /\ In (CConnect, AOk) l).

Lemma start_tri fuel v : enough fuel (v_timeout v) -> tri false (start e fuel v) started.
Proof.
  intros EN. unfold start. destruct (socket_options (v_sock v)) as [sock|].
  2: { apply tri_raise. repeat split; auto; try discriminate. intros ? []. }
  eapply tri_bind; [apply tri_do| |].
  2: { intros x b' l1 (-> & a & -> & R). repeat split; auto; try discriminate; destruct a; try discriminate; intros ? [I|[]]; discriminate. }
  intros u b' l1 (-> & a & -> & R). destruct a; try discriminate. clear R u.
  destruct (depth_options v (e_version e)) as [depth|].
  2: { apply tri_raise. repeat split; auto; try discriminate. intros ? [I|[]]; discriminate. }
  eapply tri_bind; [apply tri_do| |].
  2: { intros x b' l1 (-> & a & -> & R). repeat split; auto; try discriminate; destruct a; try discriminate; intros ? [I|[I|[]]]; discriminate. }
  intros u b' l1 (-> & a & -> & R). destruct a; try discriminate. clear R u.
  eapply tri_bind; [apply tri_do| |].
  2: { intros x b' l1 (-> & a & -> & R). repeat split; auto; try discriminate; destruct a; try discriminate; try (intros ? [I|[I|[I|[]]]]; discriminate); auto. }
  intros u b' l1 (-> & a & -> & R). destruct a; try discriminate. clear R u.
  set (pre := [(CPopen (command v (e_direct e) (e_block e) sock depth), AOk)] ++ [(CStat, AOk)] ++ [(CVersion, AOk)]).
  assert (H0 : holds0 pre).
  { split; [reflexivity|]. split; [reflexivity|]. intros ? [I|[I|[I|[]]]]; discriminate. }
  assert (PR : processes pre = 1) by reflexivity.
  apply (tri_weaken _ _ (fun r b'' l2 => started r b'' (l2 ++ pre)));
    [|intros r b' l; unfold pre; rewrite <- !app_assoc; auto].
  clearbody pre.
  eapply tri_bind; [apply tri_set| |intros x b' l1 (R & _); discriminate].
  intros u b' l1 (_ & -> & ->).
  apply (tri_weaken _ _ (fun r b'' l2 => started r b'' (l2 ++ pre))); [|intros r b' l; rewrite app_nil_r; auto].
  apply (tri_bind true _ _ (fun r b' l => b' = true /\ Forall plain l /\ nowork l /\ r <> inl None /\
     (forall x, r = inr x -> ~ Forall polite l) /\ (r = inl (Some true) -> exists l', l = (CConnect, AOk) :: l'))).
  { intros s P. destruct (wait_spec fuel (v_timeout v) s EN) as (l & A & B & C & D & E1 & E2 & E3). exists l.
    split; [exact A|]. split; [congruence|]. repeat split; auto. }
  - intros [[|]|] b' l1 (-> & C & D & E1 & E2 & E3); [| |congruence].
    + apply tri_ret. destruct (plain_holds _ C) as (Q1 & Q2 & Q3). cbn [app].
      split; [apply holds0_app; [split; auto|auto]|]. split; [discriminate|]. split.
      * intros _. rewrite processes_app. lia.
      * intros x _. split; auto. destruct (E3 eq_refl) as [l' ->]. left. reflexivity.
    + destruct (plain_holds _ C) as (Q1 & Q2 & Q3).
      apply (tri_bind true _ _ (fun r b l => holds0 l /\ (Forall polite l -> r = inl tt /\ processes l = -1 /\ b = false))).
      * intros s P. destruct (stop_spec s) as (l & A & B1 & B2 & B3 & _ & B4). exists l. split; auto.
        split; [split; auto|]. auto.
      * intros x b' l2 (B1 & B2). apply tri_raise. cbn [app]. rewrite <- !app_assoc.
        split; [apply holds0_app; [auto|apply holds0_app; [split; auto|auto]]|]. split; [discriminate|]. split; [|discriminate].
        intros F. apply Forall_app in F. destruct F as [F _]. destruct (B2 F) as (_ & B3 & ->).
        rewrite !processes_app. split; lia.
      * intros x b' l2 (B1 & B2). rewrite <- !app_assoc.
        split; [apply holds0_app; [auto|apply holds0_app; [split; auto|auto]]|]. split; [discriminate|]. split; [|discriminate].
        intros F. apply Forall_app in F. destruct F as [F _]. destruct (B2 F) as (B3 & _). discriminate.
  - intros x b' l1 (-> & C & D & E1 & E2 & E3). destruct (plain_holds _ C) as (Q1 & Q2 & Q3).
    split; [apply holds0_app; [split; auto|auto]|]. split; [discriminate|]. split; [|discriminate].
    intros F. apply Forall_app in F. destruct (E2 x eq_refl (proj1 F)).
Qed.

(* The block of the with statement. *)
Definition block : M unit := do_ e COpenNbd ;; do_ e CWork.
Lemma block_tri b : tri b block (fun r b' l => b' = b /\ Forall plain l /\
  (r = inl tt -> l = [(CWork, AOk); (COpenNbd, AOk)]) /\ (forall a, In (CWork, a) l -> In (COpenNbd, AOk) l)).
Proof.
  unfold block. eapply tri_bind; [apply tri_do| |].
  - intros u b' l1 (-> & a & -> & R). destruct a; try discriminate.
    eapply tri_weaken; [apply tri_do|]. intros r b' l (-> & a & -> & ->). split; auto. split; [repeat constructor|].
    split; [destruct a; try discriminate; auto|]. intros _ _. right. left. auto.
  - intros x b' l1 (-> & a & -> & R). split; auto. split; [repeat constructor|]. split; [discriminate|].
    intros ? [I|[]]; discriminate.
Qed.

Definition ran (r : option unit + exn) (b : bool) (l : list (call * answer)) : Prop :=
  directories l = 0 /\ connections l = 0 /\ r <> inl None /\
  (Forall polite l -> processes l = 0 /\ b = false) /\
  (r = inl (Some tt) -> In (CWork, AOk) l) /\
  (forall a, In (CWork, a) l -> In (COpenNbd, AOk) l /\ In (CConnect, AOk) l).

Lemma run_tri fuel v : enough fuel (v_timeout v) -> tri false (run e fuel v block) ran.
Proof.
  intros EN. unfold run. eapply tri_bind; [apply start_tri; auto| |].
  2: { intros x b' l1 ((A1 & A2 & A3) & B & C & D). split; auto. split; auto. split; [discriminate|].
       split; [exact C|]. split; [discriminate|]. intros a I. destruct (A3 a I). }
  intros [u|] b' l1 (A & B & C & D); [|congruence]. destruct (D _ eq_refl) as [-> D2]. destruct A as (A1 & A2 & A3).
  apply (tri_finally true _ _ (fun r b' l => b' = true /\ Forall plain l /\ r <> inl None /\
     (r = inl (Some tt) -> l = [(CWork, AOk); (COpenNbd, AOk)]) /\ (forall a, In (CWork, a) l -> In (COpenNbd, AOk) l))).
  { eapply tri_bind; [apply block_tri| |].
    - intros x b' l2 (-> & P & Q1 & Q2). apply tri_ret. cbn [app]. split; auto. split; auto. split; [discriminate|].
      split; auto. destruct x. auto.
    - intros x b' l2 (-> & P & Q1 & Q2). split; auto. split; auto. split; [discriminate|]. split; [discriminate|auto]. }
  intros r b' l2 (-> & P & N & Q1 & Q2). destruct (plain_holds _ P) as (H1 & H2 & H3).
  intros s PS. destruct (stop_spec s) as (l & L & S1 & S2 & S3 & _ & S4). exists l. split; auto.
  assert (X : forall r', (r' = r \/ exists x, r' = inr x) ->
    (Forall polite l -> fst (stop e s) = inl tt /\ processes l = -1 /\ s_proc (snd (stop e s)) = false) ->
    ran r' (s_proc (snd (stop e s))) ((l ++ l2) ++ l1)).
  { intros r' R' SP. split; [rewrite !directories_app; lia|]. split; [rewrite !connections_app; lia|].
    split; [destruct R' as [->|[x ->]]; auto; discriminate|]. split.
    - intros F. apply Forall_app in F. destruct F as [F F1]. apply Forall_app in F. destruct F as [F F2].
      destruct (SP F) as (_ & SP1 & SP2). destruct (C F1) as [C1 _]. rewrite !processes_app. split; [lia|auto].
    - split.
      + intros E. destruct R' as [->|[x ->]]; [|discriminate]. rewrite (Q1 E).
        apply in_app_iff. left. apply in_app_iff. right. left. auto.
      + intros a I. apply in_app_iff in I. destruct I as [I|I]; [|destruct (A3 a I)].
        apply in_app_iff in I. destruct I as [I|I]; [destruct (S3 a I)|]. split.
        * apply in_app_iff. left. apply in_app_iff. right. apply (Q2 a I).
        * apply in_app_iff. right. exact D2. }
  destruct (stop e s) as [[[]|x] s2] eqn:E; cbn [fst snd] in *; apply X; eauto.
Qed.

Definition opened (r : option unit + exn) (b : bool) (l : list (call * answer)) : Prop :=
  connections l = 0 /\ r <> inl None /\
  (Forall polite l -> processes l = 0 /\ directories l = 0 /\ b = false) /\
  (r = inl (Some tt) -> In (CWork, AOk) l) /\
  (forall a, In (CWork, a) l -> In (COpenNbd, AOk) l /\ In (CConnect, AOk) l).

Lemma open_nbd_tri fuel f fmt ro sh bm off sz bc : enough fuel 10000 ->
  tri false (open_nbd e fuel f fmt ro sh bm off sz bc (do_ e CWork)) opened.
Proof.
  intros EN. unfold open_nbd, tmp_dir. eapply tri_bind; [apply tri_do| |].
  2: { intros x b' l1 (-> & a & -> & R). split; [reflexivity|]. split; [discriminate|]. split.
       - intros _. destruct a; try discriminate; repeat split.
       - split; [discriminate|]. intros ? [I|[]]; discriminate. }
  intros u b' l1 (-> & a & -> & R). destruct a; try discriminate.
  eapply tri_finally; [apply run_tri; exact EN|].
  intros r b' l1 (A1 & A2 & A3 & A4 & A5 & A6). eapply tri_weaken; [apply tri_do|].
  intros r2 b2 l (-> & a & -> & ->).
  assert (CO : forall a, connections [(CRmtree, a)] = 0) by (intros []; reflexivity).
  assert (PO : forall a, processes [(CRmtree, a)] = 0) by (intros []; reflexivity).
  assert (X : forall r', (r' = r /\ a = AOk) \/ (exists x, r' = inr x) -> opened r' b' (([(CRmtree, a)] ++ l1) ++ [(CMkdtemp, AOk)])).
  { intros r' R'. split; [rewrite !connections_app, CO, A2; reflexivity|].
    split; [destruct R' as [[-> _]|[x ->]]; auto; discriminate|]. split.
    - intros F. apply Forall_app in F. destruct F as [F _]. apply Forall_app in F. destruct F as [F1 F2].
      inversion F1 as [|? ? F3]. cbn in F3. subst a. destruct (A4 F2) as [B1 B2].
      rewrite !processes_app, !directories_app, PO, A1, B1. repeat split; auto.
    - split.
      + intros E. destruct R' as [[-> _]|[x ->]]; [|discriminate]. apply in_app_iff. left. right. auto.
      + intros x I. apply in_app_iff in I. destruct I as [I|[I|[]]]; [|discriminate].
        destruct I as [I|I]; [discriminate|]. destruct (A6 x I). split; apply in_app_iff; left; right; auto. }
  destruct a; cbn [exn_of]; apply X; eauto.
Qed.

(* ---- connections to the server ---- *)

Definition http_log (proxy : bool) (r : unit + exn) (l : list (call * answer)) : Prop :=
  (r = inl tt /\ (l = [(COpenHttp false, AOk)] \/
     (proxy = true /\ exists a, (a = AOs \/ a = ARefused) /\ l = [(COpenHttp true, AOk); (COpenHttp false, a)]))) \/
  (exists x, r = inr x /\ ((exists a, a <> AOk /\ l = [(COpenHttp false, a)]) \/
     (proxy = true /\ exists a a', a' <> AOk /\ (a = AOs \/ a = ARefused) /\ l = [(COpenHttp true, a'); (COpenHttp false, a)]))).

Lemma open_http_tri b p : tri b (open_http e p) (fun r b' l => b' = b /\ http_log p r l).
Proof.
  intros s P. unfold open_http, bind at 1. unfold bind. rewrite ask_log.
  assert (D : forall s1, s_log s1 = (COpenHttp false, e_answer e (s_calls s)) :: s_log s -> s_proc s1 = b ->
     (e_answer e (s_calls s) = AOs \/ e_answer e (s_calls s) = ARefused) -> p = true ->
     exists l, s_log (snd (do_ e (COpenHttp true) s1)) = l ++ s_log s /\
       s_proc (snd (do_ e (COpenHttp true) s1)) = b /\ http_log p (fst (do_ e (COpenHttp true) s1)) l).
  { intros s1 L1 P1 O PT. destruct (do_log (COpenHttp true) s1) as (a & L & PR & _ & R).
    exists [(COpenHttp true, a); (COpenHttp false, e_answer e (s_calls s))].
    rewrite L, L1, PR, R. split; [reflexivity|]. split; [exact P1|].
    destruct a; [left; split; auto; right; eauto| | | |];
      (right; eexists; split; [reflexivity|]; right; split; [exact PT|]; eexists; eexists; split; [|eauto]; discriminate). }
  destruct (e_answer e (s_calls s)) eqn:A.
  - eexists [_]. split; [reflexivity|]. split; [exact P|]. left. auto.
  - destruct p.
    + apply D; auto.
    + eexists [_]. split; [reflexivity|]. split; [exact P|]. right. eexists. split; [reflexivity|]. left. exists ARefused. split; [discriminate|auto].
  - eexists [_]. split; [reflexivity|]. split; [exact P|]. right. eexists. split; [reflexivity|]. left. exists ATimeout. split; [discriminate|auto].
  - destruct p.
    + apply D; auto.
    + eexists [_]. split; [reflexivity|]. split; [exact P|]. right. eexists. split; [reflexivity|]. left. exists AOs. split; [discriminate|auto].
  - eexists [_]. split; [reflexivity|]. split; [exact P|]. right. eexists. split; [reflexivity|]. left. exists AError. split; [discriminate|auto].
Qed.

Lemma http_log_holds p r l : http_log p r l -> connections l = (match r with inl _ => 1 | inr _ => 0 end) /\
  processes l = 0 /\ directories l = 0 /\ nowork l /\
  (forall a, In (COpenHttp true, a) l -> p = true /\ (In (COpenHttp false, AOs) l \/ In (COpenHttp false, ARefused) l)).
Proof.
  intros [(-> & [->|(-> & a & A & ->)])|(x & -> & [(a & A & ->)|(-> & a & a' & A' & A & ->)])].
  - repeat split; try (intros ? [I|[]]; discriminate); destruct H as [I|[]]; discriminate.
  - split; [destruct A as [-> | ->]; reflexivity|]. split; [destruct A as [-> | ->]; reflexivity|]. split; [destruct A as [-> | ->]; reflexivity|].
    split; [intros ? [I|[I|[]]]; discriminate|]. intros y _. split; auto. destruct A as [-> | ->]; cbn; auto.
  - split; [destruct a; try congruence; reflexivity|]. split; [destruct a; reflexivity|]. split; [destruct a; reflexivity|].
    split; [intros ? [I|[]]; discriminate|]. intros y [I|[]]. discriminate.
  - split; [destruct A as [-> | ->]; destruct a'; try congruence; reflexivity|]. split; [destruct A as [-> | ->]; destruct a'; reflexivity|]. split; [destruct A as [-> | ->]; destruct a'; reflexivity|].
    split; [intros ? [I|[I|[]]]; discriminate|]. intros y _. split; auto. destruct A as [-> | ->]; cbn; auto.
Qed.

Definition transferred (p : bool) (r : option unit + exn) (b : bool) (l : list (call * answer)) : Prop :=
  connections l = 0 /\ r <> inl None /\
  (Forall polite l -> processes l = 0 /\ directories l = 0) /\
  (r = inl (Some tt) -> In (CWork, AOk) l) /\
  (forall a, In (CWork, a) l -> In (COpenNbd, AOk) l /\ In (CConnect, AOk) l) /\
  (forall a, In (COpenHttp true, a) l -> p = true /\ (In (COpenHttp false, AOs) l \/ In (COpenHttp false, ARefused) l)).

(* The body of upload and download: a call, then open_nbd. *)
Lemma with_http_tri p c body : (c = CInfo \/ c = CCreate) ->
  tri false body (fun r b l => opened r b l /\ forall a, ~ In (COpenHttp true, a) l) ->
  tri false (with_http e p (do_ e c ;; body)) (transferred p).
Proof.
  intros CC HB. unfold with_http. eapply tri_bind; [apply open_http_tri| |].
  2: { intros x b' l1 (-> & H). destruct (http_log_holds _ _ _ H) as (H1 & H2 & H3 & H4 & H5).
       split; auto. split; [discriminate|]. split; auto. split; [discriminate|]. split; auto.
       intros a I. destruct (H4 a I). }
  intros u b' l1 (-> & H). destruct (http_log_holds _ _ _ H) as (H1 & H2 & H3 & H4 & H5).
  assert (B2 : tri false (do_ e c ;; body) (fun r b l => opened r b l /\ forall a, ~ In (COpenHttp true, a) l)).
  { eapply tri_bind; [apply tri_do| |].
    - intros v b' l2 (-> & a & -> & R). eapply tri_weaken; [exact HB|].
      intros r b' l ((O1 & O2 & O3 & O4 & O5) & O6).
      assert (Z : processes [(c, a)] = 0 /\ directories [(c, a)] = 0 /\ connections [(c, a)] = 0).
      { destruct CC as [-> | ->]; destruct a; repeat split. }
      destruct Z as (Z1 & Z2 & Z3). split; [split; [|split; [|split; [|split]]]|].
      + rewrite connections_app. lia.
      + exact O2.
      + intros F. apply Forall_app in F. destruct (O3 (proj1 F)) as (Y1 & Y2 & Y3).
        rewrite processes_app, directories_app. repeat split; auto; lia.
      + intros E. apply in_app_iff. auto.
      + intros x I. apply in_app_iff in I. destruct I as [I|[I|[]]].
        * destruct (O5 x I). split; apply in_app_iff; auto.
        * destruct CC; congruence.
      + intros x I. apply in_app_iff in I. destruct I as [I|[I|[]]]; [apply (O6 x I)|destruct CC; congruence].
    - intros x b' l2 (-> & a & -> & R).
      assert (Z : processes [(c, a)] = 0 /\ directories [(c, a)] = 0 /\ connections [(c, a)] = 0).
      { destruct CC as [-> | ->]; destruct a; repeat split. }
      destruct Z as (Z1 & Z2 & Z3). split; [split; [|split; [|split; [|split]]]|]; auto; try discriminate.
      + intros y [I|[]]. destruct CC; congruence.
      + intros y [I|[]]. destruct CC; congruence. }
  intros s PS. destruct (B2 s PS) as (l2 & L2 & ((O1 & O2 & O3 & O4 & O5) & O6)).
  destruct ((do_ e c ;; body) s) as [r s1]. cbn [fst snd] in *. rewrite ask_log.
  remember (e_answer e (s_calls s1)) as a eqn:EA. clear EA.
  exists ([(CCloseHttp, a)] ++ l2).
  assert (Z : connections [(CCloseHttp, a)] = -1 /\ processes [(CCloseHttp, a)] = 0 /\ directories [(CCloseHttp, a)] = 0).
  { destruct a; repeat split. }
  destruct Z as (Z1 & Z2 & Z3).
  assert (X : forall r' b', r' = r \/ (exists x, r' = inr x) -> transferred p r' b' (([(CCloseHttp, a)] ++ l2) ++ l1)).
  { intros r' b' R'. split; [rewrite !connections_app; lia|].
    split; [destruct R' as [->|[x ->]]; auto; discriminate|]. split; [|split; [|split]].
    - intros F. apply Forall_app in F. destruct F as [F _]. apply Forall_app in F. destruct F as [_ F].
      destruct (O3 F) as (Y1 & Y2 & _). rewrite !processes_app, !directories_app. lia.
    - intros E. destruct R' as [->|[x ->]]; [|discriminate]. apply in_app_iff. left. right. auto.
    - intros x I. apply in_app_iff in I. destruct I as [I|I]; [|destruct (H4 x I)].
      destruct I as [I|I]; [discriminate|]. destruct (O5 x I). split; apply in_app_iff; left; right; auto.
    - intros x I. apply in_app_iff in I. destruct I as [I|I].
      + destruct I as [I|I]; [discriminate|destruct (O6 x I)].
      + destruct (H5 x I) as [Y1 Y2]. split; auto. destruct Y2; [left|right]; apply in_app_iff; auto. }
  destruct a; cbn [fst snd s_log s_proc]; (split; [rewrite L2; reflexivity|]); apply X; auto; destruct r; eauto.
Qed.

(* ---- what is started ---- *)

Definition okcall (v : server) (x : call * answer) : Prop :=
  match fst x with
  | COpenHttp _ => False
  | CPopen cmd => exists sock depth, socket_options (v_sock v) = Some sock /\
      depth_options v (e_version e) = Some depth /\ cmd = command v (e_direct e) (e_block e) sock depth
  | _ => True
  end.

Lemma tri_and {A} b (m : M A) Q1 Q2 : tri b m Q1 -> tri b m Q2 -> tri b m (fun r b' l => Q1 r b' l /\ Q2 r b' l).
Proof.
  intros H1 H2 s P. destruct (H1 s P) as (l1 & L1 & R1). destruct (H2 s P) as (l2 & L2 & R2).
  exists l1. split; auto. split; auto. rewrite L1 in L2. apply app_inv_tail in L2. subst. auto.
Qed.

Definition only (v : server) {A} (r : A + exn) (b : bool) (l : list (call * answer)) : Prop := Forall (okcall v) l.

Lemma only_bind {A B} v (m : M A) (k : A -> M B) :
  (forall b, tri b m (only v)) -> (forall a b, tri b (k a) (only v)) -> forall b, tri b (bind m k) (only v).
Proof.
  intros H1 H2 b. eapply tri_bind; [apply H1| |].
  - intros a b' l1 F. eapply tri_weaken; [apply H2|]. intros r b'' l F2. apply Forall_app. auto.
  - intros x b' l1 F. exact F.
Qed.
Lemma only_finally {A} v (m : M A) f :
  (forall b, tri b m (only v)) -> (forall b, tri b f (only v)) -> forall b, tri b (finally m f) (only v).
Proof.
  intros H1 H2 b. eapply tri_finally; [apply H1|].
  intros r b' l1 F. eapply tri_weaken; [apply H2|]. intros [u|x] b'' l F2; apply Forall_app; auto.
Qed.
Lemma only_do v c : okcall v (c, AOk) -> forall b, tri b (do_ e c) (only v).
Proof.
  intros O b. eapply tri_weaken; [apply tri_do|]. intros r b' l (_ & a & -> & _). constructor; [|constructor]. exact O.
Qed.
Lemma plain_ok v l : Forall plain l -> Forall (okcall v) l.
Proof. apply Forall_impl. intros [[] a] H; try exact H; exact I || contradiction. Qed.
Lemma only_stop v b : tri b (stop e) (only v).
Proof.
  intros s P. destruct b.
  - destruct (stop_cases s P) as (l & r & b & E & C). exists l. rewrite E. cbn [snd s_log]. split; auto.
    destruct C as [(-> & _)|[(-> & _)|[(a & _ & -> & _)|(a & _ & _ & -> & _)]]]; repeat constructor.
  - exists []. unfold stop. rewrite P. cbn. split; auto. constructor.
Qed.
Lemma only_start fuel v b : tri b (start e fuel v) (only v).
Proof.
  unfold start. destruct (socket_options (v_sock v)) as [sock|] eqn:S; [|apply tri_raise; constructor].
  apply only_bind; [apply only_do; exact I|]. intros _ b1.
  destruct (depth_options v (e_version e)) as [depth|] eqn:D; [|apply tri_raise; constructor].
  apply only_bind; [apply only_do; exact I|]. intros _ b2.
  apply only_bind; [apply only_do; cbn; eauto|]. intros _ b3.
  apply only_bind; [intros b4; eapply tri_weaken; [apply tri_set|]; intros r b' l (_ & _ & ->); constructor|]. intros _ b4.
  apply only_bind.
  - intros b5 s P. unfold wait_for_socket, bind, now.
    match goal with |- context [wait_loop e fuel ?d STEP ?s1] => destruct (wait_loop_log STEP fuel d s1) as (l & L & _ & F & _) end.
    exists l. split; [exact L|]. apply plain_ok. exact F.
  - intros [[|]|] b5; try (apply tri_ret; constructor).
    apply only_bind; [apply only_stop|]. intros _ b6. apply tri_raise. constructor.
Qed.

Definition nbd_server f fmt ro sh bm off sz bc :=
  Server f fmt (Unix "sock") "" ro sh None None "unmap" "unmap" bm bc off sz 10000.
Lemma only_open_nbd fuel f fmt ro sh bm off sz bc b :
  tri b (open_nbd e fuel f fmt ro sh bm off sz bc (do_ e CWork)) (only (nbd_server f fmt ro sh bm off sz bc)).
Proof.
  unfold open_nbd, tmp_dir. apply only_bind; [apply only_do; exact I|]. intros _ b1.
  apply only_finally; [|apply only_do; exact I]. intros b2. unfold run.
  apply only_bind; [apply only_start|]. intros [u|] b3; [|apply tri_ret; constructor].
  apply only_finally; [|apply only_stop]. intros b4.
  apply only_bind; [|intros _ b5; apply tri_ret; constructor].
  apply only_bind; [|intros _ b5]; apply only_do; exact I.
Qed.

Definition server_of (o : operation) : server :=
  match o with
  | Upload f _ mr mw i c => nbd_server f (i_format i) true (Z.min mr mw + 1) None (i_offset i) (i_size i) c
  | Download f fmt _ _ mr mw => nbd_server f fmt false (Z.min mr mw) None None None true
  | Local f i b => nbd_server f (i_format i) true 1 b (i_offset i) (i_size i) true
  end.
Definition starts_only (v : server) (l : list (call * answer)) : Prop :=
  forall cmd a, In (CPopen cmd, a) l -> exists sock depth, socket_options (v_sock v) = Some sock /\
      depth_options v (e_version e) = Some depth /\ cmd = command v (e_direct e) (e_block e) sock depth.
Lemma ok_starts v l : Forall (okcall v) l -> starts_only v l.
Proof. intros F cmd a I. rewrite Forall_forall in F. exact (F _ I). Qed.
Lemma starts_app v a b : starts_only v a -> starts_only v b -> starts_only v (a ++ b).
Proof. intros A B cmd x I. apply in_app_iff in I. destruct I; eauto. Qed.

Lemma starts_http v p l r : http_log p r l -> starts_only v l.
Proof.
  intros H cmd a I.
  destruct H as [(_ & [->|(_ & x & _ & ->)])|(y & _ & [(x & _ & ->)|(_ & x & x' & _ & _ & ->)])];
    repeat (destruct I as [I|I]; [discriminate|]); destruct I.
Qed.

Lemma with_http_starts {A} v p c (body : M A) b : (c = CInfo \/ c = CCreate) -> (forall b, tri b body (only v)) ->
  tri b (with_http e p (do_ e c ;; body)) (fun r b l => starts_only v l).
Proof.
  intros CC HB. unfold with_http. eapply tri_bind; [apply open_http_tri| |].
  2: { intros x b' l1 (_ & H). exact (starts_http v p l1 _ H). }
  intros u b' l1 (_ & H). apply (starts_http v) in H.
  assert (B2 : forall b, tri b (do_ e c ;; body) (only v)).
  { intros b2. apply only_bind; [apply only_do; destruct CC as [-> | ->]; exact I|]. intros _ b3. apply HB. }
  intros s PS. destruct (B2 b' s PS) as (l2 & L2 & F). apply ok_starts in F.
  destruct ((do_ e c ;; body) s) as [r s1]. cbn [fst snd] in *. rewrite ask_log.
  remember (e_answer e (s_calls s1)) as a eqn:EA. clear EA.
  exists ([(CCloseHttp, a)] ++ l2).
  assert (X : starts_only v (([(CCloseHttp, a)] ++ l2) ++ l1)).
  { apply starts_app; [apply starts_app; [|exact F]|exact H]. intros cmd y [I|[]]. discriminate. }
  destruct a; cbn [fst snd s_log s_proc]; (split; [rewrite L2; reflexivity|]); exact X.
Qed.

Lemma no_http v l : Forall (okcall v) l -> forall a, ~ In (COpenHttp true, a) l.
Proof. intros F a I. rewrite Forall_forall in F. exact (F _ I). Qed.

(* ---- the operations ---- *)

Lemma perform_spec fuel o : enough fuel 10000 ->
  transferred (has_proxy o) (result e fuel o) false (calls e fuel o) /\ starts_only (server_of o) (calls e fuel o).
Proof.
  intros EN. unfold result, calls.
  assert (T : tri false (perform e fuel o) (fun r b l => transferred (has_proxy o) r false l /\ starts_only (server_of o) l)).
  2: { destruct (T initial eq_refl) as (l & L & T1 & T2). cbn [s_log initial] in L. rewrite app_nil_r in L. rewrite L. auto. }
  assert (TB : forall f fmt ro sh bm off sz bc, tri false (open_nbd e fuel f fmt ro sh bm off sz bc (do_ e CWork))
     (fun r b l => opened r b l /\ forall a, ~ In (COpenHttp true, a) l)).
  { intros. eapply tri_weaken; [apply tri_and; [apply open_nbd_tri; exact EN|apply only_open_nbd]|].
    intros r b l (O1 & O2). split; auto. eapply no_http; exact O2. }
  destruct o as [f p mr mw i c|f fmt inc p mr mw|f i bm]; cbn [perform has_proxy server_of].
  - eapply tri_weaken; [apply tri_and; [apply with_http_tri; [auto|apply TB]|apply with_http_starts; [auto|intros b; apply only_open_nbd]]|].
    intros r b l H. exact H.
  - unfold download. destruct (inc && negb (String.eqb fmt "qcow2")) eqn:G.
    + apply tri_raise. split; [|intros ? ? []]. split; [reflexivity|]. split; [discriminate|]. split; [auto|].
      split; [discriminate|]. split; intros ? [].
    + eapply tri_weaken; [apply tri_and; [apply with_http_tri; [auto|apply TB]|apply with_http_starts; [auto|intros b; apply only_open_nbd]]|].
      intros r b l H. exact H.
  - unfold local.
    apply (tri_weaken _ _ (fun r b l => (opened r b l /\ forall a, ~ In (COpenHttp true, a) l) /\
        Forall (okcall (nbd_server f (i_format i) true 1 bm (i_offset i) (i_size i) true)) l)).
    + apply tri_and.
      2: { apply only_bind; [apply only_do; exact I|]. intros _ b. apply only_open_nbd. }
      eapply tri_bind; [apply tri_do| |].
      * intros u b' l2 (-> & a & -> & R). eapply tri_weaken; [apply TB|].
        intros r b' l ((O1 & O2 & O3 & O4 & O5) & O6).
        assert (Z : processes [(CInfo, a)] = 0 /\ directories [(CInfo, a)] = 0 /\ connections [(CInfo, a)] = 0).
        { destruct a; repeat split. }
        destruct Z as (Z1 & Z2 & Z3). split; [split; [|split; [|split; [|split]]]|].
        -- rewrite connections_app. lia.
        -- exact O2.
        -- intros F. apply Forall_app in F. destruct (O3 (proj1 F)) as (Y1 & Y2 & Y3).
           rewrite processes_app, directories_app. repeat split; auto; lia.
        -- intros E. apply in_app_iff. auto.
        -- intros x I. apply in_app_iff in I. destruct I as [I|[I|[]]]; [|discriminate].
           destruct (O5 x I). split; apply in_app_iff; auto.
        -- intros x I. apply in_app_iff in I. destruct I as [I|[I|[]]]; [apply (O6 x I)|discriminate].
      * intros x b' l2 (-> & a & -> & R). split; [split; [|split; [|split; [|split]]]|]; try discriminate.
        -- destruct a; reflexivity.
        -- intros _. destruct a; repeat split.
        -- intros y [I|[]]. discriminate.
        -- intros y [I|[]]. discriminate.
    + intros r b l (((O1 & O2 & O3 & O4 & O5) & O6) & O7). split; [|apply ok_starts; exact O7].
      split; [exact O1|]. split; [exact O2|]. split; [intros F; destruct (O3 F) as (? & ? & ?); auto|].
      split; [exact O4|]. split; [exact O5|]. intros a I. destruct (O6 a I).
Qed.
End L.

(* ---- the command line ---- *)

Lemma in_command v d b sock depth x : socket_options (v_sock v) = Some sock -> forall ver, depth_options v ver = Some depth ->
  In x (command v d b sock depth) ->
  match x with
  | OImage n => n = image_node v b
  | OShared n => n = v_shared v
  | OReadOnly => v_read_only v = true
  | _ => True
  end.
Proof.
  intros S ver D I. unfold command, given in I.
  assert (D' : depth = [] \/ depth = [OAllocationDepth]).
  { unfold depth_options in D.
    repeat match type of D with context [if ?c then _ else _] => destruct c end; try discriminate; injection D as <-; auto. }
  assert (S' : (exists p, sock = [OSocket p]) \/ exists h p, sock = [OBind h; OPort p]).
  { destruct (v_sock v); cbn in S; try discriminate; injection S as <-; eauto. }
  destruct x; auto.
  all: repeat (apply in_app_iff in I; destruct I as [I|I]);
    repeat match goal with
    | H : In _ (if ?c then _ else _) |- _ => destruct c eqn:?
    | H : In _ match v_bitmap ?c with _ => _ end |- _ => destruct (v_bitmap c)
    | H : In _ (_ :: _) |- _ => destruct H as [H|H]
    | H : In _ [] |- _ => destruct H
    end; try congruence.
  all: try (destruct D' as [-> | ->]; [destruct I|destruct I as [I|[]]; discriminate]).
  all: destruct S' as [[p ->]|[h [p ->]]]; repeat (destruct I as [I|I]; [discriminate|]); destruct I.
Qed.
Lemma command_has v d b sock depth :
  In (OImage (image_node v b)) (command v d b sock depth) /\ In (OShared (v_shared v)) (command v d b sock depth) /\
  (v_read_only v = true -> In OReadOnly (command v d b sock depth)).
Proof.
  unfold command. split; [|split].
  - rewrite !in_app_iff. do 9 right. left. reflexivity.
  - right. right. left. reflexivity.
  - intros ->. rewrite !in_app_iff. right. right. left. left. reflexivity.
Qed.

Lemma image_node_view fs decode f fmt ro sh bm off sz bc blk :
  (off = None /\ sz = None) \/ fmt = "raw"%string \/ (fmt = "qcow2"%string /\ bc = true) ->
  view fs decode (image_node (nbd_server f fmt ro sh bm off sz bc) blk) = wanted fs decode f fmt off sz bc.
Proof.
  intros H. unfold image_node, wanted, nbd_server. cbn [v_image v_fmt v_offset v_size v_backing_chain].
  destruct H as [(-> & ->)|[-> |(-> & ->)]].
  - cbn [view]. reflexivity.
  - destruct off, sz; reflexivity.
  - destruct off, sz; reflexivity.
Qed.

(* ---- connections of a copy ---- *)

Lemma set_nth_length {A} (l : list A) : forall i x, List.length (ClientIoModel.set_nth i x l) = List.length l.
Proof. induction l as [|y l IH]; intros [|i] x; cbn; auto. Qed.

Definition to_start (m : ClientIoModel.mstate) : nat := match m with ClientIoModel.MStart n => n | _ => 0%nat end.
Definition winv (n : nat) (s : ClientIoModel.st) : Prop :=
  (List.length (ClientIoModel.workers s) + to_start (ClientIoModel.main s) <= n)%nat.
Lemma winv_step c l s s' n : winv n s -> ClientIoModel.step c l s = Some s' -> winv n s'.
Proof.
  unfold winv. intros W E. destruct l as [k| |i k a]; cbn [ClientIoModel.step] in E.
  - destruct (ClientIoModel.blocked _ _); [discriminate|]. unfold ClientIoModel.main_step in E.
    destruct (ClientIoModel.main s) as [[|m]|[|[r|z] acts]|[|m]| |ab|b]; cbn [to_start] in W.
    all: repeat match type of E with
      | (let (_, _) := ?x in _) = _ => destruct x
      | (if ?x then _ else _) = _ => destruct x
      end; try discriminate; injection E as <-;
      cbn [ClientIoModel.workers ClientIoModel.main to_start]; rewrite ?app_length; cbn [List.length];
      try match goal with |- context [to_start (match ?a with _ => _ end)] => destruct a; cbn [to_start] end; lia.
  - destruct (ClientIoModel.blocked _ _); [discriminate|]. unfold ClientIoModel.main_fail in E.
    destruct (ClientIoModel.main s); try discriminate; injection E as <-;
      cbn [ClientIoModel.workers ClientIoModel.main to_start]; lia.
  - destruct (ClientIoModel.blocked _ _); [discriminate|]. unfold ClientIoModel.worker_step in E.
    destruct (nth_error (ClientIoModel.workers s) i) as [w|]; [|discriminate]. cbv zeta in E.
    destruct (ClientIoModel.w_state w);
    repeat match type of E with
      | (let (_, _) := ?x in _) = _ => destruct x
      | (if ?x then _ else _) = _ => destruct x
      | match ?x with _ => _ end = _ => destruct x
      end; try discriminate; injection E as <-;
      cbn [ClientIoModel.workers ClientIoModel.main]; rewrite ?set_nth_length; exact W.
Qed.
Lemma winv_exec c n tr : forall s s', winv n s -> ClientIoModel.exec c tr s = Some s' -> winv n s'.
Proof.
  induction tr as [|l tr IH]; cbn; intros s s' W E; [congruence|].
  destruct (ClientIoModel.step c l s) as [s1|] eqn:S; [|discriminate]. eapply IH; [|exact E]. eapply winv_step; eauto.
Qed.
Lemma number_le l : number_connected l <= Z.of_nat (List.length l).
Proof. unfold number_connected. induction l as [|w l IH]; cbn; [lia|]. destruct (connected w); cbn [List.length]; lia. Qed.
Lemma copy_connections c depth n d tr s : ClientIoModel.exec c tr (ClientIoModel.init depth n d) = Some s ->
  source_connections s <= 1 + Z.max 1 n /\ destination_connections s <= Z.max 1 n.
Proof.
  intros E. apply (winv_exec c (1 + Z.to_nat (n - 1))) in E; [|unfold winv; cbn; lia].
  unfold winv in E. unfold source_connections, destination_connections.
  pose proof (number_le (ClientIoModel.workers s)). pose proof (number_le (tl (ClientIoModel.workers s))).
  assert (List.length (tl (ClientIoModel.workers s)) = pred (List.length (ClientIoModel.workers s))) by (destruct (ClientIoModel.workers s); reflexivity).
  lia.
Qed.
