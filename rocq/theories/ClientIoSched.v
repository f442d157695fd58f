(* Lemmas about the client copy: accounting of requests, failures, blocking
   and termination. *)
From Coq Require Import ZArith List Bool Lia Permutation.
From Coq.Strings Require Import Byte.
From Verif Require Import BytesLib OpsModel ExtentsModel ExtentsSpec ClientIoModel ClientIoSpec
  ClientIoProofs.
Import ListNotations.
Open Scope Z_scope.

(* ---- counting ---- *)

Definition b2z (b : bool) : Z := if b then 1 else 0.

Fixpoint cnt {A} (f : A -> bool) (l : list A) : Z :=
  match l with [] => 0 | x :: l => b2z (f x) + cnt f l end.

Lemma cnt_app {A} (f : A -> bool) l m : cnt f (l ++ m) = cnt f l + cnt f m.
Proof. induction l; cbn; lia. Qed.

Lemma cnt_bounds {A} (f : A -> bool) l : 0 <= cnt f l <= zlen l.
Proof.
  induction l as [|x l IH]; [unfold zlen; cbn; lia|].
  rewrite zlen_cons. cbn [cnt]. destruct (f x); unfold b2z; lia.
Qed.

Lemma cnt_le {A} (f g : A -> bool) l : (forall x, f x = true -> g x = true) -> cnt f l <= cnt g l.
Proof.
  intros H. induction l as [|x l IH]; cbn; [lia|]. specialize (H x).
  destruct (f x), (g x); unfold b2z; try lia.
Qed.

Lemma cnt_pos {A} (f : A -> bool) l : 0 < cnt f l -> exists x, In x l /\ f x = true.
Proof.
  induction l as [|x l IH]; cbn; [lia|]. destruct (f x) eqn:E; intros H.
  - exists x. auto.
  - destruct IH as (y & Y & FY); [cbn in H; lia|]. exists y. auto.
Qed.

Lemma cnt_in {A} (f : A -> bool) l x : In x l -> f x = true -> 0 < cnt f l.
Proof.
  intros I F. induction l as [|y l IH]; [contradiction|]. cbn.
  pose proof (cnt_bounds f l). destruct I as [->|I].
  - rewrite F. unfold b2z. lia.
  - specialize (IH I). destruct (f y); unfold b2z; lia.
Qed.

Lemma cnt_all {A} (f : A -> bool) l : (forall x, In x l -> f x = true) -> cnt f l = zlen l.
Proof.
  induction l as [|x l IH]; intros H; [reflexivity|]. rewrite zlen_cons. cbn [cnt].
  rewrite H by (now left). cbn [b2z]. rewrite IH; auto. intros. apply H. now right.
Qed.

Lemma cnt_none {A} (f : A -> bool) l : (forall x, In x l -> f x = false) -> cnt f l = 0.
Proof.
  induction l as [|x l IH]; intros H; [reflexivity|]. cbn. rewrite H by (now left). cbn.
  rewrite IH; auto. intros. apply H. now right.
Qed.

Lemma cnt_set_nth {A} (f : A -> bool) i x y l : nth_error l i = Some x ->
  cnt f (set_nth i y l) = cnt f l - b2z (f x) + b2z (f y).
Proof.
  revert i. induction l as [|z l IH]; intros [|i] E; cbn in *; try discriminate.
  - injection E as ->. lia.
  - rewrite (IH i E). lia.
Qed.

Definition onw (f : wstate -> bool) (w : worker) : bool := f (w_state w).

(* Sums over the workers. *)
Fixpoint sumw (f : wstate -> Z) (l : list worker) : Z :=
  match l with [] => 0 | w :: l => f (w_state w) + sumw f l end.

Lemma sumw_app f l m : sumw f (l ++ m) = sumw f l + sumw f m.
Proof. induction l; cbn; lia. Qed.

Lemma sumw_set_nth f i x y l : nth_error l i = Some x ->
  sumw f (set_nth i y l) = sumw f l - f (w_state x) + f (w_state y).
Proof.
  revert i. induction l as [|z l IH]; intros [|i] E; cbn in *; try discriminate.
  - injection E as ->. lia.
  - rewrite (IH i E). lia.
Qed.

(* ---- the queue ---- *)

Lemma in_remove_nth {A} k (x : A) l : In x (remove_nth k l) -> In x l.
Proof.
  revert k. induction l as [|y l IH]; intros [|k] I; cbn in *; auto.
  destruct I; auto. right. eauto.
Qed.

Lemma nodup_remove_nth {A} k (l : list A) : NoDup l -> NoDup (remove_nth k l).
Proof.
  intros N. revert k. induction N as [|y l Y N IH]; intros [|k]; cbn; auto using NoDup_nil.
  constructor; auto. intros I. apply Y. eapply in_remove_nth; eauto.
Qed.

Lemma cnt_remove_nth {A} (f : A -> bool) k l : (k < length l)%nat ->
  exists x, In x l /\ cnt f (remove_nth k l) = cnt f l - b2z (f x).
Proof.
  revert k. induction l as [|y l IH]; intros [|k] H; cbn in *; try lia.
  - exists y. split; auto. lia.
  - destruct (IH k) as (x & I & E); [lia|]. exists x. split; auto. lia.
Qed.

Lemma length_remove_nth {A} k (l : list A) : (k < length l)%nat ->
  length (remove_nth k l) = (length l - 1)%nat.
Proof.
  revert k. induction l as [|y l IH]; intros [|k] H; cbn in *; try lia.
  rewrite IH by lia. lia.
Qed.

Definition is_worker (t : tid) : bool := match t with Worker _ => true | Main => false end.

Lemma notify_in k ws t : In t (notify k ws) -> In t ws.
Proof. apply in_remove_nth. Qed.

Lemma notify_nodup k ws : NoDup ws -> NoDup (notify k ws).
Proof. apply nodup_remove_nth. Qed.

Lemma notify_workers k ws : ~ In Main ws ->
  cnt is_worker (notify k ws) = Z.max 0 (cnt is_worker ws - 1).
Proof.
  intros M. destruct ws as [|t ws]; [reflexivity|].
  unfold notify. set (j := if (k <? length (t :: ws))%nat then k else 0%nat).
  assert (J : (j < length (t :: ws))%nat).
  { subst j. destruct (Nat.ltb_spec k (length (t :: ws))); cbn in *; lia. }
  destruct (cnt_remove_nth is_worker j (t :: ws) J) as (x & I & ->).
  destruct x; [contradiction|]. cbn [is_worker b2z].
  pose proof (cnt_in is_worker (t :: ws) (Worker i) I eq_refl). lia.
Qed.

Lemma notify_length k ws : zlen (notify k ws) = Z.max 0 (zlen ws - 1).
Proof.
  destruct ws as [|t ws]; [reflexivity|].
  unfold notify. set (j := if (k <? length (t :: ws))%nat then k else 0%nat).
  assert (J : (j < length (t :: ws))%nat).
  { subst j. destruct (Nat.ltb_spec k (length (t :: ws))); cbn in *; lia. }
  unfold zlen. rewrite length_remove_nth by auto. cbn [length]. lia.
Qed.

Lemma tid_eqb_eq a b : tid_eqb a b = true <-> a = b.
Proof.
  destruct a, b; cbn; split; try congruence; try discriminate.
  - intros H. apply Nat.eqb_eq in H. congruence.
  - intros H. injection H as ->. apply Nat.eqb_refl.
Qed.

Lemma blocked_in {A} t (q : queue A) : blocked t q = true <-> In t (q_waiters q).
Proof.
  unfold blocked. rewrite existsb_exists. split.
  - intros (x & I & E). apply tid_eqb_eq in E. now subst.
  - intros I. exists t. split; auto. now apply tid_eqb_eq.
Qed.

Lemma blocked_not_in {A} t (q : queue A) : blocked t q = false <-> ~ In t (q_waiters q).
Proof. rewrite <- blocked_in. destruct (blocked t q); intuition congruence. Qed.

(* ---- accounting ---- *)

Definition is_stop (r : request) : bool := match r_op r with STOP => true | _ => false end.
Definition nonstop (l : list request) : list request := filter (fun r => negb (is_stop r)) l.
Definition STOPR : request := Request STOP 0 0.

Definition current (w : worker) : list request :=
  match w_state w with WZero r | WCopy r _ _ _ => [r] | _ => [] end.

Lemma current_set_nth i w w' l : nth_error l i = Some w ->
  Permutation (current w ++ flat_map current (set_nth i w' l))
              (current w' ++ flat_map current l).
Proof.
  revert i. induction l as [|z l IH]; intros [|i] E; cbn in *; try discriminate.
  - injection E as ->. apply Permutation_app_swap_app.
  - etransitivity; [apply Permutation_app_swap_app|].
    etransitivity; [apply Permutation_app_head, (IH i E)|].
    apply Permutation_app_swap_app.
Qed.

Definition stopped (x : wstate) : bool :=
  match x with WFlush | WClosing | WDone => true | _ => false end.

Definition healthy (x : wstate) : bool :=
  match x with WError | WFailed | WCancel => false | _ => true end.

Definition is_done (x : wstate) : bool := match x with WDone => true | _ => false end.

Fixpoint skips (l : list action) : Z :=
  match l with
  | [] => 0
  | Skip k :: l => k + skips l
  | Put _ :: l => skips l
  end.

Fixpoint total (l : list request) : Z :=
  match l with [] => 0 | r :: l => r_length r + total l end.

Lemma total_app l m : total (l ++ m) = total l + total m.
Proof. induction l; cbn; lia. Qed.

Lemma skips_app l m : skips (l ++ m) = skips l + skips m.
Proof. induction l as [|[r|n] l IH]; cbn; lia. Qed.

Section Sched.

Variable c : config.
Variable N : nat.            (* number of workers *)

Definition all_reqs := requests (f_plan c).

Hypothesis no_stop : forall r, In r all_reqs -> is_stop r = false.
Hypothesis some_workers : (0 < N)%nat.

Lemma nonstop_reqs l : (forall r, In r l -> is_stop r = false) -> nonstop l = l.
Proof.
  intros H. induction l as [|r l IH]; auto. cbn. rewrite H by (now left). cbn.
  f_equal. apply IH. intros. apply H. now right.
Qed.

Definition started (s : st) : Prop :=
  match main s with
  | MStart k => (length (workers s) + k = N)%nat
  | MAbort | MJoin true | MDone false => True
  | _ => length (workers s) = N
  end.

Record good (s : st) : Prop := {
  g_closed : q_closed (q s) = false;
  g_errors : errors s = 0%nat;
  g_states : Forall (fun w => healthy (w_state w) = true) (workers s);
  g_fifo : q_put (q s) = q_got (q s) ++ q_items (q s);
  g_started : started s;
  g_main :
    match main s with
    | MStart _ => q_put (q s) = []
    | MRun l => exists l0, f_plan c = l0 ++ l /\ q_put (q s) = requests l0
    | MStop k => (k <= N)%nat /\ q_put (q s) = all_reqs ++ repeat STOPR (N - k)
    | MJoin false => q_put (q s) = all_reqs ++ repeat STOPR N
    | MDone true => q_put (q s) = all_reqs ++ repeat STOPR N /\
        Forall (fun w => w_state w = WDone) (workers s)
    | _ => False
    end;
  g_perm : Permutation (nonstop (q_got (q s))) (done s ++ flat_map current (workers s));
  g_stops : cnt is_stop (q_got (q s)) = cnt (onw stopped) (workers s);
  g_progress :
    progress s + (match main s with MStart _ => skips (f_plan c) | MRun l => skips l | _ => 0 end)
    = total (done s) + skips (f_plan c);
  g_dirty : Forall (fun w => w_state w = WClosing \/ w_state w = WDone -> w_dirty w = false)
              (workers s)
}.

Definition has_error (s : st) : Prop :=
  (0 < errors s)%nat \/ exists i w, nth_error (workers s) i = Some w /\ w_state w = WError.

Definition bad (s : st) : Prop :=
  match main s with
  | MDone b => b = false
  | MAbort | MJoin true => True
  | _ => has_error s
  end.

Ltac inj E := injection E as <-.

Lemma main_step_good k s s' : good s -> main_step c k s = Some s' -> good s'.
Proof.
  intros [A1 A2 A3 A4 A5 A6 A7 A8 A9 A10] E. unfold main_step in E.
  assert (PUT : forall r q' a, try_put Main k r (q s) = (q', a) -> q_closed q' = false /\
            q_got q' = q_got (q s) /\ q_put q' = q_got q' ++ q_items q' /\
            ((a = Waiting /\ q_put q' = q_put (q s)) \/ (a = Got tt /\ q_put q' = q_put (q s) ++ [r]))).
  { intros r q' a T. unfold try_put in T. rewrite A1 in T.
    destruct (length (q_items (q s)) =? q_max (q s))%nat; injection T as <- <-; cbn.
    - repeat split; auto.
    - repeat split; auto. rewrite A4. now rewrite app_assoc. }
  unfold started in A5.
  destruct (main s) as [[|n]|[|[r|n] l]|[|n]| |[|]|b] eqn:M; try contradiction; try discriminate.
  - inj E. constructor; cbn; auto.
    + unfold started. cbn. lia.
    + exists []. auto.
  - inj E. constructor; cbn; auto.
    + apply Forall_app. split; auto.
    + unfold started. cbn. rewrite app_length. cbn. lia.
    + rewrite flat_map_app. cbn. rewrite app_nil_r. auto.
    + rewrite cnt_app. cbn. lia.
    + apply Forall_app. split; auto.
  - inj E. destruct A6 as (l0 & P & Q). rewrite app_nil_r in P. subst l0.
    constructor; cbn; auto.
    rewrite A5. split; [lia|]. rewrite Nat.sub_diag. cbn. now rewrite app_nil_r.
  - destruct A6 as (l0 & P & Q).
    destruct (try_put Main k r (q s)) as [q' a] eqn:T. inj E.
    destruct (PUT _ _ _ T) as (T1 & T2 & T3 & T4). rewrite T2 in T3.
    destruct T4 as [[-> T4]|[-> T4]]; constructor; cbn in *; try rewrite ?T2; auto.
    + exists l0. split; auto. congruence.
    + exists (l0 ++ [Put r]). rewrite <- app_assoc. split; auto.
      rewrite requests_app. cbn. congruence.
  - destruct A6 as (l0 & P & Q). inj E. constructor; cbn in *; auto.
    + exists (l0 ++ [Skip n]). rewrite <- app_assoc. split; auto.
      rewrite requests_app. cbn. now rewrite app_nil_r.
    + lia.
  - inj E. destruct A6 as [A6 A6']. rewrite Nat.sub_0_r in A6'. constructor; cbn; auto.
  - destruct A6 as [A6 A6'].
    destruct (try_put Main k (Request STOP 0 0) (q s)) as [q' a] eqn:T. inj E.
    destruct (PUT _ _ _ T) as (T1 & T2 & T3 & T4). rewrite T2 in T3.
    destruct T4 as [[-> T4]|[-> T4]]; constructor; cbn in *; try rewrite ?T2; auto.
    + split; auto. congruence.
    + split; [lia|]. rewrite T4, A6', <- app_assoc. f_equal.
      replace (N - n)%nat with ((N - S n) + 1)%nat by lia.
      rewrite repeat_app. reflexivity.
  - destruct (forallb _ _) eqn:F; [|discriminate]. inj E. rewrite A2. cbn.
    constructor; cbn; auto. split; auto.
    rewrite forallb_forall in F. apply Forall_forall. intros w W. specialize (F w W).
    destruct (w_state w); auto; discriminate.
Qed.

Lemma worker_step_good i k a s s' :
  good s -> worker_step c i k a s = Some s' ->
  (a_ok a = true -> good s') /\ (a_ok a = false -> good s' \/ bad s').
Proof.
  intros [A1 A2 A3 A4 A5 A6 A7 A8 A9 A10] E. unfold worker_step in E.
  destruct (nth_error (workers s) i) as [w|] eqn:NW; [|discriminate].
  pose proof (Forall_nth_error _ _ _ _ A3 NW) as H.
  pose proof (Forall_nth_error _ _ _ _ A10 NW) as DI. cbn in DI, H.
  assert (MD : w_state w <> WDone -> forall b, main s <> MDone b).
  { intros X b M. rewrite M in A6. destruct b; [|contradiction].
    destruct A6 as [_ A6]. apply X. apply (Forall_nth_error _ _ _ _ A6 NW). }
  assert (G : forall x buf dirty q' dst' done' progress',
    healthy x = true ->
    q_closed q' = false -> q_put q' = q_put (q s) -> q_put q' = q_got q' ++ q_items q' ->
    w_state w <> WDone ->
    Permutation (nonstop (q_got q') ++ current w)
      (done' ++ flat_map current (workers s) ++ current (Wrk x buf dirty)) ->
    cnt is_stop (q_got q') = cnt is_stop (q_got (q s)) - b2z (stopped (w_state w)) + b2z (stopped x) ->
    progress' - total done' = progress s - total (done s) ->
    (x = WClosing \/ x = WDone -> dirty = false) ->
    good (St (main s) (set_nth i (Wrk x buf dirty) (workers s)) q' (errors s) dst' done' progress')).
  { intros x buf dirty q' dst' done' progress' X1 X2 X3 X4 X5 X6 X7 X8 X9.
    constructor; cbn; auto.
    - apply Forall_set_nth; auto.
    - unfold started in *. cbn. now rewrite length_set_nth.
    - rewrite X3. specialize (MD X5).
      destruct (main s) as [| | | |[|]|b]; auto. elim (MD b). auto.
    - pose proof (current_set_nth i w (Wrk x buf dirty) (workers s) NW) as C.
      apply (Permutation_app_inv_l (current w)).
      etransitivity; [apply Permutation_app_comm|].
      etransitivity; [exact X6|].
      etransitivity; [|apply Permutation_app_swap_app].
      apply Permutation_app_head.
      etransitivity; [apply Permutation_app_comm|]. symmetry. exact C.
    - rewrite X7, A8, (cnt_set_nth _ _ _ _ _ NW). unfold onw. cbn. reflexivity.
    - destruct (main s); lia.
    - apply Forall_set_nth; auto. }
  assert (B : forall buf dirty q' dst' done' progress',
    w_state w <> WDone ->
    bad (St (main s) (set_nth i (Wrk WError buf dirty) (workers s)) q' (errors s) dst' done' progress')).
  { intros. specialize (MD H0). unfold bad. cbn.
    assert (HE : has_error (St (main s) (set_nth i (Wrk WError buf dirty) (workers s)) q' (errors s)
                   dst' done' progress')).
    { right. exists i. eexists. cbn. rewrite nth_set_nth, Nat.eqb_refl, NW. split; reflexivity. }
    destruct (main s) as [| | | |[|]|b]; auto. elim (MD b). auto. }
  destruct (w_state w) as [| |r|r sp dp todo| | | | | |] eqn:WS; try discriminate.
  - inj E. destruct (a_ok a).
    + split; [|discriminate]. intros _. apply G; auto; try discriminate.
      * unfold current. rewrite WS. cbn. rewrite !app_nil_r. auto.
      * cbn. lia.
      * intros [X|X]; discriminate.
    + split; [discriminate|]. intros _. right. apply B. discriminate.
  - assert (good s'); [|auto]. unfold try_get in E. rewrite A1 in E.
    destruct (q_items (q s)) as [|r items] eqn:QI.
    + inj E. apply G; cbn; auto; try discriminate.
      * unfold current. rewrite WS. cbn. rewrite !app_nil_r. auto.
      * cbn. lia.
    + inj E. apply G; cbn; auto; try discriminate.
      * destruct (r_op r); reflexivity.
      * rewrite <- app_assoc. exact A4.
      * unfold nonstop in *. rewrite filter_app. unfold current at 1. rewrite WS, app_nil_r.
        rewrite app_assoc. cbn. unfold is_stop at 2. unfold current at 2.
        destruct (r_op r); cbn; rewrite ?app_nil_r; try (apply Permutation_app_tail; exact A7); exact A7.
      * rewrite cnt_app. cbn. unfold is_stop at 2. destruct (r_op r); cbn; lia.
      * destruct (r_op r); intros [X|X]; discriminate.
  - destruct (a_ok a); inj E.
    + split; [|discriminate]. intros _. apply G; auto; try discriminate.
      * unfold current at 1 3. rewrite WS. cbn. rewrite app_nil_r.
        rewrite <- app_assoc. cbn.
        etransitivity; [apply Permutation_app_tail, A7|]. rewrite <- app_assoc.
        apply Permutation_app_head. apply Permutation_app_comm.
      * cbn. lia.
      * rewrite total_app. cbn. lia.
      * intros [X|X]; discriminate.
    + split; [discriminate|]. intros _. right. apply B. discriminate.
  - destruct (copy_chunk c a sp dp todo (w_buf w) (dst s)) as [[[[buf sp'] dst'] dp'] todo'].
    destruct (a_ok a).
    + split; [|discriminate]. intros _. destruct (todo' =? 0); inj E; apply G; auto; try discriminate.
      * unfold current at 1 3. rewrite WS. cbn. rewrite app_nil_r.
        rewrite <- app_assoc. cbn.
        etransitivity; [apply Permutation_app_tail, A7|]. rewrite <- app_assoc.
        apply Permutation_app_head. apply Permutation_app_comm.
      * cbn. lia.
      * rewrite total_app. cbn. lia.
      * intros [X|X]; discriminate.
      * unfold current at 1 3. rewrite WS. cbn. rewrite app_assoc.
        apply Permutation_app_tail. exact A7.
      * cbn. lia.
      * intros [X|X]; discriminate.
    + inj E. split; [discriminate|]. intros _. right. apply B. discriminate.
  - destruct (a_ok a); inj E.
    + split; [|discriminate]. intros _. apply G; auto; try discriminate.
      * unfold current. rewrite WS. cbn. rewrite !app_nil_r. auto.
      * cbn. lia.
    + split; [discriminate|]. intros _. right. apply B. discriminate.
  - inj E. destruct (a_ok a).
    + split; [|discriminate]. intros _. apply G; auto; try discriminate.
      * unfold current. rewrite WS. cbn. rewrite !app_nil_r. auto.
      * cbn. lia.
    + split; [discriminate|]. intros _. right. apply B. discriminate.
Qed.

Lemma main_step_bad k s s' : bad s -> main_step c k s = Some s' -> bad s'.
Proof.
  intros B E. unfold bad in B. unfold main_step in E.
  assert (W : forall m w q' e, workers s = w \/ (exists x, w = workers s ++ [x]) -> e = errors s ->
            has_error s -> has_error (St m w q' e (dst s) (done s) (progress s))).
  { intros m w q' e Hw -> [X|(i & y & X & Y)]; [left; auto|]. right. exists i, y. cbn. split; auto.
    destruct Hw as [<-|(x & ->)]; auto. rewrite nth_error_app1; auto.
    apply nth_error_Some. congruence. }
  destruct (main s) as [[|n]|[|[r|n] l]|[|n]| |[|]|b] eqn:M; try discriminate;
    try (inj E; unfold bad; cbn; auto; apply W; eauto; fail).
  - unfold try_put in E. destruct (q_closed (q s)); [|destruct (_ =? _)%nat];
      inj E; unfold bad; cbn; apply W; auto.
  - unfold try_put in E. destruct (q_closed (q s)); [|destruct (_ =? _)%nat];
      inj E; unfold bad; cbn; apply W; auto.
  - destruct (forallb _ _); [|discriminate]. inj E. unfold bad. cbn. reflexivity.
  - destruct (forallb _ _) eqn:F; [|discriminate]. inj E. unfold bad. cbn.
    destruct B as [X|(i & y & X & Y)].
    + destruct (errors s); [lia|]. reflexivity.
    + rewrite forallb_forall in F. specialize (F y (nth_error_In _ _ X)). rewrite Y in F. discriminate.
Qed.

Lemma worker_step_bad i k a s s' : bad s -> worker_step c i k a s = Some s' -> bad s'.
Proof.
  intros B E. unfold worker_step in E.
  destruct (nth_error (workers s) i) as [w|] eqn:NW; [|discriminate].
  assert (K : forall s2, main s2 = main s -> (has_error s -> has_error s2) -> bad s2).
  { intros s2 M H. unfold bad in *. rewrite M. destruct (main s) as [| | | |[|]|b]; auto. }
  assert (H1 : forall x buf dirty q' dst' done' progress', w_state w <> WError ->
    has_error s ->
    has_error (St (main s) (set_nth i (Wrk x buf dirty) (workers s)) q' (errors s) dst' done' progress')).
  { intros x buf dirty q' dst' done' progress' X [Y|(j & y & Y & Z0)]; [left; auto|].
    right. exists j, y. cbn. rewrite nth_set_nth. destruct (Nat.eqb_spec i j); auto.
    subst j. rewrite Y in NW. injection NW as ->. contradiction. }
  destruct (w_state w) as [| |r|r sp dp todo| | | | | |] eqn:WS; try discriminate;
    try (inj E; apply K; cbn; auto; apply H1; discriminate).
  - destruct (try_get (Worker i) k (q s)) as [q' r]. inj E. apply K; cbn; auto. apply H1. discriminate.
  - destruct (a_ok a); inj E; apply K; cbn; auto; apply H1; discriminate.
  - destruct (copy_chunk c a sp dp todo (w_buf w) (dst s)) as [[[[buf sp'] dst'] dp'] todo'].
    destruct (a_ok a); [destruct (todo' =? 0)|]; inj E; apply K; cbn; auto; apply H1; discriminate.
  - destruct (a_ok a); inj E; apply K; cbn; auto; apply H1; discriminate.
  - inj E. apply K; cbn; auto. intros _. left. cbn. lia.
Qed.

Lemma step_bad l s s' : bad s -> step c l s = Some s' -> bad s'.
Proof.
  intros B E. unfold step in E. destruct l as [k| |i k a].
  - destruct (blocked Main (q s)); [discriminate|]. eapply main_step_bad; eauto.
  - destruct (blocked Main (q s)); [discriminate|]. unfold main_fail in E.
    destruct (main s); try discriminate; inj E; exact I.
  - destruct (blocked (Worker i) (q s)); [discriminate|]. eapply worker_step_bad; eauto.
Qed.

Lemma step_good l s s' : good s -> step c l s = Some s' -> (good s' \/ bad s') /\ (fine l -> good s').
Proof.
  intros G E. unfold step in E. destruct l as [k| |i k a].
  - destruct (blocked Main (q s)); [discriminate|].
    pose proof (main_step_good _ _ _ G E). auto.
  - destruct (blocked Main (q s)); [discriminate|]. unfold main_fail in E.
    split; [|contradiction]. right.
    destruct (main s); try discriminate; inj E; exact I.
  - destruct (blocked (Worker i) (q s)); [discriminate|].
    destruct (worker_step_good _ _ _ _ _ G E) as [G1 G2]. split; [|exact G1].
    destruct (a_ok a); auto.
Qed.

Lemma init_good depth n d : (1 + Z.to_nat (n - 1) = N)%nat -> good (init depth n d).
Proof.
  intros E. constructor; cbn; auto.
Qed.

Lemma exec_good_or_bad tr s s' : good s \/ bad s -> exec c tr s = Some s' -> good s' \/ bad s'.
Proof.
  apply (exec_inv c (fun _ => True) (fun s => good s \/ bad s)).
  - intros l x y _ [G|B] E.
    + apply (step_good l x y G E).
    + right. eapply step_bad; eauto.
  - apply Forall_forall. auto.
Qed.

Lemma exec_bad tr s s' : bad s -> exec c tr s = Some s' -> bad s'.
Proof.
  apply (exec_inv c (fun _ => True) bad).
  - intros l x y _ B E. eapply step_bad; eauto.
  - apply Forall_forall. auto.
Qed.

Lemma exec_fine tr s s' : Forall fine tr -> good s -> exec c tr s = Some s' -> good s'.
Proof.
  apply (exec_inv c fine good). intros l x y F G E. apply (step_good l x y G E). auto.
Qed.

(* Success: every request of the plan was done, once. *)
Lemma success_done s : good s -> main s = MDone true ->
  Permutation all_reqs (done s) /\ progress s = total all_reqs + skips (f_plan c) /\
  Forall (fun w => w_dirty w = false) (workers s) /\
  q_got (q s) = all_reqs ++ repeat STOPR N.
Proof.
  intros [A1 A2 A3 A4 A5 A6 A7 A8 A9 A10] M. rewrite M in *. destruct A6 as [P W].
  unfold started in A5. rewrite M in A5.
  assert (CS : cnt (onw stopped) (workers s) = Z.of_nat N).
  { rewrite cnt_all. unfold zlen. rewrite A5. auto.
    intros x X. rewrite Forall_forall in W. unfold onw. now rewrite (W x X). }
  assert (CP : cnt is_stop (all_reqs ++ repeat STOPR N) = Z.of_nat N).
  { rewrite cnt_app, (cnt_none _ all_reqs) by auto. rewrite cnt_all.
    - unfold zlen. now rewrite repeat_length.
    - intros x X. apply repeat_spec in X. now subst. }
  assert (IT : q_items (q s) = []).
  { destruct (q_items (q s)) as [|x l] using rev_ind; auto. exfalso. clear IHl.
    rewrite A4 in P. rewrite <- P in CP. rewrite !cnt_app in CP.
    assert (is_stop x = true).
    { destruct N as [|n]; [lia|]. replace (S n) with (n + 1)%nat in P by lia.
      rewrite repeat_app in P. cbn in P. rewrite !app_assoc in P.
      apply app_inj_tail in P. destruct P as [_ ->]. reflexivity. }
    cbn in CP. rewrite H in CP. cbn in CP. pose proof (cnt_bounds is_stop l). lia. }
  rewrite IT, app_nil_r in A4. rewrite P in A4.
  assert (CU : flat_map current (workers s) = []).
  { clear - W. induction W as [|w l Hw W IH]; auto. cbn. unfold current at 1. now rewrite Hw. }
  rewrite CU, app_nil_r, <- A4 in A7. unfold nonstop in A7. rewrite filter_app in A7.
  fold (nonstop all_reqs) in A7. rewrite nonstop_reqs in A7 by auto.
  assert (NS : filter (fun r => negb (is_stop r)) (repeat STOPR N) = []).
  { clear. induction N; cbn; auto. }
  rewrite NS, app_nil_r in A7. repeat split; auto.
  - rewrite Z.add_0_r in A9. rewrite A9. f_equal.
    assert (forall l m, Permutation l m -> total l = total m) as PT.
    { induction 1; cbn; lia. }
    symmetry. now apply PT.
  - rewrite Forall_forall in *. intros w I. apply A10; auto.
Qed.

End Sched.
