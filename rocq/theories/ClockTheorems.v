(* The clock: C78. *)
From Coq Require Import ZArith Lia List Bool String.
From Verif Require Import ClockModel ClockSpec ClockProofs.
Import ListNotations.
Open Scope Z_scope.

Section Clock.
Variable now : nat -> Z.

(* C78: for any calls of a new clock, each name independently: a call succeeds
   if and only if it is allowed, the seconds are the sum of the intervals, and
   ops is the number of successful calls of stop. *)
Theorem clock_counts l : let '(rs, c) := exec now l new_clock in
  map (fun e => fst (fst e)) rs = l /\
  (forall rs1 x ok t rs2, rs = rs1 ++ (x, ok, t) :: rs2 -> ok = allowed rs1 x) /\
  (forall n s, lookup n c = Some s ->
    s_started s = running n rs /\ s_ops s = completed n rs /\
    match running n rs with
    | None => s_seconds s = ends n rs - starts n rs
    | Some t => s_seconds s = ends n rs - (starts n rs - t)
    end).
Proof.
  pose proof (exec_knows now l [] new_clock knows_new) as H.
  destruct (exec now l new_clock) as [rs c]. destruct H as (K & M & W). split; auto. split; [exact W|].
  intros n s L. specialize (K n). unfold view in K. rewrite L in K. cbn [app] in K. injection K as -> -> _ ->.
  split; auto. split; auto. destruct (running n rs); lia.
Qed.

(* C78: the clock keeps one entry for each name, and has it as soon as it was
   started. *)
Theorem clock_names l : let '(_, c) := exec now l new_clock in
  NoDup (map s_name (c_stats c)) /\ (forall n, In n (map s_name (c_stats c)) <-> In (CStart n) l).
Proof.
  enough (H : forall c, NoDup (map s_name (c_stats c)) -> let '(_, c') := exec now l c in
    NoDup (map s_name (c_stats c')) /\
    (forall n, In n (map s_name (c_stats c')) <-> In n (map s_name (c_stats c)) \/ In (CStart n) l)).
  { specialize (H new_clock (NoDup_nil _)). destruct (exec now l new_clock) as [rs c]. destruct H as (A & B).
    split; auto. intros n. rewrite (B n). cbn. intuition. }
  assert (SS : forall m b c, map s_name (c_stats (snd (stop_stats now m b c))) = map s_name (c_stats c)).
  { intros m b c. unfold stop_stats. cbn [get_now]. destruct (lookup m _) as [s|]; auto. destruct (s_started s); auto.
    cbn [snd]. rewrite names_change; auto. }
  induction l as [|x l IH]; intros c ND; cbn [exec].
  { split; auto. intros n. cbn. intuition. }
  destruct (exec1 now x c) as [r c1] eqn:E.
  assert (H1 : NoDup (map s_name (c_stats c1)) /\
    forall n, In n (map s_name (c_stats c1)) <-> In n (map s_name (c_stats c)) \/ x = CStart n).
  { destruct x as [m|m|m]; cbn [exec1] in E.
    - unfold start in E. destruct (lookup m c) as [s|] eqn:L.
      + assert (I : In m (map s_name (c_stats c))).
        { rewrite <- (lookup_name _ _ _ L). apply in_map. unfold lookup in L. apply find_some in L. apply L. }
        assert (Q : map s_name (c_stats c1) = map s_name (c_stats c)).
        { rewrite L in E. destruct s as [a b d e [t|]]; cbn [get_now] in E; injection E as _ <-; auto. rewrite names_change; auto. }
        rewrite Q. split; auto. intros n. split; auto. intros [?|X]; auto. injection X as ->. auto.
      + rewrite (lookup_add m m c L), String.eqb_refl in E. cbn [get_now] in E. injection E as _ <-.
        rewrite names_change by auto. cbn [c_stats]. rewrite map_app. cbn [map s_name].
        assert (NI : ~ In m (map s_name (c_stats c))).
        { intros I. apply in_map_iff in I as (s & <- & I). unfold lookup in L. pose proof (find_none _ _ L s I) as F.
          cbn in F. rewrite String.eqb_refl in F. discriminate. }
        split.
        * apply NoDup_app_remove_l with (l := []) in ND || idtac. cbn in ND.
          clear - ND NI. induction (map s_name (c_stats c)) as [|y ys IHy]; cbn; [repeat constructor; auto|].
          inversion ND; subst. constructor.
          -- intros I. apply in_app_or in I as [I|[I|[]]]; [auto|]. subst. apply NI. left. auto.
          -- apply IHy; auto. intros I. apply NI. right. auto.
        * intros n. rewrite in_app_iff. cbn. split; intros [?|H]; auto.
          -- destruct H as [->|[]]. auto.
          -- injection H as ->. auto.
    - assert (Q : map s_name (c_stats c1) = map s_name (c_stats c)).
      { pose proof (stop_view now m c) as V. destruct (stop now m c) as [r1 c2] eqn:S1. injection E as _ <-.
        destruct (snd (view m c)); [|destruct V as (-> & _); auto]. pose proof (SS m true c) as Q. rewrite <- V in Q. auto. }
      rewrite Q. split; auto. intros n. split; auto. intros [?|X]; auto. discriminate.
    - assert (Q : map s_name (c_stats c1) = map s_name (c_stats c)).
      { pose proof (abort_view now m c) as V. destruct (abort now m c) as [r1 c2] eqn:S1. injection E as _ <-.
        destruct (snd (view m c)); [|destruct V as (-> & _); auto]. pose proof (SS m false c) as Q. rewrite <- V in Q. auto. }
      rewrite Q. split; auto. intros n. split; auto. intros [?|X]; auto. discriminate. }
  destruct H1 as (N1 & I1). specialize (IH c1 N1). destruct (exec now l c1) as [rs c']. destruct IH as (N2 & I2).
  split; auto. intros n. rewrite (I2 n), (I1 n). cbn. intuition.
Qed.

(* C78: run() around code that leaves its own entry running: the block's result
   or exception is passed on, the time between is added once, the operation is
   counted only if the block succeeded, the entry is not running any more, and
   no other entry is changed by run(). *)
Theorem run_measures {A} n (body : string -> M A) c (r : A + exc) c2 t0 :
  snd (view n c) = None ->
  (let (x, c1) := start now n c in body n c1) = (r, c2) ->
  snd (view n c2) = Some t0 ->
  let '(r', c') := run now n body c in
  r' = r /\
  view n c' = (fst (fst (fst (view n c2))) + (now (c_tick c2) - t0),
               snd (fst (fst (view n c2))) + (match r with inl _ => 1 | inr _ => 0 end),
               snd (fst (view n c2)), None) /\
  (forall m, m <> n -> view m c' = view m c2).
Proof.
  intros NR B K. pose proof (start_view now n c) as S. unfold run. destruct (start now n c) as [x c1].
  rewrite NR in S. destruct S as (-> & _). rewrite B.
  destruct r as [v|e].
  - pose proof (stop_stats_view now n true c2 t0 K) as V. destruct (stop_stats now n true c2) as [x c3].
    destruct V as (-> & _ & _ & V). split; auto. rewrite (V n), String.eqb_refl. split; auto.
    intros m N. rewrite (V m). destruct (String.eqb_spec n m); congruence.
  - pose proof (stop_stats_view now n false c2 t0 K) as V. destruct (stop_stats now n false c2) as [x c3].
    destruct V as (-> & _ & _ & V). split; auto. rewrite (V n), String.eqb_refl. split; auto.
    intros m N. rewrite (V m). destruct (String.eqb_spec n m); congruence.
Qed.

(* C78: run() of a name that is running raises and does not run the block. *)
Theorem run_not_twice {A} n (body : string -> M A) c t : snd (view n c) = Some t ->
  run now n body c = (inr EAlreadyStarted, c).
Proof.
  intros R. pose proof (start_view now n c) as S. unfold run. destruct (start now n c) as [x c1].
  rewrite R in S. destruct S as (-> & ->). auto.
Qed.

(* C78: a clock with all entries stopped and time measured for all bytes shows
   for each name its operations and seconds, in the order of the first start. *)
Theorem repr_shows c :
  (forall s, In s (c_stats c) -> s_started s = None /\ (s_bytes s <> 0 -> 0 < s_seconds s)) ->
  exists ws, fst (repr now c) = inl ws /\ map w_name ws = map s_name (c_stats c) /\
    map w_ops ws = map s_ops (c_stats c) /\ map w_seconds ws = map s_seconds (c_stats c).
Proof.
  intros H. unfold repr. cbn [get_now fst c_stats]. destruct (show_all (now (c_tick c)) (c_stats c)) as (ws & E & A & B & C).
  { intros s I. destruct (H s I) as (-> & P). destruct (Z.eq_dec (s_bytes s) 0); auto. right. specialize (P n). lia. }
  exists ws. split; auto. split; auto. split; auto. rewrite C. apply map_ext_in. intros s I. destruct (H s I) as (-> & _). auto.
Qed.

End Clock.

(* C78, refuted: a clock can always be shown; bytes in no time raise. *)
Theorem repr_zero_seconds_refuted : exists c,
  c = snd (run (fun _ => 7) "read" (add_bytes 512) new_clock) /\
  fst (repr (fun _ => 7) c) = inr EZeroDivision.
Proof. eexists. split; [reflexivity|]. reflexivity. Qed.

(* C78, refuted: the seconds shown are all seconds measured; a running entry
   shows those of the current run, here 1 of 2, with the operations of all. *)
Theorem repr_running_refuted : exists c,
  c = snd (exec Z.of_nat [CStart "read"; CAbort "x"; CStop "read"; CStart "read"] new_clock) /\
  c_stats c = [Stats "read" 1 1 0 (Some 2)] /\
  exists w, repr Z.of_nat c = (inl [w], Clock (c_stats c) 4) /\ w_ops w = 1 /\ w_seconds w = 1.
Proof. eexists. split; [reflexivity|]. split; [reflexivity|]. eexists. split; [vm_compute; reflexivity|]. auto. Qed.

(* Bytes are added to the entry of this name, and nothing else changes. *)
Theorem bytes_added k n c : (exists s, lookup n c = Some s) ->
  let c' := snd (add_bytes k n c) in
  fst (add_bytes k n c) = inl tt /\ c_tick c' = c_tick c /\
  (forall m, lookup m c' <> None <-> lookup m c <> None) /\
  (let '(sec, ops, bytes, started) := view n c in view n c' = (sec, ops, bytes + k, started)) /\
  forall m, m <> n -> view m c' = view m c.
Proof.
  intros [s L]. unfold add_bytes, view. cbn [fst snd c_tick change]. split; auto. split; auto.
  split; [|split].
  - intros m. rewrite lookup_change by auto. destruct (String.eqb n m); [|tauto].
    destruct (lookup m c); cbn; split; congruence.
  - rewrite lookup_change by auto. rewrite String.eqb_refl, L. reflexivity.
  - intros m N. rewrite lookup_change by auto. destruct (String.eqb_spec n m); [congruence|reflexivity].
Qed.
Example bytes_added_case : exists c, lookup "read" c <> None /\ view "read" (snd (add_bytes 512 "read" c)) = (3, 1, 522, None) /\
  view "write" (snd (add_bytes 512 "read" c)) = (1, 1, 7, None).
Proof. exists (Clock [Stats "read" 3 1 10 None; Stats "write" 1 1 7 None] 5). split; [discriminate|]. split; reflexivity. Qed.
Print Assumptions bytes_added.

(* Two names, one aborted, one started twice. *)
Example clock_case :
  let l := [CStart "total"; CStart "read"; CStart "read"; CStop "read"; CStart "read"; CAbort "read"; CStop "x"; CStop "total"]%string in
  let '(rs, c) := exec (fun k => 10 * Z.of_nat k) l new_clock in
  map (fun e => snd (fst e)) rs = [true; true; false; true; true; true; false; true] /\
  c_stats c = [Stats "total" 50 1 0 None; Stats "read" 20 1 0 None].
Proof. vm_compute. auto. Qed.

Example run_case :
  run (fun k => 10 * Z.of_nat k) "read" (add_bytes 512) new_clock =
    (inl tt, Clock [Stats "read" 10 1 512 None] 2) /\
  run (fun k => 10 * Z.of_nat k) "read" (fun _ c => (inr EBody : unit + exc, c)) new_clock =
    (inr EBody, Clock [Stats "read" 10 0 0 None] 2).
Proof. vm_compute. auto. Qed.

Print Assumptions clock_counts.
Print Assumptions clock_names.
Print Assumptions run_measures.
Print Assumptions run_not_twice.
Print Assumptions repr_shows.
Print Assumptions repr_zero_seconds_refuted.
Print Assumptions repr_running_refuted.
