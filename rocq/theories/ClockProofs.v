(* Lemmas about the clock. *)
From Coq Require Import ZArith Lia List Bool String.
From Verif Require Import ClockModel ClockSpec.
Import ListNotations.
Open Scope Z_scope.

Section Clock.
Variable now : nat -> Z.

Lemma lookup_tick n c k : lookup n (Clock (c_stats c) k) = lookup n c.
Proof. reflexivity. Qed.

Lemma lookup_name n c s : lookup n c = Some s -> s_name s = n.
Proof. unfold lookup. intros H. apply find_some in H as (_ & H). apply String.eqb_eq in H. auto. Qed.

Lemma lookup_change n m f c : (forall s, s_name (f s) = s_name s) ->
  lookup n (change m f c) = if String.eqb m n then option_map f (lookup n c) else lookup n c.
Proof.
  intros F. unfold lookup, change. cbn [c_stats]. induction (c_stats c) as [|s l IH]; cbn; [destruct (String.eqb m n); auto|].
  destruct (String.eqb (s_name s) m) eqn:E.
  - apply String.eqb_eq in E. rewrite F, E. destruct (String.eqb m n) eqn:K; auto.
  - destruct (String.eqb (s_name s) n) eqn:K; auto.
    apply String.eqb_eq in K. subst n. rewrite String.eqb_sym, E. auto.
Qed.

Lemma names_change m f c : (forall s, s_name (f s) = s_name s) ->
  map s_name (c_stats (change m f c)) = map s_name (c_stats c).
Proof. intros F. unfold change. cbn. rewrite map_map. apply map_ext. intros s. destruct (String.eqb _ _); auto. Qed.

Lemma lookup_add n m c : lookup m c = None ->
  lookup n (Clock (c_stats c ++ [Stats m 0 0 0 None]) (c_tick c)) =
  if String.eqb m n then Some (Stats m 0 0 0 None) else lookup n c.
Proof.
  intros H. unfold lookup in *. cbn [c_stats].
  induction (c_stats c) as [|s l IH]; cbn in *; [destruct (String.eqb m n); auto|].
  destruct (String.eqb (s_name s) m) eqn:E; [discriminate|].
  destruct (String.eqb (s_name s) n) eqn:K; auto.
  apply String.eqb_eq in K. subst n. rewrite String.eqb_sym, E. auto.
Qed.

Lemma start_view m c : let '(r, c') := start now m c in
  match snd (view m c) with
  | Some _ => r = inr EAlreadyStarted /\ c' = c
  | None => r = inl m /\ lookup m c' <> None /\ c_tick c' = S (c_tick c) /\
      forall n, view n c' = if String.eqb m n then (fst (view m c), Some (now (c_tick c))) else view n c
  end.
Proof.
  unfold start. destruct (lookup m c) as [s|] eqn:L.
  - rewrite L. destruct s as [nm se op by_ st]. unfold view at 1. rewrite L. cbn [s_started snd].
    destruct st as [t|]; auto. split; auto. cbn [get_now]. pose proof (lookup_name _ _ _ L) as NM. cbn in NM. subst nm.
    unfold view. rewrite !lookup_change by auto. rewrite String.eqb_refl, lookup_tick, L.
    split; [discriminate|]. split; auto. intros n. rewrite lookup_change by auto. rewrite lookup_tick.
    destruct (String.eqb_spec m n) as [->|N]; auto. rewrite L. auto.
  - unfold view at 1. rewrite L. cbn [snd]. rewrite (lookup_add m m c L), String.eqb_refl. split; auto. cbn [get_now c_tick].
    unfold view. rewrite L.
    assert (X : forall n, lookup n (Clock (c_stats c ++ [Stats m 0 0 0 None]) (S (c_tick c))) =
      if String.eqb m n then Some (Stats m 0 0 0 None) else lookup n c) by (intros n; apply (lookup_add n m c L)).
    cbn [c_stats]. rewrite !lookup_change by auto. rewrite String.eqb_refl, X, String.eqb_refl.
    split; [discriminate|]. split; auto. intros n. rewrite lookup_change by auto. rewrite X.
    destruct (String.eqb m n); auto.
Qed.

Lemma stop_stats_view m b c t : snd (view m c) = Some t ->
  let '(r, c') := stop_stats now m b c in
  r = inl (now (c_tick c) - t) /\ c_tick c' = S (c_tick c) /\
  map s_name (c_stats c') = map s_name (c_stats c) /\
  forall n, view n c' = if String.eqb m n then
      (fst (fst (fst (view m c))) + (now (c_tick c) - t), snd (fst (fst (view m c))) + (if b then 1 else 0), snd (fst (view m c)), None)
    else view n c.
Proof.
  unfold view at 1. destruct (lookup m c) as [s|] eqn:L; [|discriminate]. cbn [snd]. intros ST.
  unfold stop_stats. cbn [get_now]. rewrite lookup_tick, L, ST.
  split; auto. split; auto. split.
  { rewrite names_change by auto. auto. }
  intros n. unfold view. rewrite lookup_change by auto. rewrite lookup_tick.
  destruct (String.eqb_spec m n) as [->|N]; auto. rewrite L. cbn. destruct b; rewrite ?Z.add_0_r; auto.
Qed.

Lemma stop_view m c : let '(r, c') := stop now m c in
  match snd (view m c) with
  | None => c' = c /\ (r = inr ENoSuchStats \/ r = inr ENotStarted)
  | Some t => (r, c') = stop_stats now m true c
  end.
Proof.
  unfold stop, lookup_started, view. destruct (lookup m c) as [s|]; cbn [snd]; auto.
  destruct (s_started s) as [t|]; [destruct (stop_stats now m true c); auto|auto].
Qed.

Lemma abort_view m c : let '(r, c') := abort now m c in
  match snd (view m c) with
  | None => c' = c /\ (r = inr ENoSuchStats \/ r = inr ENotStarted)
  | Some t => (r, c') = stop_stats now m false c
  end.
Proof.
  unfold abort, lookup_started, view. destruct (lookup m c) as [s|]; cbn [snd]; auto.
  destruct (s_started s) as [t|]; [destruct (stop_stats now m false c); auto|auto].
Qed.

(* ---- the spec ---- *)

Lemma done_of_snoc n l x ok t : done_of n (l ++ [(x, ok, t)]) =
  if ok && String.eqb (name_of x) n then done_of n l ++ [(x, ok, t)] else done_of n l.
Proof. unfold done_of. rewrite filter_app. cbn. destruct (ok && _); auto. apply app_nil_r. Qed.

Lemma sum_app a b : sum (a ++ b) = sum a + sum b.
Proof. unfold sum. induction a as [|x a IH]; cbn; [lia|]. rewrite IH. lia. Qed.

(* The clock after some events. *)
Definition knows (l : list event) (c : clock) : Prop := forall n,
  view n c = (ends n l - starts n l + (match running n l with Some t => t | None => 0 end),
              completed n l, 0, running n l).

Lemma knows_fail l c x t : knows l c -> knows (l ++ [(x, false, t)]) c.
Proof.
  intros K n. rewrite (K n). unfold ends, starts, completed, running.
  rewrite done_of_snoc. cbn [andb]. reflexivity.
Qed.

Lemma knows_other n l x ok t : name_of x <> n ->
  done_of n (l ++ [(x, ok, t)]) = done_of n l.
Proof.
  intros N. rewrite done_of_snoc. destruct (String.eqb_spec (name_of x) n); [contradiction|].
  rewrite andb_false_r. auto.
Qed.

Lemma quad_eq (a a' b b' : Z) (d : option Z) : a = a' -> b = b' -> (a, b, 0, d) = (a', b', 0, d).
Proof. intros -> ->. auto. Qed.

Lemma exec1_knows l c x : knows l c ->
  let '(r, c') := exec1 now x c in
  r = allowed l x /\ knows (l ++ [(x, r, now (c_tick c))]) c'.
Proof.
  intros K. pose proof (K (name_of x)) as KN. unfold allowed. destruct x as [m|m|m]; cbn [exec1 name_of is_start negb] in *.
  - pose proof (start_view m c) as S. destruct (start now m c) as [r c']. rewrite KN in S. cbn [snd fst] in S.
    destruct (running m l) as [t|] eqn:R.
    + destruct S as (-> & ->). split; auto. apply knows_fail; auto.
    + destruct S as (-> & _ & _ & S). split; auto. intros n. rewrite S. destruct (String.eqb_spec m n) as [<-|N].
      * unfold ends, starts, completed, running in *. rewrite done_of_snoc. cbn [andb name_of]. rewrite String.eqb_refl.
        rewrite !filter_app, !map_app, !sum_app, rev_app_distr. cbn. rewrite app_nil_r.
        unfold event in *. apply quad_eq; lia.
      * rewrite (K n). unfold ends, starts, completed, running. rewrite knows_other; auto.
  - pose proof (stop_view m c) as S. destruct (stop now m c) as [r c']. rewrite KN in S. cbn [snd fst] in S.
    destruct (running m l) as [t|] eqn:R.
    + pose proof (stop_stats_view m true c t) as V. rewrite KN in V. specialize (V eq_refl).
      rewrite <- S in V. destruct V as (-> & _ & _ & V). split; auto. intros n. rewrite V. cbn [fst snd].
      destruct (String.eqb_spec m n) as [<-|N].
      * unfold ends, starts, completed, running in *. rewrite done_of_snoc. cbn [andb name_of]. rewrite String.eqb_refl.
        rewrite !filter_app, !map_app, !sum_app, rev_app_distr. cbn. rewrite app_length. cbn.
        unfold event in *. apply quad_eq; lia.
      * rewrite (K n). unfold ends, starts, completed, running. rewrite knows_other; auto.
    + destruct S as (-> & [-> | ->]); split; auto; apply knows_fail; auto.
  - pose proof (abort_view m c) as S. destruct (abort now m c) as [r c']. rewrite KN in S. cbn [snd fst] in S.
    destruct (running m l) as [t|] eqn:R.
    + pose proof (stop_stats_view m false c t) as V. rewrite KN in V. specialize (V eq_refl).
      rewrite <- S in V. destruct V as (-> & _ & _ & V). split; auto. intros n. rewrite V. cbn [fst snd].
      destruct (String.eqb_spec m n) as [<-|N].
      * unfold ends, starts, completed, running in *. rewrite done_of_snoc. cbn [andb name_of]. rewrite String.eqb_refl.
        rewrite !filter_app, !map_app, !sum_app, rev_app_distr. cbn. rewrite app_nil_r.
        unfold event in *. apply quad_eq; lia.
      * rewrite (K n). unfold ends, starts, completed, running. rewrite knows_other; auto.
    + destruct S as (-> & [-> | ->]); split; auto; apply knows_fail; auto.
Qed.

Lemma exec_knows l : forall rs0 c, knows rs0 c ->
  let '(rs, c') := exec now l c in
  knows (rs0 ++ rs) c' /\ map (fun e => fst (fst e)) rs = l /\
  (forall rs1 x ok t rs2, rs = rs1 ++ (x, ok, t) :: rs2 -> ok = allowed (rs0 ++ rs1) x).
Proof.
  induction l as [|x l IH]; intros rs0 c K; cbn [exec].
  { rewrite app_nil_r. split; auto. split; auto. intros [|] ? ? ? ? E; discriminate. }
  pose proof (exec1_knows rs0 c x K) as H. destruct (exec1 now x c) as [r c1]. destruct H as (A & K1).
  specialize (IH _ _ K1). destruct (exec now l c1) as [rs c']. destruct IH as (K2 & M & W).
  rewrite <- app_assoc in K2. split; auto. split; [cbn; congruence|].
  intros rs1 y ok t rs2 E. destruct rs1 as [|e rs1]; cbn in E; injection E as <- E2.
  - subst. rewrite app_nil_r. auto.
  - specialize (W rs1 y ok t rs2 E2). rewrite <- app_assoc in W. auto.
Qed.

Lemma knows_new : knows [] new_clock.
Proof. intros n. reflexivity. Qed.

Lemma show_all t l : (forall s, In s l -> s_bytes s = 0 \/ (match s_started s with Some t0 => t - t0 | None => s_seconds s end) <> 0) ->
  exists ws, show t l = inl ws /\ map w_name ws = map s_name l /\ map w_ops ws = map s_ops l /\
    map w_seconds ws = map (fun s => match s_started s with Some t0 => t - t0 | None => s_seconds s end) l.
Proof.
  induction l as [|s l IH]; intros H; cbn [show]; [exists []; auto|].
  destruct (IH (fun x I => H x (or_intror I))) as (ws & -> & A & B & C).
  unfold show1. destruct (Z.eqb_spec (s_bytes s) 0) as [E|E].
  - eexists. split; [reflexivity|]. cbn. rewrite A, B, C. auto.
  - destruct (H s (or_introl eq_refl)) as [X|X]; [contradiction|].
    replace (_ =? 0) with false by (symmetry; apply Z.eqb_neq; auto).
    eexists. split; [reflexivity|]. cbn. rewrite A, B, C. auto.
Qed.

End Clock.
