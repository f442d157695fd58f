(* Lemmas about the progress bar. *)
From Coq Require Import ZArith QArith Lqa Lia List Bool String.
From Verif Require Import FloatLib ProgressModel ProgressSpec.
Import ListNotations.
Open Scope Z_scope.

(* ---- percents ---- *)

Lemma percent_mono d d' s : 0 <= d <= d' -> 0 < s -> percent d s <= percent d' s.
Proof.
  intros D S. unfold percent, truediv. apply fint_le. eapply Qle_trans; [apply fint_le; apply Z.le_refl|].
  apply fmul_mono; try (apply fl_nonneg; auto); try lia. apply fl_mono; try lia.
  assert (0 < / inject_Z s)%Q by (apply Qinv_lt_0_compat; change 0%Q with (inject_Z 0); rewrite <- Zlt_Qlt; auto).
  assert (inject_Z d <= inject_Z d')%Q by (rewrite <- Zle_Qle; lia). unfold Qdiv. nra.
Qed.

Lemma percent_nonneg d s : 0 < s -> 0 <= percent d s.
Proof.
  intros S. unfold percent, truediv. apply fint_le.
  destruct (fmul_eq (fl d s) 100 (fl_nonneg _ _ S) ltac:(lia)) as (a & b & A & B & -> & _).
  pose proof (fl_nonneg a b B). unfold fval. pose proof (pow2_pos (snd (fl a b))).
  rewrite Zle_Qle in H. change (inject_Z 0) with 0%Q in *. nra.
Qed.

Lemma Qdiv_nonneg d s : 0 <= d -> 0 < s -> (0 <= inject_Z d / inject_Z s)%Q.
Proof. intros D S. apply (Qdiv_Z_le d s 0 S). lia. Qed.

Lemma pow2_53 : (pow2 (-53) == 1 # 9007199254740992)%Q.
Proof. reflexivity. Qed.

(* both roundings *)
Lemma percent_value d s : 0 <= d <= s -> 0 < s ->
  let x := (inject_Z d / inject_Z s)%Q in let v := fval (fmul (truediv d s) 100) in
  (100 * x - (1 # 35184372088832) < v /\ v < 100 * x + (1 # 35184372088832))%Q.
Proof.
  intros D S. cbn zeta. unfold truediv.
  pose proof (fl_error d s ltac:(lia) S) as (E1 & E2). cbn zeta in *.
  destruct (fmul_eq (fl d s) 100 (fl_nonneg _ _ S) ltac:(lia)) as (a & b & A & B & -> & V).
  pose proof (fl_error a b A B) as (F1 & F2). cbn zeta in *. rewrite V in *.
  pose proof (Qdiv_nonneg d s ltac:(lia) S) as X0.
  assert (X1 : (inject_Z d / inject_Z s <= 1)%Q) by (apply (Qdiv_Z_le2 d s 1 S); lia).
  rewrite pow2_53 in *. remember (inject_Z d / inject_Z s)%Q as x. remember (fval (fl d s)) as y.
  remember (fval (fl a b)) as v. change (inject_Z 100) with 100%Q in *. clear - E1 E2 F1 F2 X0 X1. split; lra.
Qed.

Lemma percent_close d s : 0 <= d <= s -> 0 < s ->
  100 * d / s - 1 <= percent d s <= 100 * d / s + 1.
Proof.
  intros D S. pose proof (percent_value d s D S) as (V1 & V2). cbn zeta in *. unfold percent.
  assert (X : (inject_Z (100 * d / s) <= 100 * (inject_Z d / inject_Z s))%Q).
  { assert (E : (100 * (inject_Z d / inject_Z s) == inject_Z (100 * d) / inject_Z s)%Q)
      by (rewrite inject_Z_mult; unfold Qdiv; change (inject_Z 100) with 100%Q; ring).
    rewrite E. apply Qdiv_Z_le; auto. pose proof (Z.mul_div_le (100 * d) s S). lia. }
  assert (Y : (100 * (inject_Z d / inject_Z s) < inject_Z (100 * d / s + 1))%Q).
  { assert (E : (100 * (inject_Z d / inject_Z s) == inject_Z (100 * d) / inject_Z s)%Q)
      by (rewrite inject_Z_mult; unfold Qdiv; change (inject_Z 100) with 100%Q; ring).
    rewrite E. apply Qdiv_Z_lt; auto. pose proof (Z.mul_succ_div_gt (100 * d) s S). lia. }
  split.
  - apply fint_le. unfold Z.sub. rewrite inject_Z_plus. change (inject_Z (- (1))) with (-1)%Q. lra.
  - apply Z.lt_succ_r. apply fint_lt. unfold Z.succ. rewrite !inject_Z_plus in *. change (inject_Z 1) with 1%Q in *. lra.
Qed.

Lemma percent_tight d s : 0 <= d <= s -> 0 < s <= 2 ^ 45 ->
  let p := percent d s in p * s <= 100 * d <= (p + 1) * s.
Proof.
  intros D S. cbn zeta. pose proof (percent_value d s D ltac:(lia)) as (V1 & V2). cbn zeta in *. unfold percent.
  remember (fint (fmul (truediv d s) 100)) as p.
  assert (P1 : (inject_Z p <= fval (fmul (truediv d s) 100))%Q) by (apply fint_le; lia).
  assert (P2 : (fval (fmul (truediv d s) 100) < inject_Z (p + 1))%Q) by (apply fint_lt; lia).
  remember (fval (fmul (truediv d s) 100)) as v. clear Heqv Heqp.
  assert (SP : (0 < inject_Z s)%Q) by (change 0%Q with (inject_Z 0); rewrite <- Zlt_Qlt; lia).
  assert (SQ : (inject_Z s * (1 # 35184372088832) <= 1)%Q).
  { assert (inject_Z s <= inject_Z (2 ^ 45))%Q by (rewrite <- Zle_Qle; lia).
    change (inject_Z (2 ^ 45)) with (35184372088832)%Q in *. lra. }
  assert (E : (100 * (inject_Z d / inject_Z s) * inject_Z s == inject_Z (100 * d))%Q)
    by (rewrite inject_Z_mult; change (inject_Z 100) with 100%Q; field; lra).
  remember (100 * (inject_Z d / inject_Z s))%Q as x. clear Heqx.
  remember (1 # 35184372088832)%Q as u. clear Hequ. remember (inject_Z s) as t eqn:T.
  split.
  - assert (L : (inject_Z (p * s) < inject_Z (100 * d + 1))%Q).
    { rewrite inject_Z_mult, inject_Z_plus, <- E, <- T. change (inject_Z 1) with 1%Q. nra. }
    rewrite <- Zlt_Qlt in L. lia.
  - assert (L : (inject_Z (100 * d) < inject_Z ((p + 1) * s + 1))%Q).
    { rewrite inject_Z_plus, (inject_Z_mult (p + 1) s), <- E, <- T. change (inject_Z 1) with 1%Q. nra. }
    rewrite <- Zlt_Qlt in L. lia.
Qed.

Lemma percent_full d s : 0 < s <= d -> 100 <= percent d s.
Proof.
  intros S. unfold percent, truediv. apply fint_le.
  assert (F : (1 <= fval (fl d s))%Q).
  { pose proof (fl_ge d s 1 0 ltac:(lia) ltac:(lia) ltac:(lia)) as G. change (inject_Z 1 * pow2 0)%Q with 1%Q in G.
    apply G. apply (Qdiv_Z_le d s 1); lia. }
  destruct (fmul_eq (fl d s) 100 (fl_nonneg d s ltac:(lia)) ltac:(lia)) as (a & b & A & B & -> & V).
  pose proof (fl_ge a b 100 0 A B ltac:(lia)) as G. change (inject_Z 100 * pow2 0)%Q with 100%Q in G.
  apply G. rewrite V. change (inject_Z 100) with 100%Q. lra.
Qed.

Lemma percent_at_most d s : 0 <= d <= s -> 0 < s -> percent d s <= 100.
Proof.
  intros D S. apply Z.lt_succ_r. unfold percent, truediv. apply fint_lt.
  assert (F : (fval (fl d s) <= 1)%Q).
  { pose proof (fl_le d s 1 0 ltac:(lia) ltac:(lia) ltac:(lia)) as G. change (inject_Z 1 * pow2 0)%Q with 1%Q in G.
    apply G. apply (Qdiv_Z_le2 d s 1); lia. }
  destruct (fmul_eq (fl d s) 100 (fl_nonneg d s ltac:(lia)) ltac:(lia)) as (a & b & A & B & -> & V).
  pose proof (fl_le a b 100 0 A B ltac:(lia)) as G. change (inject_Z 100 * pow2 0)%Q with 100%Q in G.
  change (inject_Z (Z.succ 100)) with 101%Q. eapply Qle_lt_trans; [apply G|reflexivity].
  rewrite V. change (inject_Z 100) with 100%Q. lra.
Qed.

Lemma percent_not_early d s : 0 <= d < s -> s <= 2 ^ 53 -> percent d s <= 99.
Proof.
  intros D S. apply Z.lt_succ_r. unfold percent, truediv. apply fint_lt.
  assert (F : (fval (fl d s) <= inject_Z (2 ^ 53 - 1) * pow2 (-53))%Q).
  { apply fl_le; try lia.
    assert (E : (inject_Z (2 ^ 53 - 1) * pow2 (-53) == inject_Z (2 ^ 53 - 1) / inject_Z (2 ^ 53))%Q) by reflexivity.
    rewrite E. apply Qle_shift_div_r; [change 0%Q with (inject_Z 0); rewrite <- Zlt_Qlt; lia|].
    assert (E2 : (inject_Z (2 ^ 53 - 1) / inject_Z (2 ^ 53) * inject_Z s == inject_Z ((2 ^ 53 - 1) * s) / inject_Z (2 ^ 53))%Q)
      by (rewrite inject_Z_mult; unfold Qdiv; ring).
    rewrite E2. apply Qdiv_Z_le; lia. }
  destruct (fmul_eq (fl d s) 100 (fl_nonneg d s ltac:(lia)) ltac:(lia)) as (a & b & A & B & -> & V).
  change (inject_Z (Z.succ 99)) with 100%Q.
  assert (G : (fval (fl a b) <= inject_Z (100 * 2 ^ 46 - 1) * pow2 (-46))%Q).
  { apply fl_below; auto; try lia. rewrite V. change (inject_Z 100) with 100%Q.
    remember (fval (fl d s)) as y. clear - F.
    change (inject_Z (2 ^ 53 - 1) * pow2 (-53))%Q with (9007199254740991 # 9007199254740992)%Q in F.
    change (pow2 (-46)) with (1 # 70368744177664)%Q.
    change (inject_Z (100 * 2 ^ 46 - 1)) with (7036874417766399)%Q. lra. }
  eapply Qle_lt_trans; [apply G|reflexivity].
Qed.

(* ---- humansize ---- *)

Lemma hundredths_value f p q : 0 < q -> (fval f == inject_Z p / inject_Z q)%Q ->
  hundredths f = rne (100 * p) q.
Proof.
  intros Q0 V. destruct f as [m e]. unfold hundredths, fval in *. cbn [fst snd] in V.
  pose proof (scale_val1 (m * 100) e) as W. destruct (scale (m * 100) 1 (- e)) as [a b]. destruct W as (B & _ & W).
  assert (E : a * q = 100 * p * b).
  { assert (X : (inject_Z (a * q) == inject_Z (100 * p * b))%Q); [|rewrite inject_Z_injective in X; auto].
    assert (inject_Z b > 0)%Q by (change 0%Q with (inject_Z 0); rewrite <- Zlt_Qlt; auto).
    assert (inject_Z q > 0)%Q by (change 0%Q with (inject_Z 0); rewrite <- Zlt_Qlt; auto).
    rewrite !inject_Z_mult in *. assert (W' : (inject_Z a / inject_Z b == 100 * (inject_Z p / inject_Z q))%Q)
      by (rewrite W, <- V; change (inject_Z 100) with 100%Q; ring).
    assert (inject_Z a == inject_Z a / inject_Z b * inject_Z b)%Q by (field; lra).
    rewrite H1, W'. change (inject_Z 100) with 100%Q. field. lra. }
  rewrite <- (rne_scale a b q), <- (rne_scale (100 * p) q b) by lia. rewrite E, (Z.mul_comm b q). reflexivity.
Qed.

Lemma fint_value f p q : 0 < q -> (fval f == inject_Z p / inject_Z q)%Q -> fint f = p / q.
Proof.
  intros Q0 V. assert (forall c, c <= fint f <-> c <= p / q) as H.
  { intros c. rewrite fint_le, V, Qdiv_Z_le by auto. split; intros H.
    - apply Z.div_le_lower_bound; lia.
    - pose proof (Z.mul_div_le p q Q0). nia. }
  pose proof (proj1 (H (fint f)) ltac:(lia)). pose proof (proj2 (H (p / q)) ltac:(lia)). lia.
Qed.

Lemma truediv_exact n : 0 <= n <= 2 ^ 53 -> (fval (truediv n 1024) == inject_Z n / inject_Z 1024)%Q.
Proof.
  intros N. unfold truediv.
  assert (E : (inject_Z n / inject_Z 1024 == inject_Z n * pow2 (-10))%Q) by reflexivity.
  apply Qle_antisym.
  - rewrite E. apply fl_le; try lia. rewrite E. apply Qle_refl.
  - rewrite E. apply fl_ge; try lia. rewrite E. apply Qle_refl.
Qed.

Lemma human_loop_spec fuel : forall u f n, 0 < u ->
  (fval f == inject_Z n / inject_Z (1024 ^ u))%Q -> 1024 ^ u <= n < 1024 ^ (u + Z.of_nat fuel) ->
  exists k, 1024 ^ k <= n < 1024 ^ (k + 1) /\ human_loop fuel u f = Shown (rne (100 * n) (1024 ^ k)) k.
Proof.
  induction fuel as [|fuel IH]; intros u f n U V N.
  - rewrite Z.add_0_r in N. lia.
  - assert (P : 0 < 1024 ^ u) by (apply Z.pow_pos_nonneg; lia).
    assert (P1 : 1024 ^ (u + 1) = 1024 * 1024 ^ u) by (rewrite Z.pow_add_r by lia; lia).
    cbn [human_loop]. rewrite (fint_value f n (1024 ^ u) P V).
    destruct (Z.ltb_spec (n / 1024 ^ u) 1024) as [L|L].
    + exists u. rewrite (hundredths_value f n (1024 ^ u) P V). split; auto.
      pose proof (Z.mul_succ_div_gt n (1024 ^ u) P). nia.
    + destruct f as [m e]. apply IH; [lia| |].
      * unfold fval in *. cbn [fst snd] in *.
        assert (E : (inject_Z m * pow2 (e - 10) == inject_Z m * pow2 e * (1 # 1024))%Q).
        { unfold Z.sub. rewrite pow2_add. change (pow2 (- (10))) with (1 # 1024)%Q. ring. }
        rewrite E, V, P1, inject_Z_mult. change (inject_Z 1024) with 1024%Q.
        field. intros K. assert (0 < inject_Z (1024 ^ u))%Q by (change 0%Q with (inject_Z 0); rewrite <- Zlt_Qlt; auto). lra.
      * split; [|replace (u + 1 + Z.of_nat fuel) with (u + Z.of_nat (S fuel)) by lia; lia].
        rewrite P1. pose proof (Z.mul_div_le n (1024 ^ u) P). nia.
Qed.

Lemma humansize_spec n : 1024 <= n <= 2 ^ 53 ->
  exists k, 1024 ^ k <= n < 1024 ^ (k + 1) /\ humansize n = Shown (rne (100 * n) (1024 ^ k)) k.
Proof.
  intros N. unfold humansize. replace (n <? 1024) with false by lia.
  apply human_loop_spec; [lia| |].
  - change (1024 ^ 1) with 1024. apply truediv_exact. lia.
  - change (1024 ^ 1) with 1024. change (1024 ^ (1 + Z.of_nat 5)) with 1152921504606846976. lia.
Qed.

(* ---- the bar ---- *)

Section Bar.
Variable now : nat -> Z.

Lemma opt_eqb_spec {A} (eqb : A -> A -> bool) : (forall a b, eqb a b = true <-> a = b) ->
  forall x y, opt_eqb eqb x y = true <-> x = y.
Proof.
  intros H [x|] [y|]; cbn; split; intros E; try discriminate; auto.
  - apply H in E. congruence.
  - apply H. congruence.
Qed.

Lemma exec_snoc l x b : exec now (l ++ [x]) b = exec1 now (exec now l b) x.
Proof. unfold exec. rewrite fold_left_app. reflexivity. Qed.

Lemma exec_app l l2 b : exec now (l ++ l2) b = exec now l2 (exec now l b).
Proof. unfold exec. apply fold_left_app. Qed.

Lemma closes_app l l2 : closes (l ++ l2) = closes l || closes l2.
Proof. apply existsb_app. Qed.

Lemma open_part_app l l2 : open_part (l ++ l2) = if closes l then open_part l else open_part l ++ open_part l2.
Proof.
  induction l as [|x l IH]; cbn; auto. destruct x; cbn; auto; rewrite IH; unfold closes;
    destruct (existsb _ l); auto.
Qed.

Lemma moved_app l l2 : moved (l ++ l2) = moved l + moved l2.
Proof. induction l as [|[] l IH]; cbn; lia. Qed.
Lemma phase_after_app l : forall p l2, phase_after p (l ++ l2) = phase_after (phase_after p l) l2.
Proof. induction l as [|[] l IH]; cbn; auto. Qed.
Lemma size_after_app l : forall p l2, size_after p (l ++ l2) = size_after (size_after p l) l2.
Proof. induction l as [|[] l IH]; cbn; auto. Qed.

(* a line shows the state of the bar *)
Definition of_bar (b : bar) (t : nat) (last : bool) : line :=
  Line (now t - now O) (p_value b) (p_done b) (p_size b) (p_phase b) last.

(* one call *)
Lemma exec1_lines b x :
  let b' := exec1 now b x in
  (p_lines b' = p_lines b /\ p_tick b' = p_tick b \/
   p_closed b = false /\ p_tick b' = S (p_tick b) /\
   p_lines b' = p_lines b ++ [of_bar b' (p_tick b) (match x with OClose => true | _ => false end)]).
Proof.
  destruct b as [ph sz dn v c t ls]. destruct x as [s|n|n|]; unfold exec1, set_phase, set_size, update, close; cbn;
    destruct c; cbn; auto.
  - destruct (opt_eqb String.eqb ph s); cbn; auto.
  - destruct (opt_eqb Z.eqb sz n); cbn; auto.
  - destruct sz as [sz|]; cbn; auto. destruct (0 <? sz); cbn; auto. destruct (v <? percent (dn + n) sz); cbn; auto.
Qed.

Lemma exec1_closed b x : p_closed b = true -> exec1 now b x = b.
Proof. intros H. destruct x; unfold exec1, set_phase, set_size, update, close; rewrite H; auto. Qed.

Lemma exec1_open b x : p_closed b = false -> let b' := exec1 now b x in
  p_closed b' = (match x with OClose => true | _ => false end) /\
  p_done b' = p_done b + moved [x] /\ p_phase b' = phase_after (p_phase b) [x] /\
  p_size b' = size_after (p_size b) [x] /\ p_value b <= p_value b'.
Proof.
  destruct b as [ph sz dn v c t ls]. cbn [p_closed]. intros ->.
  destruct x as [s|n|n|]; unfold exec1, set_phase, set_size, update, close; cbn.
  - destruct (opt_eqb String.eqb ph s) eqn:E; cbn; repeat split; auto; try lia.
    apply (opt_eqb_spec String.eqb String.eqb_eq) in E. auto.
  - destruct (opt_eqb Z.eqb sz n) eqn:E; cbn; repeat split; auto; try lia.
    apply (opt_eqb_spec Z.eqb Z.eqb_eq) in E. auto.
  - destruct sz as [sz|]; cbn; [|repeat split; auto; lia].
    destruct (0 <? sz); cbn; [|repeat split; auto; lia].
    destruct (Z.ltb_spec v (percent (dn + n) sz)); cbn; repeat split; auto; lia.
  - repeat split; auto; lia.
Qed.

Lemma exec_state p n l : let b := exec now l (new now p n) in
  p_closed b = closes l /\ p_done b = moved (open_part l) /\
  p_phase b = phase_after p (open_part l) /\ p_size b = size_after n (open_part l).
Proof.
  induction l as [|x l IH] using rev_ind; cbn zeta in *; [cbn; auto|].
  rewrite exec_snoc, closes_app, open_part_app. destruct IH as (C & D & P & S).
  remember (exec now l (new now p n)) as b. destruct (closes l) eqn:K.
  - rewrite exec1_closed by auto. cbn [orb]. auto.
  - destruct (exec1_open b x C) as (C' & D' & P' & S' & _). rewrite C', D', P', S', D, P, S.
    destruct x; cbn [closes existsb orb open_part]; rewrite ?app_nil_r, ?moved_app, ?phase_after_app, ?size_after_app;
      cbn [moved phase_after size_after]; repeat split; auto; lia.
Qed.

Lemma tick_pos p n l : (1 <= p_tick (exec now l (new now p n)))%nat.
Proof.
  induction l as [|x l IH] using rev_ind; [cbn; lia|]. rewrite exec_snoc.
  destruct (exec1_lines (exec now l (new now p n)) x) as [(_ & ->)|(_ & -> & _)]; lia.
Qed.

Lemma closed_exec l b : p_closed b = true -> exec now l b = b.
Proof.
  revert b. induction l as [|x l IH]; intros b C; [reflexivity|]. unfold exec in *. cbn [fold_left].
  rewrite exec1_closed by auto. apply IH. auto.
Qed.

End Bar.
