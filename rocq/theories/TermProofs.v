(* Proofs about the progress shown on a terminal. *)
From Coq Require Import ZArith QArith Qpower Lqa Lia List Bool String.
From Verif Require Import FloatLib ProgressModel ProgressProofs TermModel TermSpec.
From Verif Require JsonModel JsonSpec JsonProofs.
Import ListNotations.
Open Scope Z_scope.

(* ---- the terminal ---- *)

Definition visible (s : text) : Prop := Forall (fun c => 32 <= c) s.

Lemma write_visible cols s : forall t, visible s -> (t_col t + List.length s <= cols)%nat ->
  t_row (write cols t s) = t_row t /\ t_col (write cols t s) = (t_col t + List.length s)%nat /\
  forall i j, t_cell (write cols t s) i j =
    if ((i =? t_row t) && (t_col t <=? j) && (j <? t_col t + List.length s))%nat
    then nth (j - t_col t) s 0 else t_cell t i j.
Proof.
  induction s as [|x s IH]; intros t V L.
  - cbn [write fold_left List.length]. split; auto. split; [lia|]. intros i j.
    destruct (i =? t_row t)%nat; cbn [andb]; auto.
    destruct (Nat.leb_spec (t_col t) j); destruct (Nat.ltb_spec j (t_col t + 0)); cbn [andb]; auto; lia.
  - inversion V; subst. cbn [List.length] in L. cbn [write fold_left].
    assert (P : put cols t x = set_cell t (t_row t) (t_col t) x).
    { unfold put. replace (x =? 13) with false by lia. replace (x =? 10) with false by lia.
      destruct (Nat.ltb_spec (t_col t) cols); auto; lia. }
    rewrite P. fold (write cols (set_cell t (t_row t) (t_col t) x) s).
    destruct (IH (set_cell t (t_row t) (t_col t) x)) as (R & C & E); auto.
    { cbn. lia. }
    cbn [set_cell t_row t_col t_cell] in *. rewrite R, C. split; auto. split; [cbn; lia|].
    intros i j. rewrite E. cbn [List.length].
    destruct (Nat.eqb_spec i (t_row t)); cbn [andb]; auto.
    destruct (Nat.leb_spec (S (t_col t)) j); destruct (Nat.leb_spec (t_col t) j); cbn [andb]; try lia.
    + destruct (Nat.ltb_spec j (S (t_col t) + List.length s)); destruct (Nat.ltb_spec j (t_col t + S (List.length s)));
        cbn [andb]; try lia.
      * replace (j - t_col t)%nat with (S (j - S (t_col t))) by lia. reflexivity.
      * destruct (Nat.eqb_spec j (t_col t)); auto; lia.
    + assert (j = t_col t) by lia. subst j. rewrite Nat.eqb_refl.
      replace (t_col t <? t_col t + S (List.length s))%nat with true by (symmetry; apply Nat.ltb_lt; lia).
      replace (t_col t - t_col t)%nat with 0%nat by lia.
      reflexivity.
    + destruct (Nat.ltb_spec j (S (t_col t) + List.length s)); destruct (Nat.eqb_spec j (t_col t)); cbn [andb]; auto; lia.
Qed.

Lemma write_app cols s1 s2 t : write cols t (s1 ++ s2) = write cols (write cols t s1) s2.
Proof. apply fold_left_app. Qed.

Lemma spaces_visible n : visible (spaces n).
Proof. apply Forall_forall. intros x I. apply repeat_spec in I. lia. Qed.

Lemma spaces_length n : List.length (spaces n) = Z.to_nat n.
Proof. apply repeat_length. Qed.

Lemma draw_one cols (width : nat) x t :
  visible (line_text x) -> (List.length (line_text x) <= width <= cols)%nat -> t_col t = O ->
  let t' := write cols t (draw_text (Z.of_nat width) x) in
  t_row t' = (if s_last x then S (t_row t) else t_row t) /\ t_col t' = O /\
  row_shows t' (t_row t) width (line_text x) /\ only_row t t' (t_row t) width.
Proof.
  intros V L C. cbn zeta. unfold draw_text, ljust. rewrite write_app.
  remember (line_text x ++ spaces (Z.of_nat width - Z.of_nat (List.length (line_text x)))) as s eqn:S.
  assert (LS : List.length s = width) by (subst s; rewrite app_length, spaces_length; lia).
  assert (VS : visible s) by (subst s; apply Forall_app; split; auto; apply spaces_visible).
  destruct (write_visible cols s t VS ltac:(lia)) as (R & C2 & E).
  remember (write cols t s) as t1. rewrite C in *. cbn [Nat.add] in *.
  assert (X : forall i j, t_cell (write cols t1 [if s_last x then 10 else 13]) i j = t_cell t1 i j).
  { destruct (s_last x); reflexivity. }
  split; [destruct (s_last x); cbn; congruence|]. split; [destruct (s_last x); reflexivity|].
  split; [split|].
  - intros i I. rewrite X, E, Nat.eqb_refl. cbn [andb Nat.leb].
    replace (i <? List.length s)%nat with true by (symmetry; apply Nat.ltb_lt; lia).
    rewrite Nat.sub_0_r, S, app_nth1 by lia. symmetry. apply nth_error_nth'. auto.
  - intros i I. rewrite X, E, Nat.eqb_refl. cbn [andb Nat.leb].
    replace (i <? List.length s)%nat with true by (symmetry; apply Nat.ltb_lt; lia).
    rewrite Nat.sub_0_r, S, app_nth2 by lia. unfold spaces.
    rewrite (nth_indep _ 0 32) by (rewrite repeat_length; lia). apply nth_repeat.
  - intros i j I. rewrite X, E. destruct (Nat.eqb_spec i (t_row t)); cbn [andb Nat.leb]; auto.
    destruct (Nat.ltb_spec j (List.length s)); auto. lia.
Qed.

Lemma draws_app cols width t a b : draws cols width t (a ++ b) = draws cols width (draws cols width t a) b.
Proof. apply fold_left_app. Qed.

Lemma draws_row cols (width : nat) l x t :
  Forall (fun y => visible (line_text y) /\ (List.length (line_text y) <= width)%nat) (l ++ [x]) ->
  (width <= cols)%nat -> t_col t = O -> Forall (fun y => s_last y = false) l ->
  let t' := draws cols (Z.of_nat width) t (l ++ [x]) in
  t_row t' = (if s_last x then S (t_row t) else t_row t) /\ t_col t' = O /\
  row_shows t' (t_row t) width (line_text x) /\ only_row t t' (t_row t) width.
Proof.
  revert x. induction l as [|y l IH] using rev_ind; intros x F W C N; cbn zeta.
  - inversion F as [|? ? [V L] _]; subst. cbn [app draws fold_left]. apply draw_one; auto.
  - apply Forall_app in F as [F1 F2]. apply Forall_app in N as [N1 N2].
    inversion F2 as [|? ? [V L] _]; subst. inversion N2; subst.
    destruct (IH y F1 W C N1) as (R & C1 & _ & O1).
    rewrite draws_app. remember (draws cols (Z.of_nat width) t (l ++ [y])) as t1.
    rewrite H1 in R. cbn [draws fold_left].
    destruct (draw_one cols width x t1 V ltac:(lia) C1) as (R2 & C2 & S2 & O2).
    rewrite R in *. split; auto. split; auto. split; auto.
    intros i j I. rewrite O2, O1; auto.
Qed.

(* ---- the text ---- *)

Lemma decimal_visible s n : JsonSpec.decimal s n -> visible s.
Proof.
  induction 1; [repeat constructor; lia|]. apply Forall_app. split; auto. repeat constructor. lia.
Qed.

Lemma dec_decimal n : 0 <= n -> JsonSpec.decimal (JsonModel.dec n) n.
Proof. intros N. apply JsonProofs.dec_ok. auto. Qed.

Lemma dec_loop_length fuel : forall n k, 0 <= n < 10 ^ Z.of_nat k -> (0 < k)%nat ->
  (List.length (JsonModel.dec_loop fuel n) <= k)%nat.
Proof.
  induction fuel as [|fuel IH]; intros n k N K; [cbn; lia|]. cbn [JsonModel.dec_loop].
  destruct (Z.ltb_spec n 10); [cbn; lia|]. rewrite app_length. cbn [List.length].
  assert (1 < k)%nat.
  { destruct k as [|[|k]]; lia. }
  specialize (IH (n / 10) (k - 1)%nat).
  assert (10 ^ Z.of_nat k = 10 * 10 ^ Z.of_nat (k - 1)).
  { replace (Z.of_nat k) with (Z.of_nat (k - 1) + 1) by lia. rewrite Z.pow_add_r by lia. lia. }
  enough (0 <= n / 10 < 10 ^ Z.of_nat (k - 1)) by lia. split; [apply Z.div_pos; lia|].
  apply Z.div_lt_upper_bound; lia.
Qed.

Lemma dec_length n k : 0 <= n < 10 ^ Z.of_nat k -> (0 < k)%nat -> (List.length (JsonModel.dec n) <= k)%nat.
Proof. apply dec_loop_length. Qed.

Lemma decimal_nonempty s n : JsonSpec.decimal s n -> (1 <= List.length s)%nat.
Proof. induction 1; [cbn; lia|]. rewrite app_length. lia. Qed.

Lemma two_decimals_2 h : 0 <= h -> decimal_2 (two_decimals h) h.
Proof.
  intros H. exists (JsonModel.dec (h / 100)), (h / 10 mod 10), (h mod 10).
  split; [reflexivity|]. split; [apply dec_decimal, Z.div_pos; lia|].
  pose proof (Z.mod_pos_bound (h / 10) 10). pose proof (Z.mod_pos_bound h 10).
  split; [lia|]. split; [lia|].
  change 100 with (10 * 10). rewrite (Z.rem_mul_r h 10 10) by lia. lia.
Qed.

Lemma decimal_2_visible s h : decimal_2 s h -> visible s.
Proof.
  intros (d & a & b & -> & D & A & B & _). apply Forall_app. split; [eapply decimal_visible; eauto|].
  repeat constructor; lia.
Qed.

Lemma two_decimals_length h k : 0 <= h < 100 * 10 ^ Z.of_nat k -> (0 < k)%nat ->
  (List.length (two_decimals h) <= k + 3)%nat.
Proof.
  intros H K. unfold two_decimals. rewrite app_length. cbn [List.length].
  enough (List.length (JsonModel.dec (h / 100)) <= k)%nat by lia.
  apply dec_length; auto. split; [apply Z.div_pos; lia|apply Z.div_lt_upper_bound; lia].
Qed.

Lemma hundredths_nonneg f : 0 <= fst f -> 0 <= hundredths f.
Proof.
  destruct f as [m e]. cbn [fst]. intros M. unfold hundredths.
  pose proof (scale_val1 (m * 100) e) as V. destruct (scale (m * 100) 1 (- e)) as [a b].
  destruct V as (B & A & _). apply rne_ge; auto. specialize (A ltac:(lia)). lia.
Qed.

Lemma hundredths_spec f : (inject_Z (hundredths f) - (1 # 2) <= 100 * fval f <= inject_Z (hundredths f) + (1 # 2))%Q.
Proof.
  destruct f as [m e]. unfold hundredths, fval. cbn [fst snd].
  pose proof (scale_val1 (m * 100) e) as V. destruct (scale (m * 100) 1 (- e)) as [a b].
  destruct V as (B & _ & V). rewrite inject_Z_mult in V.
  assert (W : (100 * (inject_Z m * pow2 e) == inject_Z a / inject_Z b)%Q).
  { rewrite V. change (inject_Z 100) with 100%Q. ring. }
  rewrite W. pose proof (rne_spec a b B) as R. remember (rne a b) as r.
  assert (BQ : (0 < inject_Z b)%Q) by (change 0%Q with (inject_Z 0); rewrite <- Zlt_Qlt; auto).
  assert (X : 2 * (a - b * r) <= b /\ - b <= 2 * (a - b * r)) by lia. destruct X as [X1 X2].
  rewrite Zle_Qle, inject_Z_mult in X1. rewrite Zle_Qle, inject_Z_mult, inject_Z_opp in X2.
  assert (Y : (inject_Z (a - b * r) == inject_Z a - inject_Z b * inject_Z r)%Q).
  { unfold Z.sub. rewrite inject_Z_plus, inject_Z_opp, inject_Z_mult. reflexivity. }
  rewrite Y in *. change (inject_Z 2) with 2%Q in *.
  split; [apply Qle_shift_div_l|apply Qle_shift_div_r]; auto; lra.
Qed.

Lemma whole_spec f : (inject_Z (whole f) - (1 # 2) <= fval f <= inject_Z (whole f) + (1 # 2))%Q.
Proof.
  destruct f as [m e]. unfold whole, fval. cbn [fst snd].
  pose proof (scale_val1 m e) as V. destruct (scale m 1 (- e)) as [a b].
  destruct V as (B & _ & V). rewrite <- V. pose proof (rne_spec a b B) as R. remember (rne a b) as r.
  assert (BQ : (0 < inject_Z b)%Q) by (change 0%Q with (inject_Z 0); rewrite <- Zlt_Qlt; auto).
  assert (X : 2 * (a - b * r) <= b /\ - b <= 2 * (a - b * r)) by lia. destruct X as [X1 X2].
  rewrite Zle_Qle, inject_Z_mult in X1. rewrite Zle_Qle, inject_Z_mult, inject_Z_opp in X2.
  assert (Y : (inject_Z (a - b * r) == inject_Z a - inject_Z b * inject_Z r)%Q).
  { unfold Z.sub. rewrite inject_Z_plus, inject_Z_opp, inject_Z_mult. reflexivity. }
  rewrite Y in *. change (inject_Z 2) with 2%Q in *.
  split; [apply Qle_shift_div_l|apply Qle_shift_div_r]; auto; lra.
Qed.

Lemma whole_nonneg f : 0 <= fst f -> 0 <= whole f.
Proof.
  destruct f as [m e]. cbn [fst]. intros M. unfold whole.
  pose proof (scale_val1 m e) as V. destruct (scale m 1 (- e)) as [a b].
  destruct V as (B & A & _). apply rne_ge; auto.
Qed.

(* ---- sizes and rates ---- *)

Lemma unit_cases u : 1 <= u <= 5 -> exists w, In (w, u) [(" KiB", 1); (" MiB", 2); (" GiB", 3); (" TiB", 4); (" PiB", 5)]%string /\
  [32] ++ unit_name u = chars w.
Proof.
  intros U. assert (u = 1 \/ u = 2 \/ u = 3 \/ u = 4 \/ u = 5) as [-> |[-> |[-> |[-> | ->]]]] by lia;
    eexists; (split; [cbn; tauto|reflexivity]).
Qed.

Lemma unit_length u : 1 <= u <= 5 -> List.length (unit_name u) = 3%nat.
Proof.
  intros U. assert (u = 1 \/ u = 2 \/ u = 3 \/ u = 4 \/ u = 5) as [-> |[-> |[-> |[-> | ->]]]] by lia; reflexivity.
Qed.

Lemma size_text_about n : 0 <= n <= 2 ^ 53 ->
  about (size_text n) (inject_Z n) /\ (List.length (size_text n) <= 11)%nat.
Proof.
  intros N. destruct (Z.ltb_spec n 1024) as [L|L].
  - assert (E : size_text n = JsonModel.dec n ++ chars " bytes").
    { unfold size_text, humansize. replace (n <? 1024) with true by lia. cbn [z_unit z_hundredths].
      rewrite Z.div_mul by lia. reflexivity. }
    rewrite E. split.
    + left. exists (JsonModel.dec n), n. split; auto. split; [apply dec_decimal; lia|].
      split; [change 1024%Q with (inject_Z 1024); rewrite <- Zlt_Qlt; auto|lra].
    + rewrite app_length. change (List.length (chars " bytes")) with 6%nat.
      enough (List.length (JsonModel.dec n) <= 4)%nat by lia. apply dec_length; cbn; lia.
  - destruct (humansize_spec n ltac:(lia)) as (k & K & H).
    assert (K1 : 1 <= k).
    { destruct (Z.lt_ge_cases 0 k); [lia|]. exfalso.
      assert (1024 ^ (k + 1) <= 1024 ^ 1) by (destruct (Z.lt_ge_cases (k + 1) 0); [rewrite Z.pow_neg_r; lia|apply Z.pow_le_mono_r; lia]). lia. }
    assert (K5 : k <= 5).
    { destruct (Z.lt_ge_cases k 6); [lia|]. exfalso. assert (X : 1024 ^ 6 <= 1024 ^ k) by (apply Z.pow_le_mono_r; lia).
      change (1024 ^ 6) with 1152921504606846976 in X. lia. }
    assert (P : 0 < 1024 ^ k) by (apply Z.pow_pos_nonneg; lia).
    assert (P1 : 1024 ^ (k + 1) = 1024 * 1024 ^ k) by (rewrite Z.pow_add_r by lia; lia).
    remember (rne (100 * n) (1024 ^ k)) as h.
    assert (H0 : 0 <= h <= 102400).
    { subst h. split; [apply rne_ge; lia|apply rne_le; lia]. }
    assert (E : size_text n = two_decimals h ++ [32] ++ unit_name k).
    { unfold size_text. rewrite H. cbn [z_unit z_hundredths]. replace (k =? 0) with false by lia. auto. }
    rewrite E. split.
    + right. destruct (unit_cases k ltac:(lia)) as (w & W & ->).
      exists (two_decimals h), h, w, k. split; auto. split; auto. split; [apply two_decimals_2; lia|].
      split; [rewrite <- Zle_Qle, <- Zlt_Qlt; auto|].
      pose proof (rne_spec (100 * n) (1024 ^ k) P) as R. rewrite <- Heqh in R.
      assert (X : 2 * (100 * n) <= (2 * h + 1) * 1024 ^ k /\ (2 * h - 1) * 1024 ^ k <= 2 * (100 * n)) by lia.
      destruct X as [X1 X2]. rewrite Zle_Qle, !inject_Z_mult, inject_Z_plus, inject_Z_mult in X1.
      unfold Z.sub in X2. rewrite Zle_Qle, !inject_Z_mult, inject_Z_plus, inject_Z_mult in X2.
      change (inject_Z 2) with 2%Q in *. change (inject_Z 1) with 1%Q in *. change (inject_Z (- (1))) with (-1)%Q in *.
      change (inject_Z 100) with 100%Q in *. split; lra.
    + rewrite !app_length, unit_length by lia. cbn [List.length].
      enough (List.length (two_decimals h) <= 4 + 3)%nat by lia. apply two_decimals_length; cbn; lia.
Qed.

Lemma float_loop_spec fuel : forall u f, 0 <= fst f -> 0 <= u ->
  (fval f < inject_Z (1024 ^ Z.of_nat fuel))%Q -> ((u = 0 /\ (0 < fuel)%nat) \/ (1 <= fval f)%Q) ->
  exists k g, float_loop fuel u f = (k, g) /\ u <= k < u + Z.of_nat fuel /\ 0 <= fst g /\
    (fval g * inject_Z (1024 ^ (k - u))%Z == fval f)%Q /\ (fval g < 1024)%Q /\ (k = 0 \/ (1 <= fval g)%Q).
Proof.
  induction fuel as [|fuel IH]; intros u f F U B O.
  - exfalso. change (1024 ^ Z.of_nat 0) with 1 in B. change (inject_Z 1) with 1%Q in B.
    destruct O as [[_ O]|O]; [lia|lra].
  - cbn [float_loop]. destruct (Z.ltb_spec (fint f) 1024) as [L|L].
    + exists u, f. split; auto. split; [lia|]. split; auto. rewrite Z.sub_diag. change (inject_Z (1024 ^ 0)) with 1%Q.
      split; [ring|]. apply fint_lt in L. split; [exact L|]. destruct O as [[O _]|O]; auto.
    + apply fint_le in L. destruct f as [m e]. cbn [fst] in F.
      assert (E : (fval (m, (e - 10)%Z) == fval (m, e) * (1 # 1024))%Q).
      { unfold fval. cbn [fst snd]. unfold Z.sub. rewrite pow2_add. change (pow2 (- (10))) with (1 # 1024)%Q. ring. }
      change (inject_Z 1024) with 1024%Q in L.
      destruct (IH (u + 1) (m, e - 10)) as (k & g & -> & K & G & X & Y & W); auto; [lia| | |].
      * rewrite E. replace (Z.of_nat (S fuel)) with (1 + Z.of_nat fuel) in B by lia.
        rewrite Z.pow_add_r, inject_Z_mult in B by lia. change (inject_Z (1024 ^ 1)) with 1024%Q in B. lra.
      * right. rewrite E. lra.
      * exists k, g. split; auto. split; [lia|]. split; auto. split; auto.
        rewrite E in X. assert (Z : 1024 ^ (k - u) = 1024 ^ (k - (u + 1)) * 1024).
        { replace (k - u) with (k - (u + 1) + 1) by lia. rewrite Z.pow_add_r by lia. lia. }
        rewrite Z, inject_Z_mult, Qmult_assoc, X. change (inject_Z 1024) with 1024%Q. field.
Qed.

Lemma rate_text_about f : 0 <= fst f -> (fval f < inject_Z (1024 ^ 6))%Q ->
  about (rate_text f) (fval f) /\ (List.length (rate_text f) <= 11)%nat.
Proof.
  intros F B. destruct (float_loop_spec 6 0 f F ltac:(lia) B) as (k & g & E & K & G & X & Y & W).
  { left. split; auto. lia. }
  unfold rate_text. rewrite E. rewrite Z.sub_0_r in X. destruct (Z.eqb_spec k 0) as [->|K0].
  - change (inject_Z (1024 ^ 0)) with 1%Q in X. rewrite Qmult_1_r in X.
    pose proof (whole_spec g) as S. pose proof (whole_nonneg g G) as S0.
    split.
    + left. exists (JsonModel.dec (whole g)), (whole g). split; [reflexivity|]. split; [apply dec_decimal; auto|].
      rewrite <- X. auto.
    + rewrite !app_length. change (List.length (unit_name 0)) with 5%nat. cbn [List.length].
      enough (List.length (JsonModel.dec (whole g)) <= 4)%nat by lia. apply dec_length; [|lia]. split; auto.
      change (10 ^ Z.of_nat 4) with 10000. rewrite Zlt_Qlt. change (inject_Z 10000) with 10000%Q. lra.
  - destruct W as [W|W]; [lia|].
    pose proof (hundredths_spec g) as S. pose proof (hundredths_nonneg g G) as S0.
    assert (P : 0 < 1024 ^ k) by (apply Z.pow_pos_nonneg; lia).
    assert (PQ : (0 < inject_Z (1024 ^ k))%Q) by (change 0%Q with (inject_Z 0); rewrite <- Zlt_Qlt; auto).
    split.
    + right. destruct (unit_cases k ltac:(lia)) as (w & Hw & ->).
      exists (two_decimals (hundredths g)), (hundredths g), w, k. split; auto. split; auto.
      split; [apply two_decimals_2; auto|].
      rewrite Z.pow_add_r by lia. rewrite inject_Z_mult. change (inject_Z (1024 ^ 1)) with 1024%Q.
      rewrite <- X. split; [split; nra|].
      split; nra.
    + rewrite !app_length, unit_length by lia. cbn [List.length].
      enough (List.length (two_decimals (hundredths g)) <= 4 + 3)%nat by lia. apply two_decimals_length; [|lia].
      split; auto. change (100 * 10 ^ Z.of_nat 4) with 1000000. rewrite Zlt_Qlt. change (inject_Z 1000000) with 1000000%Q. lra.
Qed.

(* The quotient is rounded once, for up to 2^53 bytes. *)
Lemma fl_int n : 0 <= n <= 2 ^ 53 -> (fval (fl n 1) == inject_Z n)%Q.
Proof.
  intros N. assert (E : (inject_Z n / inject_Z 1 == inject_Z n * pow2 0)%Q) by (change (pow2 0) with 1%Q; change (inject_Z 1) with 1%Q; field).
  assert (E2 : (inject_Z n * pow2 0 == inject_Z n)%Q) by (change (pow2 0) with 1%Q; ring).
  apply Qeq_trans with (inject_Z n * pow2 0)%Q; [|exact E2].
  apply Qle_antisym; [apply fl_le|apply fl_ge]; try lia; rewrite E; apply Qle_refl.
Qed.

Lemma rate_spec n el : 0 <= n <= 2 ^ 53 -> 0 < fst el ->
  let x := (inject_Z n / fval el)%Q in
  0 <= fst (rate n el) /\ (x - x * pow2 (-53) <= fval (rate n el) <= x + x * pow2 (-53))%Q.
Proof.
  intros N E. cbn zeta. unfold rate. pose proof (fl_int n N) as V. pose proof (fl_nonneg n 1 ltac:(lia)) as M.
  destruct (fl n 1) as [m e]. destruct el as [m2 e2]. cbn [fst] in *.
  pose proof (scale_val m m2 (e2 - e) E) as S. destruct (scale m m2 (e2 - e)) as [a b] eqn:SE.
  destruct S as (B & S). split; [apply fl_nonneg; auto|].
  assert (A : 0 <= a).
  { unfold scale in SE. injection SE as <- <-. apply Z.mul_nonneg_nonneg; auto. apply Z.pow_nonneg. lia. }
  assert (X : (inject_Z n / fval (m2, e2) == inject_Z a / inject_Z b)%Q).
  { rewrite <- V. unfold fval. cbn [fst snd].
    assert (PE : (pow2 e == pow2 e2 * / pow2 (e2 - e))%Q).
    { replace e with (e2 - (e2 - e)) at 1 by lia. rewrite <- (pow2_sub e2 (e2 - e)) at 1. field.
      pose proof (pow2_pos (e2 - e)). lra. }
    assert (M2 : (0 < inject_Z m2)%Q) by (change 0%Q with (inject_Z 0); rewrite <- Zlt_Qlt; auto).
    pose proof (pow2_pos e2). pose proof (pow2_pos (e2 - e)).
    assert (S' : (inject_Z a / inject_Z b == inject_Z m / inject_Z m2 * / pow2 (e2 - e))%Q).
    { assert (0 < inject_Z b)%Q by (change 0%Q with (inject_Z 0); rewrite <- Zlt_Qlt; auto).
      rewrite S. field. repeat split; lra. }
    rewrite S', PE. field. repeat split; lra. }
  pose proof (fl_error a b A B) as F. cbn zeta in F. rewrite X. lra.
Qed.
