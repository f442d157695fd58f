(* Numbers of Python's type float, without infinities: the division of two
   integers and the multiplication by an integer, correctly rounded to 53 bits,
   ties to even.  Simplified: the exponent is not limited, so there is neither
   overflow nor underflow; only numbers that are not negative. *)
From Coq Require Import ZArith QArith Qpower Lia Lqa.
Open Scope Z_scope.

(* The nearest integer to p / q, ties to even; q > 0. *)
(* Python semantics (IEEE 754), no line of /repo. *)
Definition rne (p q : Z) : Z :=
  let d := p / q in
  let r := p mod q in
  if 2 * r <? q then d
  else if q <? 2 * r then d + 1
  else if Z.even d then d else d + 1.

(* m * 2 ^ e *)
(* Python semantics (IEEE 754), no line of /repo. *)
Definition float := (Z * Z)%type.

(* p / q * 2 ^ (- e) as a fraction *)
(* Python semantics (IEEE 754), no line of /repo. *)
Definition scale (p q e : Z) : Z * Z := (p * 2 ^ Z.max 0 (- e), q * 2 ^ Z.max 0 e).

(* The number of 53 bits nearest to p / q, for p >= 0 and q > 0: the exponent
   is the one with 2^52 <= p / q / 2^e < 2^53. *)
(* Python semantics (IEEE 754), no line of /repo. *)
Definition fl (p q : Z) : float :=
  if p <=? 0 then (0, 0)
  else
    let e0 := Z.log2 p - Z.log2 q - 53 in
    let (a, b) := scale p q e0 in
    let e := if a <? b * 2 ^ 53 then e0 else e0 + 1 in
    let (a, b) := scale p q e in
    (rne a b, e).

(* a / b of two integers *)
(* Python semantics (IEEE 754), no line of /repo. *)
Definition truediv (a b : Z) : float := fl a b.

(* f * n for an integer n, which is exact as a float *)
(* Python semantics (IEEE 754), no line of /repo. *)
Definition fmul (f : float) (n : Z) : float :=
  let (m, e) := f in
  let (a, b) := scale (m * n) 1 (- e) in fl a b.

(* int(f): truncation *)
(* Python semantics (IEEE 754), no line of /repo. *)
Definition fint (f : float) : Z :=
  let (m, e) := f in
  let (a, b) := scale m 1 (- e) in a / b.

(* ---- proofs ---- *)

Lemma rne_spec p q : 0 < q -> 2 * Z.abs (p - q * rne p q) <= q.
Proof.
  intros Q. unfold rne. pose proof (Z.div_mod p q ltac:(lia)). pose proof (Z.mod_pos_bound p q Q).
  destruct (Z.ltb_spec (2 * (p mod q)) q); [lia|].
  destruct (Z.ltb_spec q (2 * (p mod q))); [lia|].
  destruct (Z.even (p / q)); lia.
Qed.

Lemma rne_le p q a : 0 < q -> p <= a * q -> rne p q <= a.
Proof.
  intros Q H. unfold rne. pose proof (Z.div_mod p q ltac:(lia)). pose proof (Z.mod_pos_bound p q Q).
  assert (D : p / q <= a) by (apply Z.div_le_upper_bound; lia).
  destruct (Z.ltb_spec (2 * (p mod q)) q); [lia|].
  destruct (Z.eq_dec (p / q) a) as [E|E]; [nia|].
  destruct (Z.ltb_spec q (2 * (p mod q))); [lia|].
  destruct (Z.even (p / q)); lia.
Qed.

Lemma rne_ge p q a : 0 < q -> a * q <= p -> a <= rne p q.
Proof.
  intros Q H. unfold rne.
  assert (D : a <= p / q) by (apply Z.div_le_lower_bound; lia).
  destruct (2 * (p mod q) <? q); [lia|]. destruct (q <? 2 * (p mod q)); [lia|].
  destruct (Z.even (p / q)); lia.
Qed.

Open Scope Q_scope.

(* Python semantics (IEEE 754), no line of /repo. *)
Definition pow2 (k : Z) : Q := Qpower 2 k.
(* Python semantics (IEEE 754), no line of /repo. *)
Definition fval (f : float) : Q := inject_Z (fst f) * pow2 (snd f).

Lemma pow2_pos k : 0 < pow2 k.
Proof. apply Qpower_0_lt. reflexivity. Qed.

Lemma pow2_add a b : pow2 (a + b) == pow2 a * pow2 b.
Proof. apply Qpower_plus. discriminate. Qed.

Lemma pow2_Z k : (0 <= k)%Z -> pow2 k == inject_Z (2 ^ k).
Proof. intros H. unfold pow2. rewrite Zpower_Qpower by auto. reflexivity. Qed.

Lemma pow2_sub a b : pow2 (a - b) * pow2 b == pow2 a.
Proof. rewrite <- pow2_add. replace (a - b + b)%Z with a by lia. reflexivity. Qed.

Lemma pow2_le a b : (a <= b)%Z -> pow2 a <= pow2 b.
Proof.
  intros H. rewrite <- (pow2_sub b a), (pow2_Z (b - a)) by lia.
  assert (1 <= 2 ^ (b - a))%Z by (apply Z.pow_pos_nonneg || idtac; pose proof (Z.pow_pos_nonneg 2 (b - a)); lia).
  pose proof (pow2_pos a). rewrite Zle_Qle in H0. change (inject_Z 1) with 1 in H0. nra.
Qed.

(* p / q in terms of the scaled fraction *)
Lemma scale_val p q e : (0 < q)%Z ->
  let (a, b) := scale p q e in
  (0 < b)%Z /\ inject_Z p / inject_Z q == inject_Z a / inject_Z b * pow2 e.
Proof.
  intros Hq. unfold scale.
  assert (B : (0 < 2 ^ Z.max 0 e)%Z) by (apply Z.pow_pos_nonneg; lia).
  assert (A : (0 < 2 ^ Z.max 0 (- e))%Z) by (apply Z.pow_pos_nonneg; lia).
  split; [lia|]. rewrite !inject_Z_mult, <- !pow2_Z by lia.
  assert (QQ : ~ inject_Z q == 0) by (unfold inject_Z, Qeq; cbn; lia).
  assert (P : ~ pow2 (Z.max 0 e) == 0) by (pose proof (pow2_pos (Z.max 0 e)); lra).
  replace (Z.max 0 (- e)) with (Z.max 0 e + - e)%Z by lia. rewrite pow2_add.
  assert (I : pow2 (- e) * pow2 e == 1) by (rewrite <- pow2_add; replace (- e + e)%Z with 0%Z by lia; reflexivity).
  field_simplify; [|split; auto|auto].
  rewrite <- (Qmult_1_r (inject_Z p)) at 1. rewrite <- I. field. auto.
Qed.

Lemma Qdiv_Z_lt a b c : (0 < b)%Z -> (inject_Z a / inject_Z b < inject_Z c <-> (a < c * b)%Z).
Proof.
  intros B. assert (0 < inject_Z b) by (change 0 with (inject_Z 0); rewrite <- Zlt_Qlt; auto).
  rewrite (Zlt_Qlt a (c * b)), inject_Z_mult. split; intros H1.
  - rewrite <- (Qmult_div_r (inject_Z a) (inject_Z b)) by lra. nra.
  - apply Qlt_shift_div_r; auto.
Qed.

Lemma Qdiv_Z_le a b c : (0 < b)%Z -> (inject_Z c <= inject_Z a / inject_Z b <-> (c * b <= a)%Z).
Proof.
  intros B. pose proof (Qdiv_Z_lt a b c B).
  destruct (Qlt_le_dec (inject_Z a / inject_Z b) (inject_Z c)) as [L|L].
  - split; intros K; [lra|]. apply H in L. lia.
  - split; auto. intros _. destruct (Z.le_gt_cases (c * b) a); auto.
    assert (a < c * b)%Z as M by lia. apply H in M. lra.
Qed.

Lemma Qdiv_Z_le2 a b c : (0 < b)%Z -> (inject_Z a / inject_Z b <= inject_Z c <-> (a <= c * b)%Z).
Proof.
  intros B. assert (0 < inject_Z b) by (change 0 with (inject_Z 0); rewrite <- Zlt_Qlt; auto).
  rewrite (Zle_Qle a (c * b)), inject_Z_mult. split; intros H1.
  - rewrite <- (Qmult_div_r (inject_Z a) (inject_Z b)) by lra. nra.
  - apply Qle_shift_div_r; auto.
Qed.

Lemma fraction_log p q : (0 < p)%Z -> (0 < q)%Z ->
  pow2 (Z.log2 p - Z.log2 q - 1) <= inject_Z p / inject_Z q /\
  inject_Z p / inject_Z q < pow2 (Z.log2 p - Z.log2 q + 1).
Proof.
  intros P0 Q0. pose proof (Z.log2_spec p P0) as (P1 & P2). pose proof (Z.log2_spec q Q0) as (Q1 & Q2).
  pose proof (Z.log2_nonneg p). pose proof (Z.log2_nonneg q).
  rewrite Zle_Qle, <- pow2_Z in P1 by lia. rewrite Zlt_Qlt, <- pow2_Z in P2 by lia.
  rewrite Zle_Qle, <- pow2_Z in Q1 by lia. rewrite Zlt_Qlt, <- pow2_Z in Q2 by lia.
  assert (QQ : 0 < inject_Z q) by (change 0 with (inject_Z 0); rewrite <- Zlt_Qlt; auto).
  set (lp := Z.log2 p) in *. set (lq := Z.log2 q) in *.
  pose proof (pow2_pos lq). pose proof (pow2_pos lp).
  split.
  - apply Qle_shift_div_l; auto.
    assert (E : pow2 (lp - lq - 1) * pow2 (Z.succ lq) == pow2 lp)
      by (rewrite <- pow2_add; replace (lp - lq - 1 + Z.succ lq)%Z with lp by lia; reflexivity).
    pose proof (pow2_pos (lp - lq - 1)). nra.
  - apply Qlt_shift_div_r; auto.
    assert (E : pow2 (lp - lq + 1) * pow2 lq == pow2 (Z.succ lp))
      by (rewrite <- pow2_add; replace (lp - lq + 1 + lq)%Z with (Z.succ lp) by lia; reflexivity).
    pose proof (pow2_pos (lp - lq + 1)). nra.
Qed.

Lemma fl_eq p q : (0 < p)%Z -> (0 < q)%Z ->
  exists a b e, scale p q e = (a, b) /\ (0 < b)%Z /\ fl p q = (rne a b, e) /\
    (2 ^ 52 * b <= a < 2 ^ 53 * b)%Z.
Proof.
  intros P0 Q0. unfold fl. replace (p <=? 0)%Z with false by lia.
  set (e0 := (Z.log2 p - Z.log2 q - 53)%Z).
  destruct (scale p q e0) as [a b] eqn:S. pose proof (scale_val p q e0 Q0) as V. rewrite S in V.
  destruct V as (B & V). destruct (fraction_log p q P0 Q0) as (L1 & L2).
  pose proof (pow2_pos e0) as E0.
  assert (L1' : inject_Z (2 ^ 52) <= inject_Z a / inject_Z b).
  { replace (Z.log2 p - Z.log2 q - 1)%Z with (52 + e0)%Z in L1 by (unfold e0; lia).
    rewrite pow2_add, pow2_Z in L1 by lia. rewrite V in L1. nra. }
  assert (L2' : inject_Z a / inject_Z b < inject_Z (2 ^ 54)).
  { replace (Z.log2 p - Z.log2 q + 1)%Z with (54 + e0)%Z in L2 by (unfold e0; lia).
    rewrite pow2_add, pow2_Z in L2 by lia. rewrite V in L2. nra. }
  destruct (Z.ltb_spec a (b * 2 ^ 53)).
  - rewrite S. exists a, b, e0. rewrite Qdiv_Z_le in L1' by auto. repeat split; auto; lia.
  - destruct (scale p q (e0 + 1)) as [a1 b1] eqn:S1. pose proof (scale_val p q (e0 + 1) Q0) as V1. rewrite S1 in V1.
    destruct V1 as (B1 & V1). exists a1, b1, (e0 + 1)%Z. split; auto. split; auto. split; auto.
    assert (L3 : inject_Z (2 ^ 53) <= inject_Z a / inject_Z b) by (apply Qdiv_Z_le; lia).
    rewrite V, pow2_add in V1. change (pow2 1) with 2 in V1.
    assert (V2 : inject_Z a / inject_Z b == inject_Z a1 / inject_Z b1 * 2) by nra.
    split.
    + apply Qdiv_Z_le; auto. rewrite V2 in L3.
      change (2 ^ 53)%Z with (2 ^ 52 * 2)%Z in L3. rewrite inject_Z_mult in L3. change (inject_Z 2) with 2 in L3. lra.
    + rewrite <- Qdiv_Z_lt by auto. rewrite V2 in L2'.
      change (2 ^ 54)%Z with (2 ^ 53 * 2)%Z in L2'. rewrite inject_Z_mult in L2'. change (inject_Z 2) with 2 in L2'. lra.
Qed.

(* Rounding does not pass a number of 53 bits. *)
Lemma fl_le p q a k : (0 <= p)%Z -> (0 < q)%Z -> (0 <= a <= 2 ^ 53)%Z ->
  inject_Z p / inject_Z q <= inject_Z a * pow2 k -> fval (fl p q) <= inject_Z a * pow2 k.
Proof.
  intros P0 Q0 A H. destruct (Z.eq_dec p 0) as [->|N].
  { apply Qle_trans with 0; [discriminate|]. pose proof (pow2_pos k).
    assert (0 <= inject_Z a) by (change 0 with (inject_Z 0); rewrite <- Zle_Qle; lia).
    apply Qmult_le_0_compat; lra. }
  destruct (fl_eq p q ltac:(lia) Q0) as (x & y & e & S & Y & -> & X).
  pose proof (scale_val p q e Q0) as V. rewrite S in V. destruct V as (_ & V). rewrite V in H.
  unfold fval. cbn [fst snd]. pose proof (pow2_pos e) as E. pose proof (pow2_pos k) as K.
  destruct (Z.le_gt_cases e k) as [L|L].
  - rewrite <- (pow2_sub k e), (pow2_Z (k - e)) in * by lia.
    rewrite Qmult_assoc, <- inject_Z_mult in *.
    assert (H1 : inject_Z x / inject_Z y <= inject_Z (a * 2 ^ (k - e))).
    { apply (Qmult_le_r _ _ _ E). auto. }
    rewrite Qdiv_Z_le2 in H1 by auto.
    apply Qmult_le_compat_r; [|lra]. rewrite <- Zle_Qle. apply rne_le; auto.
  - assert (U : inject_Z a * pow2 k <= inject_Z (2 ^ 52) * pow2 e).
    { assert (pow2 k <= pow2 (e - 1)) by (apply pow2_le; lia).
      assert (EQ : pow2 (e - 1) * 2 == pow2 e) by (apply (pow2_sub e 1)).
      assert (inject_Z a <= inject_Z (2 ^ 52) * 2) by (change 2 with (inject_Z 2); rewrite <- inject_Z_mult, <- Zle_Qle; lia).
      assert (0 <= inject_Z a) by (change 0 with (inject_Z 0); rewrite <- Zle_Qle; lia). nra. }
    assert (EQ : inject_Z x / inject_Z y <= inject_Z (2 ^ 52)).
    { apply (Qmult_le_r _ _ _ E). lra. }
    rewrite Qdiv_Z_le2 in EQ by auto. assert (R : x = (2 ^ 52 * y)%Z) by lia.
    assert (rne x y = 2 ^ 52)%Z as ->.
    { pose proof (rne_le x y (2 ^ 52) Y ltac:(lia)). pose proof (rne_ge x y (2 ^ 52) Y ltac:(lia)). lia. }
    assert (VX : inject_Z x / inject_Z y == inject_Z (2 ^ 52)).
    { apply Qle_antisym; [apply Qdiv_Z_le2; lia|apply Qdiv_Z_le; lia]. }
    rewrite VX in H. auto.
Qed.

Lemma fl_ge p q a k : (0 <= p)%Z -> (0 < q)%Z -> (0 <= a <= 2 ^ 53)%Z ->
  inject_Z a * pow2 k <= inject_Z p / inject_Z q -> inject_Z a * pow2 k <= fval (fl p q).
Proof.
  intros P0 Q0 A H. destruct (Z.eq_dec p 0) as [->|N].
  { apply Qle_trans with 0; [|discriminate]. unfold Qdiv in H. rewrite Qmult_0_l in H. auto. }
  destruct (fl_eq p q ltac:(lia) Q0) as (x & y & e & S & Y & -> & X).
  pose proof (scale_val p q e Q0) as V. rewrite S in V. destruct V as (_ & V). rewrite V in H.
  unfold fval. cbn [fst snd]. pose proof (pow2_pos e) as E. pose proof (pow2_pos k) as K.
  destruct (Z.le_gt_cases e k) as [L|L].
  - rewrite <- (pow2_sub k e), (pow2_Z (k - e)) in * by lia.
    rewrite Qmult_assoc, <- inject_Z_mult in *.
    assert (H1 : inject_Z (a * 2 ^ (k - e)) <= inject_Z x / inject_Z y).
    { apply (Qmult_le_r _ _ _ E). auto. }
    rewrite Qdiv_Z_le in H1 by auto.
    apply Qmult_le_compat_r; [|lra]. rewrite <- Zle_Qle. apply rne_ge; auto.
  - assert (U : inject_Z a * pow2 k <= inject_Z (2 ^ 52) * pow2 e).
    { assert (pow2 k <= pow2 (e - 1)) by (apply pow2_le; lia).
      assert (EQ : pow2 (e - 1) * 2 == pow2 e) by (apply (pow2_sub e 1)).
      assert (inject_Z a <= inject_Z (2 ^ 52) * 2) by (change 2 with (inject_Z 2); rewrite <- inject_Z_mult, <- Zle_Qle; lia).
      assert (0 <= inject_Z a) by (change 0 with (inject_Z 0); rewrite <- Zle_Qle; lia). nra. }
    assert (R : (2 ^ 52 <= rne x y)%Z) by (apply rne_ge; lia).
    rewrite Zle_Qle in R. nra.
Qed.

(* The relative error: half of a unit of the last of 53 bits. *)
Lemma fl_error p q : (0 <= p)%Z -> (0 < q)%Z ->
  let x := inject_Z p / inject_Z q in
  x - x * pow2 (-53) <= fval (fl p q) /\ fval (fl p q) <= x + x * pow2 (-53).
Proof.
  intros P0 Q0. cbn zeta. destruct (Z.eq_dec p 0) as [->|N].
  { unfold Qdiv. rewrite !Qmult_0_l. split; discriminate. }
  destruct (fl_eq p q ltac:(lia) Q0) as (x & y & e & S & Y & -> & X).
  pose proof (scale_val p q e Q0) as V. rewrite S in V. destruct V as (_ & V). rewrite V.
  unfold fval. cbn [fst snd]. pose proof (pow2_pos e) as E.
  pose proof (rne_spec x y Y) as R. set (m := rne x y) in *.
  set (z := inject_Z x / inject_Z y).
  assert (YY : 0 < inject_Z y) by (change 0 with (inject_Z 0); rewrite <- Zlt_Qlt; auto).
  assert (ZY : z * inject_Z y == inject_Z x) by (unfold z; field; lra).
  assert (LO : inject_Z (2 ^ 52) <= z) by (apply Qdiv_Z_le; lia).
  assert (H53 : pow2 (-53) * inject_Z (2 ^ 52) == 1 # 2) by reflexivity.
  pose proof (pow2_pos (-53)) as P53.
  assert (HALF : 1 # 2 <= z * pow2 (-53)) by nra.
  assert (D1 : z - inject_Z m <= 1 # 2).
  { assert (K : (2 * x <= (2 * m + 1) * y)%Z) by lia. rewrite Zle_Qle, !inject_Z_mult, inject_Z_plus, inject_Z_mult, <- ZY in K.
    change (inject_Z 2) with 2 in K. change (inject_Z 1) with 1 in K. nra. }
  assert (D2 : inject_Z m - z <= 1 # 2).
  { assert (K : ((2 * m - 1) * y <= 2 * x)%Z) by lia.
    unfold Z.sub in K. rewrite Zle_Qle, !inject_Z_mult, inject_Z_plus, inject_Z_mult, <- ZY in K.
    change (inject_Z 2) with 2 in K. change (inject_Z (- (1))) with (- (1)) in K. nra. }
  clearbody z m. split; nra.
Qed.

Lemma scale_val1 p e : let (a, b) := scale p 1 (- e) in
  (0 < b)%Z /\ ((0 <= p)%Z -> (0 <= a)%Z) /\ inject_Z a / inject_Z b == inject_Z p * pow2 e.
Proof.
  pose proof (scale_val p 1 (- e) ltac:(lia)) as V. destruct (scale p 1 (- e)) as [a b] eqn:S.
  destruct V as (B & V). split; auto. split.
  - intros H. unfold scale in S. injection S as <- <-.
    assert (0 < 2 ^ Z.max 0 (- - e))%Z by (apply Z.pow_pos_nonneg; lia). nia.
  - assert (I : pow2 (- e) * pow2 e == 1) by (rewrite <- pow2_add; replace (- e + e)%Z with 0%Z by lia; reflexivity).
    change (inject_Z 1) with 1 in V. unfold Qdiv at 1 in V. change (/ 1) with 1 in V. rewrite Qmult_1_r in V.
    rewrite V, <- Qmult_assoc, I. ring.
Qed.

Lemma fint_le f c : (c <= fint f)%Z <-> inject_Z c <= fval f.
Proof.
  destruct f as [m e]. unfold fint, fval. cbn [fst snd]. pose proof (scale_val1 m e) as V.
  destruct (scale m 1 (- e)) as [a b]. destruct V as (B & _ & V). rewrite <- V, Qdiv_Z_le by auto.
  split; intros H.
  - pose proof (Z.mul_div_le a b B). nia.
  - apply Z.div_le_lower_bound; lia.
Qed.

Lemma fint_lt f c : (fint f < c)%Z <-> fval f < inject_Z c.
Proof.
  pose proof (fint_le f c). destruct (Qlt_le_dec (fval f) (inject_Z c)) as [L|L].
  - split; auto. intros _. destruct (Z.lt_ge_cases (fint f) c) as [?|G]; auto. apply H in G. lra.
  - split; intros K; [|lra]. apply H in L. lia.
Qed.

(* A product is a number rounded once. *)
Lemma fmul_eq f n : (0 <= fst f)%Z -> (0 <= n)%Z ->
  exists a b, (0 <= a)%Z /\ (0 < b)%Z /\ fmul f n = fl a b /\ inject_Z a / inject_Z b == fval f * inject_Z n.
Proof.
  destruct f as [m e]. cbn [fst]. intros M N. unfold fmul, fval. cbn [fst snd].
  pose proof (scale_val1 (m * n) e) as V. destruct (scale (m * n) 1 (- e)) as [a b].
  destruct V as (B & A & V). exists a, b. split; [apply A; nia|]. split; auto. split; auto.
  rewrite V, inject_Z_mult. ring.
Qed.

Lemma fl_nonneg p q : (0 < q)%Z -> (0 <= fst (fl p q))%Z.
Proof.
  intros Q0. destruct (Z.le_gt_cases p 0) as [L|L].
  - unfold fl. replace (p <=? 0)%Z with true by lia. cbn. lia.
  - destruct (fl_eq p q ltac:(lia) Q0) as (a & b & e & S & B & -> & X). cbn [fst].
    apply rne_ge; lia.
Qed.

(* A number below the middle of two neighbours is not rounded up. *)
Lemma fl_below p q a k : (0 <= p)%Z -> (0 < q)%Z -> (2 ^ 52 <= a < 2 ^ 53)%Z ->
  inject_Z p / inject_Z q < (inject_Z a + (1 # 2)) * pow2 k -> fval (fl p q) <= inject_Z a * pow2 k.
Proof.
  intros P0 Q0 A H. pose proof (pow2_pos k) as K.
  assert (AA : inject_Z (2 ^ 52) <= inject_Z a) by (rewrite <- Zle_Qle; lia).
  assert (AB : inject_Z a + 1 <= inject_Z (2 ^ 52) * 2).
  { change 1 with (inject_Z 1). change 2 with (inject_Z 2).
    rewrite <- inject_Z_plus, <- inject_Z_mult, <- Zle_Qle. lia. }
  assert (A0 : 0 <= inject_Z a) by (change 0 with (inject_Z 0); rewrite <- Zle_Qle; lia).
  destruct (Z.eq_dec p 0) as [->|N].
  { apply Qle_trans with 0; [discriminate|]. apply Qmult_le_0_compat; lra. }
  destruct (fl_eq p q ltac:(lia) Q0) as (x & y & e & S & Y & -> & X).
  pose proof (scale_val p q e Q0) as V. rewrite S in V. destruct V as (_ & V). rewrite V in H.
  unfold fval. cbn [fst snd]. pose proof (pow2_pos e) as E.
  assert (LO : inject_Z (2 ^ 52) <= inject_Z x / inject_Z y) by (apply Qdiv_Z_le; lia).
  destruct (Z.lt_trichotomy e k) as [L|[->|L]].
  - assert (R : (rne x y <= 2 ^ 53)%Z) by (apply rne_le; lia). rewrite Zle_Qle in R.
    assert (PE : pow2 e * 2 <= pow2 k).
    { assert (pow2 e <= pow2 (k - 1)) by (apply pow2_le; lia).
      assert (EQ : pow2 (k - 1) * 2 == pow2 k) by (apply (pow2_sub k 1)). lra. }
    change (2 ^ 53)%Z with (2 ^ 52 * 2)%Z in R. rewrite inject_Z_mult in R. change (inject_Z 2) with 2 in R. nra.
  - apply Qmult_le_compat_r; [|lra]. rewrite <- Zle_Qle.
    assert (H1 : inject_Z x / inject_Z y < inject_Z a + (1 # 2)) by (apply (Qmult_lt_r _ _ _ E); auto).
    assert (YY : 0 < inject_Z y) by (change 0 with (inject_Z 0); rewrite <- Zlt_Qlt; auto).
    assert (H2 : (2 * x < (2 * a + 1) * y)%Z).
    { rewrite Zlt_Qlt, !inject_Z_mult, inject_Z_plus, inject_Z_mult.
      change (inject_Z 2) with 2. change (inject_Z 1) with 1.
      assert (ZY : inject_Z x / inject_Z y * inject_Z y == inject_Z x) by (field; lra). nra. }
    pose proof (rne_spec x y Y). destruct (Z.le_gt_cases (rne x y) a); auto. nia.
  - exfalso.
    assert (PE : pow2 k * 2 <= pow2 e).
    { assert (pow2 k <= pow2 (e - 1)) by (apply pow2_le; lia).
      assert (EQ : pow2 (e - 1) * 2 == pow2 e) by (apply (pow2_sub e 1)). lra. }
    nra.
Qed.

Lemma rne_scale a b k : (0 < b)%Z -> (0 < k)%Z -> rne (a * k) (b * k) = rne a b.
Proof.
  intros B K. unfold rne. rewrite Z.div_mul_cancel_r, Z.mul_mod_distr_r by lia.
  replace (2 * (a mod b * k) <? b * k)%Z with (2 * (a mod b) <? b)%Z
    by (destruct (Z.ltb_spec (2 * (a mod b)) b), (Z.ltb_spec (2 * (a mod b * k)) (b * k)); auto; nia).
  replace (b * k <? 2 * (a mod b * k))%Z with (b <? 2 * (a mod b))%Z
    by (destruct (Z.ltb_spec b (2 * (a mod b))), (Z.ltb_spec (b * k) (2 * (a mod b * k))); auto; nia).
  reflexivity.
Qed.

Lemma rne_mono a b c d : (0 < b)%Z -> (0 < d)%Z -> (a * d <= c * b)%Z -> (rne a b <= rne c d)%Z.
Proof.
  intros B D H. destruct (Z.eq_dec (a * d) (c * b)) as [E|E].
  - rewrite <- (rne_scale a b d), <- (rne_scale c d b), E, (Z.mul_comm b d) by lia. lia.
  - pose proof (rne_spec a b B). pose proof (rne_spec c d D).
    destruct (Z.le_gt_cases (rne a b) (rne c d)) as [?|G]; auto. exfalso.
    assert (A : ((2 * rne c d + 1) * b <= 2 * a)%Z) by nia.
    assert (C : (2 * c <= (2 * rne c d + 1) * d)%Z) by nia. nia.
Qed.

(* Rounding keeps the order. *)
Lemma fl_mono p q r s : (0 <= p)%Z -> (0 < q)%Z -> (0 <= r)%Z -> (0 < s)%Z ->
  inject_Z p / inject_Z q <= inject_Z r / inject_Z s -> fval (fl p q) <= fval (fl r s).
Proof.
  intros P0 Q0 R0 S0 H. destruct (Z.eq_dec p 0) as [->|NP].
  { apply Qle_trans with 0; [discriminate|]. apply Qmult_le_0_compat; [|pose proof (pow2_pos (snd (fl r s))); lra].
    change 0 with (inject_Z 0). rewrite <- Zle_Qle. apply fl_nonneg. auto. }
  assert (PQ : 0 < inject_Z p / inject_Z q).
  { apply Qlt_shift_div_l; [change 0 with (inject_Z 0); rewrite <- Zlt_Qlt; auto|].
    rewrite Qmult_0_l. change 0 with (inject_Z 0). rewrite <- Zlt_Qlt. lia. }
  destruct (Z.eq_dec r 0) as [->|NR].
  { exfalso. unfold Qdiv at 2 in H. rewrite Qmult_0_l in H. lra. }
  destruct (fl_eq p q ltac:(lia) Q0) as (x & y & e & S1 & Y & -> & X).
  pose proof (scale_val p q e Q0) as V. rewrite S1 in V. destruct V as (_ & V). rewrite V in *.
  destruct (fl_eq r s ltac:(lia) S0) as (x2 & y2 & e2 & S2 & Y2 & -> & X2).
  pose proof (scale_val r s e2 S0) as V2. rewrite S2 in V2. destruct V2 as (_ & V2). rewrite V2 in *.
  unfold fval. cbn [fst snd]. pose proof (pow2_pos e) as E. pose proof (pow2_pos e2) as E2.
  assert (T53 : inject_Z (2 ^ 53) == inject_Z (2 ^ 52) * 2) by reflexivity.
  assert (LO : inject_Z (2 ^ 52) <= inject_Z x / inject_Z y) by (apply Qdiv_Z_le; lia).
  assert (HI : inject_Z x2 / inject_Z y2 < inject_Z (2 ^ 53)) by (apply Qdiv_Z_lt; lia).
  destruct (Z.lt_trichotomy e e2) as [L|[->|L]].
  - assert (R : (rne x y <= 2 ^ 53)%Z) by (apply rne_le; lia). rewrite Zle_Qle in R.
    assert (R2 : (2 ^ 52 <= rne x2 y2)%Z) by (apply rne_ge; lia). rewrite Zle_Qle in R2.
    assert (PE : pow2 e * 2 <= pow2 e2).
    { assert (pow2 e <= pow2 (e2 - 1)) by (apply pow2_le; lia).
      assert (EQ : pow2 (e2 - 1) * 2 == pow2 e2) by (apply (pow2_sub e2 1)). lra. }
    assert (U3 : 0 < inject_Z (2 ^ 52)) by reflexivity.
    apply Qle_trans with (inject_Z (2 ^ 52) * pow2 e2).
    + apply Qle_trans with (inject_Z (2 ^ 53) * pow2 e); [apply Qmult_le_compat_r; [auto|lra]|].
      rewrite T53. nra.
    + apply Qmult_le_compat_r; [auto|lra].
  - apply Qmult_le_compat_r; [|lra]. rewrite <- Zle_Qle. apply rne_mono; auto.
    assert (H1 : inject_Z x / inject_Z y <= inject_Z x2 / inject_Z y2) by (apply (Qmult_le_r _ _ _ E); auto).
    assert (YY : 0 < inject_Z y) by (change 0 with (inject_Z 0); rewrite <- Zlt_Qlt; auto).
    assert (YY2 : 0 < inject_Z y2) by (change 0 with (inject_Z 0); rewrite <- Zlt_Qlt; auto).
    rewrite Zle_Qle, !inject_Z_mult.
    assert (A1 : inject_Z x / inject_Z y * inject_Z y == inject_Z x) by (field; lra).
    assert (A2 : inject_Z x2 / inject_Z y2 * inject_Z y2 == inject_Z x2) by (field; lra).
    rewrite <- A1, <- A2. set (u := inject_Z x / inject_Z y) in *. set (v := inject_Z x2 / inject_Z y2) in *.
    clearbody u v. assert (0 < inject_Z y * inject_Z y2) by (apply Qmult_lt_0_compat; auto). nra.
  - exfalso.
    assert (PE : pow2 e2 * 2 <= pow2 e).
    { assert (pow2 e2 <= pow2 (e - 1)) by (apply pow2_le; lia).
      assert (EQ : pow2 (e - 1) * 2 == pow2 e) by (apply (pow2_sub e 1)). lra. }
    assert (U1 : inject_Z (2 ^ 52) * pow2 e <= inject_Z x / inject_Z y * pow2 e)
      by (apply Qmult_le_compat_r; [auto|lra]).
    assert (U2 : inject_Z x2 / inject_Z y2 * pow2 e2 < inject_Z (2 ^ 53) * pow2 e2)
      by (apply Qmult_lt_r; auto).
    rewrite T53 in U2. assert (U3 : 0 < inject_Z (2 ^ 52)) by reflexivity. nra.
Qed.

Lemma fmul_mono f g n : (0 <= fst f)%Z -> (0 <= fst g)%Z -> (0 <= n)%Z ->
  fval f <= fval g -> fval (fmul f n) <= fval (fmul g n).
Proof.
  intros F G N H. destruct (fmul_eq f n F N) as (a & b & A & B & -> & V).
  destruct (fmul_eq g n G N) as (c & d & C & D & -> & V2).
  apply fl_mono; auto. rewrite V, V2. apply Qmult_le_compat_r; auto.
  change 0 with (inject_Z 0). rewrite <- Zle_Qle. auto.
Qed.
