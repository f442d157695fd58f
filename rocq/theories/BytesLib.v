(* Byte strings indexed by Z, as used by all the models: Python slicing of
   bytes/memoryview objects and overwriting a range of a file. *)
From Coq Require Import ZArith List Lia Bool.
From Coq.Init Require Export Byte.
Import ListNotations.
Open Scope Z_scope.

(* Python len(). *)
(* Python semantics, no line of /repo. *)
Definition zlen {A} (l : list A) : Z := Z.of_nat (length l).

(* l[:n] and l[n:] for n >= 0 (n < 0 counts as 0; Python's negative indexes
   are [py_stop] below). *)
(* Python semantics, no line of /repo. *)
Definition take {A} (n : Z) (l : list A) : list A := firstn (Z.to_nat n) l.
(* Python semantics, no line of /repo. *)
Definition drop {A} (n : Z) (l : list A) : list A := skipn (Z.to_nat n) l.

(* the n elements of l starting at off *)
(* Python semantics, no line of /repo. *)
Definition sub {A} (off n : Z) (l : list A) : list A := take n (drop off l).

(* Python: normalise a slice bound of a sequence of length len. *)
(* Python semantics, no line of /repo. *)
Definition py_stop (i len : Z) : Z :=
  if i <? 0 then Z.max 0 (len + i) else Z.min i len.

(* Python: l[i:j]. *)
(* Python semantics, no line of /repo. *)
Definition py_slice {A} (i j : Z) (l : list A) : list A :=
  let i' := py_stop i (zlen l) in
  let j' := py_stop j (zlen l) in
  sub i' (j' - i') l.

(* Byte at an offset; bytes outside of the string read as zero. *)
(* Auxiliary, no line of /repo. *)
Definition getb (l : list byte) (i : Z) : byte :=
  if i <? 0 then x00 else nth (Z.to_nat i) l x00.

(* Auxiliary, no line of /repo. *)
Definition zeros (n : Z) : list byte := repeat x00 (Z.to_nat n).

(* Content of a file after data is written at pos: a gap after the end of the
   file is filled with zeros; writing nothing changes nothing (POSIX). *)
(* POSIX semantics, no line of /repo. *)
Definition splice (l : list byte) (pos : Z) (d : list byte) : list byte :=
  match d with
  | [] => l
  | _ => take pos (l ++ zeros (pos - zlen l)) ++ d ++ drop (pos + zlen d) l
  end.

(* ---- lemmas ---- *)

Lemma zlen_nonneg {A} (l : list A) : 0 <= zlen l.
Proof. unfold zlen; lia. Qed.

Lemma zlen_nil {A} : zlen (@nil A) = 0.
Proof. reflexivity. Qed.

Lemma zlen_cons {A} (x : A) l : zlen (x :: l) = 1 + zlen l.
Proof. unfold zlen; cbn [length]; lia. Qed.

Lemma zlen_app {A} (l m : list A) : zlen (l ++ m) = zlen l + zlen m.
Proof. unfold zlen; rewrite app_length; lia. Qed.

Lemma zlen_take {A} n (l : list A) : zlen (take n l) = Z.max 0 (Z.min n (zlen l)).
Proof. unfold zlen, take; rewrite firstn_length; lia. Qed.

Lemma zlen_drop {A} n (l : list A) : zlen (drop n l) = Z.max 0 (zlen l - Z.max 0 n).
Proof. unfold zlen, drop; rewrite skipn_length; lia. Qed.

Lemma zlen_sub {A} o n (l : list A) :
  zlen (sub o n l) = Z.max 0 (Z.min n (zlen l - Z.max 0 o)).
Proof. unfold sub; rewrite zlen_take, zlen_drop; lia. Qed.

Lemma zlen_zeros n : zlen (zeros n) = Z.max 0 n.
Proof. unfold zlen, zeros; rewrite repeat_length; lia. Qed.

Lemma zlen_0 {A} (l : list A) : zlen l = 0 -> l = [].
Proof. destruct l; auto. rewrite zlen_cons. pose proof (zlen_nonneg l). lia. Qed.

Lemma zlen_pos {A} (l : list A) : l <> [] -> 0 < zlen l.
Proof. destruct l; [tauto|]. rewrite zlen_cons. pose proof (zlen_nonneg l). lia. Qed.

Lemma take_nonpos {A} n (l : list A) : n <= 0 -> take n l = [].
Proof. intros. unfold take. replace (Z.to_nat n) with O by lia. reflexivity. Qed.

Lemma drop_nonpos {A} n (l : list A) : n <= 0 -> drop n l = l.
Proof. intros. unfold drop. replace (Z.to_nat n) with O by lia. reflexivity. Qed.

Lemma take_all {A} n (l : list A) : zlen l <= n -> take n l = l.
Proof. intros. unfold take, zlen in *. apply firstn_all2. lia. Qed.

Lemma drop_all {A} n (l : list A) : zlen l <= n -> drop n l = [].
Proof. intros. unfold drop, zlen in *. apply skipn_all2. lia. Qed.

Lemma take_drop {A} n (l : list A) : take n l ++ drop n l = l.
Proof. apply firstn_skipn. Qed.

Lemma skipn_skipn_plus {A} n m (l : list A) : skipn n (skipn m l) = skipn (m + n) l.
Proof.
  revert l; induction m; intros l; cbn; auto. destruct l; cbn; auto. now rewrite !skipn_nil.
Qed.

Lemma drop_drop {A} n m (l : list A) : 0 <= n -> 0 <= m -> drop n (drop m l) = drop (m + n) l.
Proof.
  intros. unfold drop. rewrite skipn_skipn_plus. f_equal. lia.
Qed.

Lemma take_take {A} n m (l : list A) : take n (take m l) = take (Z.min n m) l.
Proof.
  unfold take. rewrite firstn_firstn. f_equal. lia.
Qed.

Lemma take_app {A} n (l m : list A) : take n (l ++ m) = take n l ++ take (n - zlen l) m.
Proof. unfold take, zlen. rewrite firstn_app. do 2 f_equal. lia. Qed.

Lemma drop_app {A} n (l m : list A) : drop n (l ++ m) = drop n l ++ drop (n - zlen l) m.
Proof. unfold drop, zlen. rewrite skipn_app. do 2 f_equal. lia. Qed.

Lemma sub_split {A} o n m (l : list A) :
  0 <= o -> 0 <= n -> 0 <= m ->
  sub o (n + m) l = sub o n l ++ sub (o + n) m l.
Proof.
  intros. unfold sub. rewrite <- (drop_drop n o) by lia.
  set (k := drop o l). unfold take, drop.
  replace (Z.to_nat (n + m)) with (Z.to_nat n + Z.to_nat m)%nat by lia.
  clearbody k. generalize (Z.to_nat n) as a. intros a. revert k.
  induction a; intros; cbn; auto. destruct k; cbn; [now rewrite firstn_nil|]. now rewrite IHa.
Qed.

Lemma take_sub {A} k o n (l : list A) : k <= n -> take k (sub o n l) = sub o k l.
Proof. intros. unfold sub. rewrite take_take. f_equal. lia. Qed.

Lemma drop_sub {A} k o n (l : list A) :
  0 <= k -> 0 <= o -> drop k (sub o n l) = sub (o + k) (n - k) l.
Proof.
  intros. unfold sub, take, drop. 
  replace (Z.to_nat (o + k)) with (Z.to_nat o + Z.to_nat k)%nat by lia.
  rewrite <- skipn_skipn_plus. rewrite skipn_firstn_comm. f_equal. lia.
Qed.

Lemma take_split {A} n m (l : list A) : 0 <= n -> 0 <= m ->
  take (n + m) l = take n l ++ take m (drop n l).
Proof.
  intros. pose proof (sub_split 0 n m l ltac:(lia) H H0) as E. unfold sub in E.
  rewrite (drop_nonpos 0 l) in E by lia. exact E.
Qed.

Lemma py_stop_bounds i n : 0 <= n -> 0 <= py_stop i n <= n.
Proof. unfold py_stop. destruct (i <? 0) eqn:E; lia. Qed.

Lemma py_stop_nonneg i n : 0 <= i -> py_stop i n = Z.min i n.
Proof. unfold py_stop. intros. destruct (i <? 0) eqn:E; lia. Qed.

Lemma py_slice_nonneg {A} i j (l : list A) :
  0 <= i -> 0 <= j -> py_slice i j l = sub i (j - i) l.
Proof.
  intros. unfold py_slice. rewrite !py_stop_nonneg by auto.
  pose proof (zlen_nonneg l).
  destruct (Z.le_gt_cases i (zlen l)).
  - rewrite (Z.min_l i) by auto. unfold sub.
    destruct (Z.le_gt_cases j (zlen l)); [now rewrite Z.min_l by auto|].
    rewrite (Z.min_r j) by lia. rewrite !take_all; auto; rewrite zlen_drop; lia.
  - rewrite (Z.min_r i) by lia. unfold sub. rewrite !(drop_all) by lia.
    unfold take. now rewrite !firstn_nil.
Qed.

(* pointwise view *)

Lemma getb_neg l i : i < 0 -> getb l i = x00.
Proof. intros. unfold getb. destruct (i <? 0) eqn:E; [auto|lia]. Qed.

Lemma getb_nonneg l i : 0 <= i -> getb l i = nth (Z.to_nat i) l x00.
Proof. intros. unfold getb. destruct (i <? 0) eqn:E; [lia|auto]. Qed.

Lemma getb_past l i : zlen l <= i -> getb l i = x00.
Proof.
  intros. pose proof (zlen_nonneg l). rewrite getb_nonneg by lia.
  apply nth_overflow. unfold zlen in *. lia.
Qed.

Lemma getb_app l m i : 0 <= i ->
  getb (l ++ m) i = if i <? zlen l then getb l i else getb m (i - zlen l).
Proof.
  intros. rewrite getb_nonneg by auto. unfold zlen. destruct (i <? _) eqn:E.
  - rewrite app_nth1 by lia. now rewrite getb_nonneg.
  - rewrite app_nth2 by lia. rewrite getb_nonneg by lia. f_equal. lia.
Qed.

Lemma nth_firstn_lt {A} n i (l : list A) d : (i < n)%nat -> nth i (firstn n l) d = nth i l d.
Proof.
  revert i l; induction n; intros i l H; [lia|].
  destruct l; cbn; [now destruct i|]. destruct i; auto. apply IHn. lia.
Qed.

Lemma nth_skipn_plus {A} n i (l : list A) d : nth i (skipn n l) d = nth (n + i) l d.
Proof.
  revert l; induction n; intros l; cbn; auto. destruct l; [now destruct i|apply IHn].
Qed.

Lemma getb_take n l i : 0 <= i -> getb (take n l) i = if i <? n then getb l i else x00.
Proof.
  intros. rewrite getb_nonneg by auto. unfold take. destruct (i <? n) eqn:E.
  - rewrite nth_firstn_lt by lia. now rewrite getb_nonneg.
  - apply nth_overflow. rewrite firstn_length. lia.
Qed.

Lemma getb_drop n l i : 0 <= i -> 0 <= n -> getb (drop n l) i = getb l (n + i).
Proof.
  intros. rewrite !getb_nonneg by lia. unfold drop. rewrite nth_skipn_plus. f_equal. lia.
Qed.

Lemma getb_sub o n l i : 0 <= i -> 0 <= o ->
  getb (sub o n l) i = if i <? n then getb l (o + i) else x00.
Proof.
  intros. unfold sub. rewrite getb_take by auto. destruct (i <? n); auto. now rewrite getb_drop.
Qed.

Lemma getb_zeros n i : getb (zeros n) i = x00.
Proof.
  unfold getb, zeros. destruct (i <? 0); auto.
  destruct (Nat.lt_ge_cases (Z.to_nat i) (Z.to_nat n)) as [L|L].
  - now rewrite nth_repeat.
  - apply nth_overflow. now rewrite repeat_length.
Qed.

Lemma bytes_ext l m :
  zlen l = zlen m -> (forall i, 0 <= i < zlen l -> getb l i = getb m i) -> l = m.
Proof.
  intros L H. apply nth_ext with (d := x00) (d' := x00).
  - unfold zlen in L. lia.
  - intros n Hn. specialize (H (Z.of_nat n)). rewrite !getb_nonneg in H by lia.
    rewrite Nat2Z.id in H. apply H. unfold zlen. lia.
Qed.

Lemma zlen_splice l pos d : 0 <= pos ->
  zlen (splice l pos d) = match d with [] => zlen l | _ => Z.max (zlen l) (pos + zlen d) end.
Proof.
  intros. destruct d as [|b d]; auto. unfold splice.
  rewrite !zlen_app, zlen_take, zlen_drop, zlen_app, zlen_zeros.
  pose proof (zlen_nonneg l). pose proof (zlen_nonneg (b :: d)). lia.
Qed.

Lemma getb_splice l pos d i : 0 <= pos ->
  getb (splice l pos d) i =
  if (pos <=? i) && (i <? pos + zlen d) then getb d (i - pos) else getb l i.
Proof.
  intros. destruct (Z.lt_ge_cases i 0).
  { rewrite (getb_neg _ i), (getb_neg l i) by auto. destruct (pos <=? i) eqn:E; [lia|]. reflexivity. }
  destruct d as [|b d].
  { cbn [splice]. rewrite zlen_nil. destruct (pos <=? i) eqn:E, (i <? pos + 0) eqn:E2; auto; lia. }
  unfold splice. set (e := b :: d). clearbody e. pose proof (zlen_nonneg l). pose proof (zlen_nonneg e).
  assert (LT : zlen (take pos (l ++ zeros (pos - zlen l))) = pos).
  { rewrite zlen_take, zlen_app, zlen_zeros. lia. }
  rewrite getb_app by auto. rewrite LT. destruct (i <? pos) eqn:E1.
  - rewrite getb_take by auto. rewrite E1. rewrite getb_app by auto.
    replace (pos <=? i) with false by lia. cbn. destruct (i <? zlen l) eqn:E2; auto.
    rewrite getb_zeros. rewrite getb_past by lia. auto.
  - replace (pos <=? i) with true by lia. cbn. rewrite getb_app by lia.
    replace (i - pos <? zlen e) with (i <? pos + zlen e) by lia.
    destruct (i <? pos + zlen e) eqn:E2; auto. rewrite getb_drop by lia. f_equal. lia.
Qed.

Lemma splice_app l pos d e : 0 <= pos ->
  splice (splice l pos d) (pos + zlen d) e = splice l pos (d ++ e).
Proof.
  intros. pose proof (zlen_nonneg d). pose proof (zlen_nonneg e). pose proof (zlen_nonneg l).
  destruct d as [|b d].
  { cbn [splice app]. rewrite zlen_nil, Z.add_0_r. reflexivity. }
  destruct e as [|c e].
  { rewrite app_nil_r. reflexivity. }
  apply bytes_ext.
  - rewrite !zlen_splice by lia. cbn [app]. set (x := b :: d) in *. set (y := c :: e) in *.
    change (b :: d ++ y) with (x ++ y). rewrite zlen_app. lia.
  - intros i Hi. rewrite !getb_splice by lia. rewrite zlen_app.
    set (x := b :: d) in *. set (y := c :: e) in *.
    destruct (pos + zlen x <=? i) eqn:E1, (i <? pos + zlen x + zlen y) eqn:E2; cbn [andb].
    + replace (pos <=? i) with true by lia. replace (i <? pos + (zlen x + zlen y)) with true by lia.
      cbn [andb]. rewrite getb_app by lia. replace (i - pos <? zlen x) with false by lia.
      f_equal. lia.
    + replace (i <? pos + (zlen x + zlen y)) with false by lia.
      replace (i <? pos + zlen x) with false by lia. rewrite !andb_false_r. reflexivity.
    + destruct (pos <=? i) eqn:E3; cbn [andb]; auto.
      replace (i <? pos + zlen x) with true by lia.
      replace (i <? pos + (zlen x + zlen y)) with true by lia.
      rewrite getb_app by lia. replace (i - pos <? zlen x) with true by lia. reflexivity.
    + destruct (pos <=? i) eqn:E3; cbn [andb]; auto.
      replace (i <? pos + (zlen x + zlen y)) with false by lia. lia.
Qed.

Lemma zeros_app n m : 0 <= n -> 0 <= m -> zeros n ++ zeros m = zeros (n + m).
Proof.
  intros. unfold zeros. replace (Z.to_nat (n + m)) with (Z.to_nat n + Z.to_nat m)%nat by lia.
  now rewrite repeat_app.
Qed.

Lemma take_zeros n m : 0 <= n <= m -> take n (zeros m) = zeros n.
Proof.
  intros. apply bytes_ext.
  - rewrite zlen_take, !zlen_zeros. lia.
  - intros i Hi. rewrite getb_take, !getb_zeros by lia. now destruct (i <? n).
Qed.
