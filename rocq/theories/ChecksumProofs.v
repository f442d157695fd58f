(* Lemmas about checksum requests. *)
From Coq Require Import ZArith List Bool Ascii String Lia.
From Coq.Strings Require Import Byte.
From Verif Require Import BytesLib HeaderModel HeaderSpec HeaderProofs HttpModel OpsModel ImagesModel
  BlkhashModel BlkhashSpec BlkhashProofs ChecksumModel ChecksumSpec.
From Verif Require BlkhashTheorems.
Import ListNotations.
Open Scope Z_scope.

(* ---- texts of integers ---- *)

Lemma space_spec c : space c <-> is_space c = true.
Proof.
  unfold space, is_space. rewrite !orb_true_iff, !andb_true_iff, !N.leb_le, !N.eqb_eq. lia.
Qed.

Lemma lstrip_spec s : exists a, s = a ++ lstrip s /\ Forall space a /\
  (forall c r, lstrip s = c :: r -> is_space c = false).
Proof.
  induction s as [|c s (a & E & A & H)]; cbn [lstrip].
  - exists []. repeat split; auto. discriminate.
  - destruct (is_space c) eqn:S.
    + exists (c :: a). cbn. rewrite <- E. repeat split; auto. constructor; auto. now apply space_spec.
    + exists []. repeat split; auto. intros ? ? [= <- <-]. auto.
Qed.
Lemma lstrip_app a s : Forall space a -> (forall c r, s = c :: r -> is_space c = false) -> lstrip (a ++ s) = s.
Proof.
  induction 1 as [|c a C A IH]; intros H; cbn [app lstrip].
  - destruct s as [|c r]; auto. cbn. now rewrite (H c r eq_refl).
  - apply space_spec in C. rewrite C. auto.
Qed.
Lemma strip_split s : exists a b, s = a ++ strip s ++ b /\ Forall space a /\ Forall space b.
Proof.
  destruct (lstrip_spec s) as (a & E & A & _).
  destruct (lstrip_spec (rev (lstrip s))) as (b & F & B & _).
  exists a, (rev b). split; [|split; auto; now apply Forall_rev].
  rewrite E at 1. f_equal. unfold strip. rewrite <- rev_app_distr, <- F, rev_involutive. reflexivity.
Qed.
Lemma strip_core a m b : Forall space a -> Forall space b ->
  (forall c r, m = c :: r -> is_space c = false) -> (forall c r, m = r ++ [c] -> is_space c = false) ->
  m <> [] -> strip (a ++ m ++ b) = m.
Proof.
  intros A B H1 H2 N. unfold strip. rewrite lstrip_app; auto.
  - rewrite rev_app_distr, lstrip_app, rev_involutive; auto.
    + now apply Forall_rev.
    + intros c r E. apply (H2 c (rev r)). rewrite <- (rev_involutive m), E. reflexivity.
  - intros c r E. destruct m as [|c' m]; [congruence|]. injection E as -> _. eapply H1; reflexivity.
Qed.

Lemma digit_true c v : digit c v -> is_digit c = true.
Proof. intros H. now apply digit_is_digit in H. Qed.

Lemma int_digits_spec d : forall s, int_digits s = Some d <-> grouped s d.
Proof.
  intros s. split.
  - revert d. induction s as [s IH] using (induction_ltof1 _ (@List.length ascii)). unfold ltof in IH.
    intros d. destruct s as [|c s]; cbn [int_digits]; [discriminate|].
    destruct (is_digit c) eqn:C; [|discriminate].
    assert (D : digit c (digit_val c)) by now apply digit_is_digit.
    destruct s as [|e s].
    + intros [= <-]. econstructor; eauto.
    + destruct (Ascii.eqb_spec e "_").
      * subst e. destruct (int_digits s) as [l|] eqn:L; [|discriminate]. intros [= <-].
        eapply grouped_under; [exact D|]. apply IH; [cbn; lia|auto].
      * destruct (int_digits (e :: s)) as [l|] eqn:L; [|discriminate]. intros [= <-].
        eapply grouped_more; [exact D|]. apply IH; [cbn; lia|auto].
  - induction 1 as [c v D|c v s d D G IH|c v s d D G IH]; cbn [int_digits]; rewrite (digit_true _ _ D); auto.
    + destruct s as [|e s]; [inversion G|]. destruct (Ascii.eqb_spec e "_") as [->|].
      * inversion G as [x w DX|x w ? ? DX|x w ? ? DX]; apply digit_true in DX; discriminate DX.
      * now rewrite IH.
    + rewrite IH. reflexivity.
Qed.

Lemma grouped_ends s d : grouped s d -> s <> [] /\
  (forall c r, s = c :: r -> is_digit c = true) /\ (forall c r, s = r ++ [c] -> is_digit c = true) /\
  Forall (fun c => is_digit c = true) d /\ d <> [].
Proof.
  induction 1 as [c v D|c v s d D G (N & F & L & DD & _)|c v s d D G (N & F & L & DD & _)]; apply digit_true in D.
  - split; [discriminate|]. split; [intros ? ? [= <- <-]; auto|]. split; [|split; [auto|discriminate]].
    intros x r E. destruct r as [|y [|]]; try discriminate. injection E as <-. auto.
  - split; [discriminate|]. split; [intros ? ? [= <- <-]; auto|]. split; [|split; [auto|discriminate]].
    intros x r E. destruct r as [|y r]; [injection E as _ ->; congruence|]. injection E as _ E. eauto.
  - split; [discriminate|]. split; [intros ? ? [= <- <-]; auto|]. split; [|split; [auto|discriminate]].
    intros x r E. destruct r as [|y [|z r]]; try discriminate.
    + injection E as _ _ ->. congruence.
    + injection E as _ _ E. eauto.
Qed.

Lemma not_space_sign c : c = "+"%char \/ c = "-"%char -> is_space c = false.
Proof. intros [->| ->]; reflexivity. Qed.
Lemma digit_not_sign c : is_digit c = true -> Ascii.eqb c "-" = false /\ Ascii.eqb c "+" = false.
Proof.
  intros H. destruct (Ascii.eqb_spec c "-"), (Ascii.eqb_spec c "+"); subst; try discriminate H; auto.
Qed.

Lemma py_int_text s n : py_int None s = inl n <-> int_text s n.
Proof.
  assert (V : forall t d m, grouped t d -> decimal d m -> int_digits t = Some d /\ int_of_digits None d = inl m).
  { intros t d m G D. split; [now apply int_digits_spec|]. apply decimal_spec in D as (_ & _ & <-). reflexivity. }
  split.
  - intros H. unfold py_int in H. destruct (strip_split s) as (a & b & E & A & B). rewrite E.
    set (m := strip s) in *. clearbody m. clear E.
    assert (G : forall sg t, match int_digits t with
                | None => inr ValueError
                | Some ds => do n <- int_of_digits None ds ; inl (sg * n)
                end = inl n -> exists d k, grouped t d /\ decimal d k /\ n = sg * k).
    { intros sg t X. destruct (int_digits t) as [d|] eqn:I; [|discriminate]. apply int_digits_spec in I.
      rewrite int_of_digits_none in X. cbn [bind] in X. injection X as <-. exists d, (value d). split; auto.
      split; auto. apply decimal_spec. destruct (grouped_ends _ _ I) as (_ & _ & _ & D & N). auto. }
    destruct m as [|c r]; [discriminate H|].
    destruct (Ascii.eqb_spec c "-") as [->|].
    { apply G in H as (d & k & G1 & D & ->). replace (-1 * k) with (- k) by lia. cbn [app]. econstructor; eauto. }
    destruct (Ascii.eqb_spec c "+") as [->|].
    { apply G in H as (d & k & G1 & D & ->). rewrite Z.mul_1_l. cbn [app]. econstructor; eauto. }
    apply G in H as (d & k & G1 & D & ->). rewrite Z.mul_1_l. econstructor; eauto.
  - intros H. unfold py_int. destruct H as [a t d b n A G D B|a t d b n A G D B|a t d b n A G D B];
      destruct (V _ _ _ G D) as [V1 V2]; destruct (grouped_ends _ _ G) as (N & F & L & _).
    + rewrite strip_core; auto.
      * destruct t as [|c r]; [congruence|]. destruct (digit_not_sign c (F c r eq_refl)) as [-> ->].
        rewrite V1, V2. cbn [bind]. f_equal. lia.
      * intros c r E. apply digit_not_space; eauto.
      * intros c r E. apply digit_not_space; eauto.
    + change (a ++ "+"%char :: t ++ b) with (a ++ ("+"%char :: t) ++ b). rewrite strip_core; auto.
      * cbn -[Z.mul int_of_digits int_digits]. rewrite V1, V2. cbn [bind]. f_equal. lia.
      * intros c r [= <- <-]. reflexivity.
      * intros c r E. destruct r as [|x r]; [injection E as _ ->; congruence|]. injection E as _ E.
        apply digit_not_space; eauto.
      * discriminate.
    + change (a ++ "-"%char :: t ++ b) with (a ++ ("-"%char :: t) ++ b). rewrite strip_core; auto.
      * cbn -[Z.mul int_of_digits int_digits]. rewrite V1, V2. cbn [bind]. f_equal; lia.
      * intros c r [= <- <-]. reflexivity.
      * intros c r E. destruct r as [|x r]; [injection E as _ ->; congruence|]. injection E as _ E.
        apply digit_not_space; eauto.
      * discriminate.
Qed.

(* A limit of the number of digits only makes more texts fail. *)
Lemma py_int_lim lim s n : py_int lim s = inl n -> py_int None s = inl n.
Proof.
  unfold py_int. destruct (match strip s with [] => _ | _ => _ end) as [sg t].
  destruct (int_digits t) as [d|]; auto. unfold int_of_digits.
  destruct lim as [l|]; auto. destruct (l <? _); [discriminate|auto].
Qed.
Lemma int_digits_length t : forall d, int_digits t = Some d -> (List.length d <= List.length t)%nat.
Proof.
  intros d H. apply int_digits_spec in H. induction H; cbn; lia.
Qed.
Lemma py_int_short lim s n : (forall l, lim = Some l -> Z.of_nat (List.length s) <= l) ->
  py_int None s = inl n -> py_int lim s = inl n.
Proof.
  intros L. destruct lim as [l|]; auto. specialize (L l eq_refl). unfold py_int.
  destruct (strip_split s) as (a & b & E & _). assert (LS : (List.length (strip s) <= List.length s)%nat).
  { rewrite E at 2. rewrite !app_length. lia. }
  clear E. destruct (strip s) as [|c r]; [auto|].
  assert (X : forall sg t, (List.length t <= List.length (c :: r))%nat ->
    match int_digits t with None => inr ValueError | Some ds => do n <- int_of_digits None ds ; inl (sg * n) end = inl n ->
    match int_digits t with None => inr ValueError | Some ds => do n <- int_of_digits (Some l) ds ; inl (sg * n) end = inl n).
  { intros sg t LT. destruct (int_digits t) as [d|] eqn:I; auto. apply int_digits_length in I.
    rewrite int_of_digits_lim; auto. lia. }
  destruct (Ascii.eqb c "-"); [apply X; cbn; lia|]. destruct (Ascii.eqb c "+"); apply X; cbn; lia.
Qed.

(* ---- the query ---- *)

Lemma str_eqb_spec a b : str_eqb a b = true <-> a = b.
Proof.
  split.
  2: { intros ->. induction b as [|x b IH]; cbn; auto. rewrite Ascii.eqb_refl. auto. }
  revert b. induction a as [|x a IH]; intros [|y b]; cbn; try discriminate; auto.
  rewrite andb_true_iff. intros [H1 H2]. apply Ascii.eqb_eq in H1. f_equal; auto.
Qed.

Lemma lookup_parameter q name r : lookup q name = r <-> parameter name q r.
Proof.
  split.
  - intros <-. induction q as [|[k v] q IH]; cbn [lookup].
    + constructor. intros v [].
    + destruct (str_eqb k name) eqn:E.
      * apply str_eqb_spec in E. subst. apply (a_parameter name [] v q). intros w [].
      * assert (N : k <> name) by (intros ->; rewrite (proj2 (str_eqb_spec name name) eq_refl) in E; discriminate).
        destruct IH as [q H|p w q H].
        -- constructor. intros x [I|I]; [congruence|]. eapply H; eauto.
        -- apply (a_parameter name ((k, v) :: p)). intros x [I|I]; [congruence|]. eapply H; eauto.
  - assert (G : forall (p : list (str * str)) v q, (forall w, ~ In (name, w) p) -> lookup (p ++ (name, v) :: q) name = Some v).
    { induction p as [|[k w] p IH]; intros v q' H; cbn [app lookup].
      - now rewrite (proj2 (str_eqb_spec name name) eq_refl).
      - destruct (str_eqb k name) eqn:E.
        + apply str_eqb_spec in E. subst. destruct (H w). now left.
        + apply IH. intros x I. apply (H x). now right. }
    intros [q' H|p v q' H]; auto.
    induction q' as [|[k v] q' IH]; cbn [lookup]; auto. destruct (str_eqb k name) eqn:E.
    + apply str_eqb_spec in E. subst. destruct (H v). now left.
    + apply IH. intros w I. apply (H w). now right.
Qed.

Lemma enum_query_spec q algs a : enum_query q (lits "algorithm") algs (lits ALGORITHM) = inl a <->
  asks_algorithm q algs a.
Proof.
  unfold enum_query, asks_algorithm. destruct (lookup q (lits "algorithm")) as [s|] eqn:E;
    apply lookup_parameter in E.
  - destruct (existsb (str_eqb s) algs) eqn:X.
    + apply existsb_exists in X as (y & I & Y). apply str_eqb_spec in Y. subst y. split.
      * intros [= <-]. right. auto.
      * intros [[P _]|[P _]]; apply lookup_parameter in P, E; change (lit "algorithm") with (lits "algorithm") in P;
          congruence.
    + split; [discriminate|]. intros [[P _]|[P I]]; apply lookup_parameter in P, E;
        change (lit "algorithm") with (lits "algorithm") in P; [congruence|].
      rewrite E in P. injection P as ->. rewrite <- not_true_iff_false, existsb_exists in X.
      destruct X. exists a. split; auto. now apply str_eqb_spec.
  - split; [intros [= <-]; left; auto|]. intros [[_ ->]|[P _]]; auto.
    apply lookup_parameter in P, E. change (lit "algorithm") with (lits "algorithm") in P. congruence.
Qed.
Lemma enum_query_error q name algs d e : enum_query q name algs d = inr e -> e = EHttp 400.
Proof.
  unfold enum_query. destruct (lookup q name); [|discriminate]. destruct (existsb _ _); [discriminate|].
  intros [= <-]. reflexivity.
Qed.

Lemma block_size_spec lim q n : block_size_arg lim q = inl n -> asks_block_size q n /\ allowed_block_size n.
Proof.
  unfold block_size_arg, asks_block_size, allowed_block_size.
  destruct (lookup q (lits "block_size")) as [s|] eqn:E; apply lookup_parameter in E.
  - destruct (py_int lim s) as [k|] eqn:P; [|discriminate]. apply py_int_lim, py_int_text in P.
    unfold MIN_BLOCK_SIZE, MAX_BLOCK_SIZE, BLOCK_SIZE. change (4194304 / 4) with 1048576. change (4194304 * 4) with 16777216.
    destruct (Z.leb_spec 1048576 k), (Z.leb_spec k 16777216); cbn [negb andb]; try discriminate.
    destruct (Z.eqb_spec (k mod 4096) 0); [|discriminate]. intros [= <-]. split; [right; eauto|].
    split; [lia|]. apply Z.mod_divide; lia.
  - intros H. assert (n = 4194304) as -> by (revert H; vm_compute; congruence). split; [left; auto|]. split; [lia|]. exists 1024. reflexivity.
Qed.
Lemma block_size_complete lim q n : (forall s l, In (lits "block_size", s) q -> lim = Some l -> Z.of_nat (List.length s) <= l) ->
  asks_block_size q n -> allowed_block_size n -> block_size_arg lim q = inl n.
Proof.
  intros L H [R M]. unfold block_size_arg. destruct H as [[P ->]|(s & P & T)].
  - apply lookup_parameter in P. change (lit "block_size") with (lits "block_size") in P. rewrite P. reflexivity.
  - assert (I : In (lits "block_size", s) q).
    { inversion P; subst. apply in_app_iff. right. now left. }
    apply lookup_parameter in P. change (lit "block_size") with (lits "block_size") in P. rewrite P.
    apply py_int_text in T. rewrite (py_int_short lim s n); eauto.
    unfold MIN_BLOCK_SIZE, MAX_BLOCK_SIZE, BLOCK_SIZE. change (4194304 / 4) with 1048576. change (4194304 * 4) with 16777216.
    destruct (Z.leb_spec 1048576 n), (Z.leb_spec n 16777216); try lia. cbn [negb andb].
    apply Z.mod_divide in M; [|lia]. rewrite M. reflexivity.
Qed.
Lemma block_size_error lim q e : block_size_arg lim q = inr e -> e = EHttp 400.
Proof.
  unfold block_size_arg. destruct (match lookup q _ with None => _ | Some _ => _ end); [|congruence].
  destruct (negb _); [congruence|]. destruct (negb _); congruence.
Qed.

(* ---- the reads ---- *)

Lemma run_blocks_reads func img detect (P : Z * Z -> Prop) : forall blocks ans s s' o,
  (forall b, In b blocks -> b_zero b = false -> P (b_start b, b_length b)) ->
  (forall b, In b blocks -> 0 < b_length b <= zlen (c_buf s)) ->
  Forall P (c_reads s) -> run_blocks func img detect blocks ans s = (s', o) -> Forall P (c_reads s').
Proof.
  induction blocks as [|b blocks IH]; intros ans s s' o HP HL H R.
  - cbn in R. injection R as <- <-. auto.
  - cbn [run_blocks] in R. set (a := hd (CAns None false) ans) in *.
    destruct (run_block func img detect b a s) as [s1 o1] eqn:RB.
    assert (X : Forall P (c_reads s1) /\ (o1 = None -> zlen (c_buf s1) = zlen (c_buf s))).
    { unfold run_block in RB. destruct (b_zero b) eqn:Z0.
      - injection RB as <- _. cbn. auto.
      - pose proof (HL b (or_introl eq_refl)) as L1.
        assert (PS : py_stop (b_length b) (zlen (c_buf s)) = b_length b).
        { unfold py_stop. destruct (Z.ltb_spec (b_length b) 0); [lia|]. lia. }
        rewrite PS in RB.
        assert (FR : Forall P (c_reads s ++ [(b_start b, b_length b)])).
        { apply Forall_app. split; auto. constructor; auto. apply HP; auto. now left. }
        destruct (ca_count a) as [k|].
        + injection RB as <- <-. cbn [c_reads c_buf]. split; auto. intros _.
          rewrite zlen_splice_inside; [lia|lia|]. rewrite zlen_sub. unfold clamp. lia.
        + injection RB as <- <-. cbn [c_reads]. split; [auto|discriminate]. }
    destruct X as [X1 X2]. destruct o1 as [o1|].
    + injection R as <- <-. auto.
    + eapply IH; [| |exact X1|exact R].
      * intros b' I. apply HP. now right.
      * intros b' I. rewrite X2 by auto. apply HL. now right.
Qed.
