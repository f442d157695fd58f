From Coq Require Import ZArith List Bool Lia String.
From Verif Require Import BytesLib HeaderModel HttpModel OpsModel OpsTheorems ImagesModel ImagesSpec ExtentsModel ExtentsSpec
  ClientIoSpec HttpBackendModel HttpBackendSpec HttpBackendProofs HttpBackendTheorems ApiModel ApiSpec ApiProofs ApiTheorems
  TransferSpec TransferProofs StreamModel StreamSpec.
Import ListNotations.
Open Scope Z_scope.
Ltac inv H := inversion H; subst; clear H.

(* ---- numbers ---- *)

Definition num (w : nat) (n : Z) : list byte :=
  map (fun i => nibble (n / 16 ^ (Z.of_nat w - 1 - Z.of_nat i) mod 16)) (seq 0 w).

Lemma number_num n : number n = num 16 n.
Proof. reflexivity. Qed.

Lemma num_length w n : List.length (num w n) = w.
Proof. unfold num. rewrite map_length, seq_length. auto. Qed.

Lemma num_cons w n : num (S w) n = nibble (n / 16 ^ Z.of_nat w mod 16) :: num w n.
Proof.
  unfold num. cbn [seq map]. f_equal.
  - do 4 f_equal. lia.
  - rewrite <- seq_shift, map_map. apply map_ext. intros i. do 4 f_equal. lia.
Qed.

Lemma num_snoc w n : num (S w) n = num w (n / 16) ++ [nibble (n mod 16)].
Proof.
  unfold num. rewrite seq_S, map_app. cbn [map plus]. f_equal.
  - apply map_ext_in. intros i I. apply in_seq in I. do 2 f_equal.
    rewrite Z.div_div by (try lia; apply Z.pow_pos_nonneg; lia). f_equal.
    rewrite <- Z.pow_succ_r by lia. f_equal. lia.
  - do 2 f_equal. replace (Z.of_nat (S w) - 1 - Z.of_nat w) with 0 by lia. rewrite Z.pow_0_r, Z.div_1_r. auto.
Qed.

Lemma nibble_cases d : 0 <= d < 16 -> hex_digit d = nibble d /\ digit_value (nibble d) = Some d /\
  is_space (nibble d) = false /\ ord (nibble d) <> 95 /\ ord (nibble d) <> 45 /\ ord (nibble d) <> 43 /\
  ord (nibble d) <> 32 /\ ord (nibble d) <> 120 /\ ord (nibble d) <> 88.
Proof.
  intros D. assert (C : d = 0 \/ d = 1 \/ d = 2 \/ d = 3 \/ d = 4 \/ d = 5 \/ d = 6 \/ d = 7 \/ d = 8 \/ d = 9 \/
    d = 10 \/ d = 11 \/ d = 12 \/ d = 13 \/ d = 14 \/ d = 15) by lia.
  repeat (destruct C as [->|C]; [repeat split; vm_compute; discriminate || reflexivity|]).
  subst. repeat split; vm_compute; discriminate || reflexivity.
Qed.

Lemma hex_loop_acc : forall f n acc, hex_loop f n acc = hex_loop f n [] ++ acc.
Proof.
  induction f as [|f IH]; intros n acc; cbn [hex_loop]; auto.
  destruct (n / 16 =? 0); auto. rewrite IH, (IH _ [_]), <- app_assoc. auto.
Qed.

Lemma num_zero w : num w 0 = repeat x30 w.
Proof.
  induction w as [|w IH]; auto. rewrite num_cons, IH. cbn [repeat]. f_equal.

Qed.

Lemma pad_hex : forall w f n, 0 <= n < 16 ^ Z.of_nat w -> (0 < w)%nat -> n < 16 ^ Z.of_nat f ->
  pad w (hex_loop f n []) = num w n.
Proof.
  induction w as [|w IH]; intros f n N W F; [lia|].
  destruct f as [|f]. { cbn in F. assert (n = 0) by lia. subst. cbn [hex_loop]. unfold pad.
    rewrite app_nil_r, num_zero. cbn [List.length]. rewrite Nat.sub_0_r. auto. }
  cbn [hex_loop]. rewrite num_snoc.
  assert (D : 0 <= n mod 16 < 16) by (apply Z.mod_pos_bound; lia).
  destruct (nibble_cases _ D) as (-> & _).
  assert (Q : 0 <= n / 16) by (apply Z.div_pos; lia).
  assert (Q1 : n / 16 < 16 ^ Z.of_nat w).
  { apply Z.div_lt_upper_bound; [lia|]. rewrite <- Z.pow_succ_r by lia. rewrite <- Nat2Z.inj_succ. lia. }
  assert (Q2 : n / 16 < 16 ^ Z.of_nat f).
  { apply Z.div_lt_upper_bound; [lia|]. rewrite <- Z.pow_succ_r by lia. rewrite <- Nat2Z.inj_succ. lia. }
  assert (P : forall l b, pad (S w) (l ++ [b]) = pad w l ++ [b]).
  { intros l b. unfold pad. rewrite app_length. cbn [List.length].
    replace (S w - (List.length l + 1))%nat with (w - List.length l)%nat by lia. now rewrite app_assoc. }
  destruct (Z.eqb_spec (n / 16) 0) as [E|E].
  - rewrite E, num_zero. etransitivity; [apply (P [])|]. unfold pad. cbn [List.length].
    rewrite Nat.sub_0_r, app_nil_r. auto.
  - rewrite hex_loop_acc, P. f_equal. apply IH; auto. destruct w; [|lia]. cbn in Q1. lia.
Qed.

Lemma fmt16_number n : small n -> fmt16 n = number n.
Proof.
  intros [N1 N2]. unfold fmt16. destruct (Z.ltb_spec n 0); [lia|]. rewrite number_num. unfold hex.
  apply pad_hex; [|lia|].
  - split; auto.
  - assert (n < 2 ^ Z.succ (Z.log2 n)).
    { destruct (Z.eq_dec n 0) as [->|]; [reflexivity|]. apply Z.log2_spec. lia. }
    pose proof (Z.log2_nonneg n). rewrite Nat2Z.inj_succ, Z2Nat.id by lia.
    assert (2 ^ Z.succ (Z.log2 n) <= 16 ^ Z.succ (Z.log2 n)) by (apply Z.pow_le_mono_l; lia). lia.
Qed.

Lemma digits_num : forall w n acc b, 0 <= n -> ((0 < w)%nat \/ b = true) ->
  digits (num w n) acc b = Some (acc * 16 ^ Z.of_nat w + n mod 16 ^ Z.of_nat w).
Proof.
  induction w as [|w IH]; intros n acc b N W.
  - cbn. destruct W as [W| ->]; [lia|]. f_equal. rewrite Z.mod_1_r. lia.
  - rewrite num_cons. set (d := n / 16 ^ Z.of_nat w mod 16).
    assert (D : 0 <= d < 16) by (apply Z.mod_pos_bound; lia).
    destruct (nibble_cases d D) as (_ & V & _ & U & _). cbn [digits].
    destruct (Z.eqb_spec (ord (nibble d)) 95); [contradiction|]. rewrite V, IH by auto. f_equal.
    rewrite Nat2Z.inj_succ, Z.pow_succ_r by lia. set (p := 16 ^ Z.of_nat w).
    assert (P : 0 < p) by (apply Z.pow_pos_nonneg; lia).
    rewrite (Z.mul_comm 16 p), Z.rem_mul_r by lia. fold p in d. fold d. nia.
Qed.

Lemma num_in w n b : In b (num w n) -> exists d, 0 <= d < 16 /\ b = nibble d.
Proof.
  unfold num. rewrite in_map_iff. intros (i & <- & _). eexists. split; [|reflexivity].
  apply Z.mod_pos_bound. lia.
Qed.

Lemma lstrip_none b l : is_space b = false -> lstrip (b :: l) = b :: l.
Proof. intros H. cbn [lstrip]. rewrite H. auto. Qed.

Lemma lstrip_num w n : lstrip (num w n) = num w n.
Proof.
  destruct (num w n) as [|b l] eqn:E; auto. apply lstrip_none.
  destruct (num_in w n b) as (d & D & ->); [rewrite E; left; auto|]. apply nibble_cases; auto.
Qed.

Lemma rstrip_num w n : lstrip (rev (num w n)) = rev (num w n).
Proof.
  destruct (rev (num w n)) as [|b l] eqn:E; auto. apply lstrip_none.
  destruct (num_in w n b) as (d & D & ->); [apply in_rev; rewrite E; left; auto|]. apply nibble_cases; auto.
Qed.

Lemma int16_stripped w n : (1 < w)%nat -> 0 <= n ->
  match num w n with
  | s :: m =>
      if ord s =? 45 then option_map Z.opp (digits (unprefix m) 0 false)
      else if ord s =? 43 then digits (unprefix m) 0 false
      else digits (unprefix (num w n)) 0 false
  | [] => None
  end = Some (n mod 16 ^ Z.of_nat w).
Proof.
  intros W N. assert (X : unprefix (num w n) = num w n).
  { destruct w as [|[|w]]; [lia|lia|]. rewrite !num_cons.
    set (d := n / 16 ^ Z.of_nat w mod 16). cbn [unprefix].
    assert (D : 0 <= d < 16) by (apply Z.mod_pos_bound; lia).
    destruct (nibble_cases d D) as (_ & _ & _ & _ & _ & _ & _ & X1 & X2).
    destruct (Z.eqb_spec (ord (nibble d)) 120); [contradiction|].
    destruct (Z.eqb_spec (ord (nibble d)) 88); [contradiction|].
    rewrite andb_false_r. auto. }
  rewrite X. destruct (num w n) as [|s m] eqn:E.
  { pose proof (num_length w n) as L. rewrite E in L. cbn in L. lia. }
  destruct (num_in w n s) as (d & D & ->); [rewrite E; left; auto|].
  destruct (nibble_cases d D) as (_ & _ & _ & _ & X1 & X2 & _).
  destruct (Z.eqb_spec (ord (nibble d)) 45); [contradiction|].
  destruct (Z.eqb_spec (ord (nibble d)) 43); [contradiction|].
  rewrite <- E, digits_num by (auto; lia). f_equal.
Qed.

Lemma int16_num w n : (1 < w)%nat -> 0 <= n -> int16 (num w n) = Some (n mod 16 ^ Z.of_nat w).
Proof.
  intros W N. unfold int16. rewrite lstrip_num, rstrip_num, rev_involutive. apply int16_stripped; auto.
Qed.

Lemma int16_number n : small n -> int16 (number n) = Some n.
Proof. intros [N1 N2]. rewrite number_num, int16_num by lia. rewrite Z.mod_small; auto. Qed.

Lemma int16_number_crlf n : small n -> int16 (number n ++ CRLF) = Some n.
Proof.
  intros [N1 N2]. rewrite number_num. unfold int16.
  assert (L : lstrip (num 16 n ++ CRLF) = num 16 n ++ CRLF).
  { destruct (num 16 n) as [|b l] eqn:E; [pose proof (num_length 16 n) as X; rewrite E in X; discriminate X|].
    cbn [app]. apply lstrip_none.
    destruct (num_in 16 n b) as (d & D & ->); [rewrite E; left; auto|]. apply nibble_cases; auto. }
  assert (R : lstrip (rev (num 16 n ++ CRLF)) = rev (num 16 n)).
  { rewrite rev_app_distr. change (lstrip (rev (num 16 n)) = rev (num 16 n)). apply rstrip_num. }
  rewrite L, R, rev_involutive, int16_stripped by lia. rewrite Z.mod_small; auto.
Qed.

(* ---- headers ---- *)

Definition no_space (l : list byte) : Prop := forall b, In b l -> ord b <> 32.

Lemma split_space_app l m : no_space l -> split_space (l ++ x20 :: m) = Some (l, m).
Proof.
  induction l as [|b l IH]; intros N; cbn [app split_space].
  - auto.
  - destruct (Z.eqb_spec (ord b) 32) as [E|E]; [apply N in E; [tauto|left; auto]|].
    rewrite IH; auto. intros x X. apply N. right. auto.
Qed.

Lemma split_space_none l : no_space l -> split_space l = None.
Proof.
  induction l as [|b l IH]; intros N; cbn [split_space]; auto.
  destruct (Z.eqb_spec (ord b) 32) as [E|E]; [apply N in E; [tauto|left; auto]|].
  rewrite IH; auto. intros x X. apply N. right. auto.
Qed.

Lemma number_no_space n : no_space (number n).
Proof. intros b I. rewrite number_num in I. apply num_in in I as (d & D & ->). apply nibble_cases; auto. Qed.

Lemma number_length n : zlen (number n) = 16.
Proof. unfold zlen. rewrite number_num, num_length. auto. Qed.

Lemma frame_header kind a n : small a -> small n ->
  FRAME (text kind) a n = header kind a n.
Proof. intros A N. unfold FRAME, header. rewrite !fmt16_number by auto. reflexivity. Qed.

Definition kind4 (k : string) : Prop := zlen (text k) = 4 /\ no_space (text k).

Lemma header_length k a n : kind4 k -> zlen (header k a n) = 40.
Proof.
  intros [K _]. unfold header. rewrite !zlen_app, !number_length, K. reflexivity.
Qed.

Lemma FRAME_LEN_40 : FRAME_LEN = 40.
Proof. reflexivity. Qed.

Lemma take_app_eq {A} (l m : list A) n : zlen l = n -> take n (l ++ m) = l /\ drop n (l ++ m) = m.
Proof.
  intros <-. unfold take, drop, zlen. rewrite Nat2Z.id.
  rewrite firstn_app, skipn_app, Nat.sub_diag, firstn_all, skipn_all. cbn. rewrite app_nil_r. auto.
Qed.

Lemma read_header k a n s : kind4 k -> small a -> small n ->
  read_frame (header k a n ++ s) = (inl (text k, a, n), s).
Proof.
  intros K A N. unfold read_frame. rewrite FRAME_LEN_40.
  destruct (take_app_eq (header k a n) s 40) as (-> & ->); [apply header_length; auto|].
  unfold header. change (text " ") with [x20]. cbn [app].
  rewrite split_space_app by (apply K). rewrite split_space_app by apply number_no_space.
  rewrite int16_number, int16_number_crlf by auto. auto.
Qed.

Lemma kind4_meta : kind4 "meta". Proof. split; [reflexivity|]. intros b [<-|[<-|[<-|[<-|[]]]]]; discriminate. Qed.
Lemma kind4_data : kind4 "data". Proof. split; [reflexivity|]. intros b [<-|[<-|[<-|[<-|[]]]]]; discriminate. Qed.
Lemma kind4_zero : kind4 "zero". Proof. split; [reflexivity|]. intros b [<-|[<-|[<-|[<-|[]]]]]; discriminate. Qed.
Lemma kind4_stop : kind4 "stop". Proof. split; [reflexivity|]. intros b [<-|[<-|[<-|[<-|[]]]]]; discriminate. Qed.

(* A header that is cut: the rest of the input is empty, and the kind is known
   if it is accepted. *)
Lemma cut_header k a n p q : kind4 k -> header k a n = p ++ q -> q <> [] ->
  snd (read_frame p) = [] /\
  ((exists e, fst (read_frame p) = inr e) \/ (exists a' n', fst (read_frame p) = inl (text k, a', n'))) /\
  (zlen p <= 22 -> exists e, fst (read_frame p) = inr e).
Proof.
  intros K E Q.
  assert (L : zlen p < 40).
  { pose proof (header_length k a n K) as H. rewrite E, zlen_app in H. destruct q; [congruence|].
    rewrite zlen_cons in H. pose proof (zlen_nonneg q). lia. }
  unfold read_frame. rewrite FRAME_LEN_40. cbn [fst snd].
  assert (T : take 40 p = p). { unfold take. apply firstn_all2. unfold zlen in L. lia. }
  assert (D : drop 40 p = []). { apply zlen_0. rewrite zlen_drop. pose proof (zlen_nonneg p). lia. }
  rewrite T, D. split; auto.
  (* where p ends *)
  unfold header in E. change (text " ") with [x20] in E. cbn [app] in E.
  assert (C : forall l r, l ++ r = p ++ q ->
    (exists m, l = p ++ m) \/ (exists m, p = l ++ m /\ r = m ++ q)).
  { intros l r H. clear -H. revert p q H. induction l as [|x l IH]; intros p q H.
    - right. exists p. auto.
    - destruct p as [|y p]; [left; exists (x :: l); auto|]. injection H as <- H.
      destruct (IH _ _ H) as [(m & ->)|(m & -> & ->)]; [left|right]; eexists; cbn; eauto. }
  assert (SS : forall l m p, l = p ++ m -> no_space l -> split_space p = None).
  { intros l m p0 -> N. apply split_space_none. intros b I. apply N, in_or_app. auto. }
  destruct (C _ _ E) as [(m & M)|(m & -> & M)].
  { rewrite (SS _ _ _ M) by apply K. split; eauto. }
  destruct m as [|b m].
  { rewrite app_nil_r. rewrite split_space_none by apply K. split; eauto. }
  assert (b = x20) by (apply (f_equal (hd x00)) in M; cbn [hd app] in M; congruence). subst b.
  apply (f_equal (@tl byte)) in M. cbn [tl app] in M. rewrite split_space_app by apply K.
  assert (C' : forall l r, l ++ r = m ++ q ->
    (exists x, l = m ++ x) \/ (exists x, m = l ++ x /\ r = x ++ q)).
  { intros l r H. clear -H. revert m q H. induction l as [|x l IH]; intros p q H.
    - right. exists p. auto.
    - destruct p as [|y p]; [left; exists (x :: l); auto|]. injection H as <- H.
      destruct (IH _ _ H) as [(z & ->)|(z & -> & ->)]; [left|right]; eexists; cbn; eauto. }
  destruct (C' _ _ M) as [(x & X)|(x & -> & X)].
  { rewrite (SS _ _ _ X) by apply number_no_space. split; eauto. }
  destruct x as [|b x].
  { rewrite app_nil_r. rewrite split_space_none by apply number_no_space. split; eauto. }
  assert (b = x20) by (apply (f_equal (hd x00)) in X; cbn [hd app] in X; congruence). subst b.
  rewrite split_space_app by apply number_no_space.
  destruct (int16 (number a)) as [a'|]; [|split; eauto].
  destruct (int16 x) as [n'|] eqn:I; [|split; eauto].
  split; eauto. intros LE. exfalso.
  rewrite zlen_app, zlen_cons, zlen_app, zlen_cons, number_length in LE. destruct K as [K _].
  rewrite K in LE. assert (x = []) by (apply zlen_0; pose proof (zlen_nonneg x); lia). subst. discriminate.
Qed.

(* ---- restore ---- *)

Lemma beq_true a b : beq a b = true <-> a = b.
Proof. unfold beq. destruct (list_eq_dec _ a b); split; auto; discriminate. Qed.

Lemma beq_refl a : beq a a = true.
Proof. apply beq_true. auto. Qed.

Definition outside (fs : list frame) (img img' : list byte) : Prop :=
  forall i, (forall f, In f fs -> ~ inside f i) -> getb img' i = getb img i.

Lemma written_outside f fs img img1 img' :
  (forall i, ~ inside f i -> getb img1 i = getb img i) -> outside fs img1 img' -> outside (f :: fs) img img'.
Proof.
  intros W O i N. rewrite O by (intros g G; apply N; right; auto). apply W, N. left. auto.
Qed.

Lemma outside_cons f fs img img' : outside fs img img' -> outside (f :: fs) img img'.
Proof. intros O i N. apply O. intros g G. apply N. right. auto. Qed.

Lemma replaced_not_inside img img1 a n g i k : replaced img img1 a k g -> 0 <= k <= Z.max 0 n -> 0 <= n ->
  ~ (a <= i < a + n) -> getb img1 i = getb img i.
Proof. intros (_ & R & _) K N I. apply R. lia. Qed.

Section Restore.
Variables (id : str) (total : Z) (envs : nat -> senv) (nets : nat -> net).
Hypothesis U : forall i, usable id total (envs i).
Notation srv := (imageio id envs).

Definition st_ok (c : client iworld) : Prop :=
  Inv total (c_back c) /\ c_closed c = false /\ Durable (c_back c).

Lemma zero_ok o a n c r c1 : cl_zero srv o a n c = (r, c1) -> st_ok c -> 0 <= n ->
  Inv total (c_back c1) /\ c_closed c1 = false /\
  (forall i, ~ (a <= i < a + n) -> getb (img c1) i = getb (img c) i) /\
  (forall z, r = inl z -> st_ok c1 /\ replaced (img c) (img c1) a n (fun _ => x00)).
Proof.
  intros E (I & CL & D) N.
  assert (R : run_api srv o (AZero a n) c = (Out r [], c1)) by (cbn [run_api]; rewrite E; auto).
  pose proof R as R1. eapply api_imageio in R1 as (J & A); eauto.
  assert (CL1 : c_closed c1 = false).
  { unfold cl_zero in E. destruct (zero _ _ _ _). injection E as <- <-. auto. }
  destruct A as [[(k & K & P) A] _]. split; auto. split; auto. split.
  { intros i. eapply replaced_not_inside; eauto. }
  intros z ->. assert (O : ok (Out (inl z) [])) by (exists z; auto). split; [|auto].
  split; auto. split; auto. eapply api_durable; eauto.
Qed.

Lemma read_from_ok o src a n c r s c1 : cl_read_from srv o src a n c = (r, s, c1) -> st_ok c -> 0 <= n ->
  Inv total (c_back c1) /\ c_closed c1 = false /\
  (forall i, ~ (a <= i < a + n) -> getb (img c1) i = getb (img c) i) /\
  (forall z, r = inl z -> st_ok c1 /\ replaced (img c) (img c1) a n (getb src) /\ n <= zlen src /\ s = drop n src).
Proof.
  intros E (I & CL & D) N.
  assert (R : run_api srv o (AReadFrom src a n) c = (Out r s, c1)) by (cbn [run_api]; rewrite E; auto).
  pose proof R as R1. eapply api_imageio in R1 as (J & A); eauto.
  assert (CL1 : c_closed c1 = false).
  { unfold cl_read_from in E. destruct (read_from _ _ _ _ _ _) as [[? ?] ?]. injection E as <- <- <-. auto. }
  destruct A as [[(k & K & P) A] _]. split; auto. split; auto. split.
  { intros i. eapply replaced_not_inside; eauto. }
  intros z ->. assert (O : ok (Out (inl z) s)) by (exists z; auto). destruct (A O) as (L & S & RP).
  split; [|auto]. split; auto. split; auto. eapply api_durable; eauto.
Qed.

Lemma text_data : text "data" = DATA. Proof. reflexivity. Qed.
Lemma text_zero : text "zero" = ZERO. Proof. reflexivity. Qed.
Lemma text_stop : text "stop" = STOP. Proof. reflexivity. Qed.
Lemma text_meta : text "meta" = META. Proof. reflexivity. Qed.

Lemma read_term_ok s : read_term (CRLF ++ s) = (inl tt, s).
Proof. reflexivity. Qed.

Lemma upload_frames : forall fs fuel k s c r c',
  upload_loop srv nets fuel k (flat_map frame_bytes fs ++ s) c = (r, c') ->
  Forall valid fs -> st_ok c -> (List.length (flat_map frame_bytes fs ++ s) < fuel)%nat ->
  ((exists e, r = inr e) /\ Inv total (c_back c') /\ c_closed c' = false /\ outside fs (img c) (img c')) \/
  (exists fuel' k' c1, upload_loop srv nets fuel' k' s c1 = (r, c') /\ st_ok c1 /\
     restored fs (img c) (img c1) /\ outside fs (img c) (img c1) /\ (List.length s < fuel')%nat).
Proof.
  induction fs as [|f fs IH]; intros fuel k s c r c' E V OK F.
  { right. exists fuel, k, c. split; auto. split; auto. split; [reflexivity|]. split; auto. intros i _. auto. }
  inv V. destruct H1 as [VA VN]. cbn [flat_map] in E, F. destruct fuel as [|fuel]; [lia|]. cbn [upload_loop] in E.
  destruct f as [a d|a n]; cbn [frame_bytes fstart flength] in *; rewrite <- !app_assoc in E, F.
  - rewrite read_header in E by (auto using kind4_data). rewrite text_data in E.
    change (beq DATA ZERO) with false in E. rewrite beq_refl in E.
    destruct (cl_read_from _ _ _ _ _ _) as [[x s1] c1] eqn:R.
    eapply read_from_ok in R as (I1 & C1 & O1 & R1); eauto; [|apply VN].
    destruct x as [z|e].
    2:{ injection E as <- <-. left. split; eauto. split; auto. split; auto.
        apply written_outside with (img1 := img c1); auto. intros i _. auto. }
    destruct (R1 z eq_refl) as (OK1 & RP & L & ->).
    destruct (take_app_eq d (CRLF ++ flat_map frame_bytes fs ++ s) (zlen d) eq_refl) as (_ & DR).
    rewrite DR, read_term_ok in E.
    assert (RP' : replaced (img c) (img c1) a (zlen d) (getb d)).
    { eapply replaced_ext; [|exact RP]. intros i I. cbn beta. apply getb_app_l; lia. }
    eapply IH in E; auto.
    2:{ pose proof (header_length "data" a (zlen d) kind4_data) as HL.
        remember (header "data" a (zlen d)) as h. clear -HL F. unfold zlen in HL. rewrite !app_length in *. lia. }
    destruct E as [(X & I & CC & O)|(f' & k' & c2 & E & OK2 & RS & O & F2)]; [left|right].
    + split; auto. split; auto. split; auto. eapply written_outside; eauto.
    + exists f', k', c2. split; auto. split; auto. split; [|split; auto].
      * cbn [restored written]. eauto.
      * eapply written_outside; eauto.
  - rewrite read_header in E by (auto using kind4_zero). rewrite text_zero, beq_refl in E.
    destruct (cl_zero _ _ _ _ _) as [x c1] eqn:R.
    eapply zero_ok in R as (I1 & C1 & O1 & R1); eauto; [|apply VN].
    destruct x as [z|e].
    2:{ injection E as <- <-. left. split; eauto. split; auto. split; auto.
        apply written_outside with (img1 := img c1); auto. intros i _. auto. }
    destruct (R1 z eq_refl) as (OK1 & RP).
    eapply IH in E; auto.
    2:{ pose proof (header_length "zero" a n kind4_zero) as HL.
        clear -HL F. unfold zlen in HL. rewrite !app_length in *. lia. }
    destruct E as [(X & I & CC & O)|(f' & k' & c2 & E & OK2 & RS & O & F2)]; [left|right].
    + split; auto. split; auto. split; auto. eapply written_outside; eauto.
    + exists f', k', c2. split; auto. split; auto. split; [|split; auto].
      * cbn [restored written]. eauto.
      * eapply written_outside; eauto.
Qed.

Lemma leave_ok fails r (c : client iworld) x c' : leave fails r c = (x, c') ->
  c_back c' = c_back c /\ (x = inl tt -> r = inl tt /\ (c_closed c = true \/ fails = None) /\ c_closed c' = true) /\
  (forall e, r = inr e -> x = inr e).
Proof.
  unfold leave, cl_close. destruct (c_closed c) eqn:C.
  - destruct r as [[]|e]; intros [= <- <-]; (split; [auto|]); (split; [|intros ? [=]; congruence || discriminate]); intros; auto; discriminate.
  - destruct fails; destruct r as [[]|e]; intros [= <- <-]; (split; [auto|]);
      (split; [|intros ? [=]; congruence || discriminate]); intros; auto; discriminate.
Qed.

Lemma size_ok c r c1 : cl_size srv c = (r, c1) -> st_ok c ->
  st_ok c1 /\ img c1 = img c /\ forall n, r = inl n -> n = total.
Proof.
  intros E (I & CL & D). unfold cl_size, serve_of in E. rewrite CL in E.
  destruct (size _ _) as [x s1] eqn:S. injection E as <- <-.
  eapply size_imageio in S as (J & _ & CF & _ & IM & LG & N); eauto.
  split; [|split; auto]. split; auto. split; auto. unfold Durable in *. cbn [c_back with_back]. rewrite CF, LG. auto.
Qed.

Lemma flush_ok c r c1 : cl_flush srv c = (r, c1) -> st_ok c ->
  Inv total (c_back c1) /\ img c1 = img c /\ c_closed c1 = false /\
  forall n, r = inl n -> durable (iw_log (h_world (c_back c1))).
Proof.
  intros E (I & CL & D).
  assert (R : run_api srv (nets 0) AFlush c = (Out r [], c1)) by (cbn [run_api]; rewrite E; auto).
  eapply api_imageio in R as (J & A & _); eauto. split; auto. split; [exact A|].
  unfold cl_flush, serve_of in E. rewrite CL in E. destruct (flush _ _) as [y s1] eqn:F. injection E as <- <-.
  split; auto. intros n N. destruct y as [[]|e]; [|discriminate].
  cbn [c_back with_back]. destruct (h_can_flush (c_back c)) eqn:CF.
  - eapply flush_is_enough; eauto.
  - unfold flush in F. rewrite CF in F. injection F as <-. auto.
Qed.

Lemma body_ok v fs s c r c' :
  upload_body srv nets v (flat_map frame_bytes fs ++ s) c = (r, c') -> Forall valid fs -> st_ok c ->
  ((exists e, r = inr e) /\ Inv total (c_back c') /\ outside fs (img c) (img c') /\ (total < v -> img c' = img c)) \/
  (v <= total /\ exists fuel k c1 x c2, upload_loop srv nets fuel k s c1 = (x, c2) /\ st_ok c1 /\
     restored fs (img c) (img c1) /\ outside fs (img c) (img c1) /\ (List.length s < fuel)%nat /\
     match x with
     | inr e => r = inr e /\ c' = c2
     | inl _ => exists y, cl_flush srv c2 = (y, c') /\
                          r = match y with inl _ => inl tt | inr e => inr (SClient e) end
     end).
Proof.
  unfold upload_body. intros E V OK. destruct (cl_size _ _) as [[n|e] c1] eqn:S.
  2:{ injection E as <- <-. eapply size_ok in S as ((J & _) & IM & _); eauto. left. rewrite IM.
      split; eauto. split; auto. split; auto. intros i _. auto. }
  eapply size_ok in S as (OK1 & IM & N); eauto. rewrite (N n eq_refl) in E. rewrite <- IM. clear N.
  destruct (Z.ltb_spec total v).
  { injection E as <- <-. left. split; eauto. split; [apply OK1|]. split; auto. intros i _. auto. }
  destruct (upload_loop _ _ _ _ _ _) as [x c2] eqn:L. eapply upload_frames in L as [(X & I & CL & O)|L]; eauto.
  - left. destruct X as (e & ->). injection E as <- <-. split; eauto. split; auto. split; auto. lia.
  - right. split; auto. destruct L as (fuel & k & c3 & L & OK3 & R & O & F).
    exists fuel, k, c3, x, c2. split; auto. split; auto. split; auto. split; auto. split; auto.
    destruct x as [m|e]; [|injection E as <- <-; auto].
    destruct (cl_flush _ _) as [[y|e] c4]; injection E as <- <-; eexists; split; eauto.
Qed.

Lemma loop_stop fuel k a n s c : small a -> small n -> (List.length (header "stop" a n ++ s) < fuel)%nat ->
  upload_loop srv nets fuel k (header "stop" a n ++ s) c = (inl k, c).
Proof.
  intros A N F. destruct fuel as [|fuel]; [lia|]. cbn [upload_loop].
  rewrite read_header by (auto using kind4_stop). rewrite text_stop.
  change (beq STOP ZERO) with false. change (beq STOP DATA) with false. rewrite beq_refl. auto.
Qed.

Lemma body_stream v fs s c r c' :
  upload_body srv nets v (flat_map frame_bytes fs ++ header "stop" 0 0 ++ s) c = (r, c') -> Forall valid fs -> st_ok c ->
  Inv total (c_back c') /\ outside fs (img c) (img c') /\ (total < v -> img c' = img c) /\
  (r = inl tt -> v <= total /\ restored fs (img c) (img c') /\ durable (iw_log (h_world (c_back c')))).
Proof.
  intros E V OK. eapply body_ok in E as [((e & ->) & I & O & T)|(L & fuel & k & c1 & x & c2 & E & OK1 & R & O & F & X)]; eauto.
  { split; auto. split; auto. split; auto. discriminate. }
  rewrite loop_stop in E by (auto; vm_compute; split; congruence). injection E as <- <-.
  destruct X as (y & FL & ->). eapply flush_ok in FL as (J & IM & _ & D); eauto.
  rewrite IM. split; auto. split; auto. split; [lia|]. intros Y. split; auto. split; auto.
  destruct y as [y|]; [|discriminate]. eauto.
Qed.

(* ---- truncated streams ---- *)

Lemma app_cases {A} : forall (l r p q : list A), l ++ r = p ++ q ->
  (exists m, m <> [] /\ l = p ++ m) \/ (exists m, p = l ++ m /\ r = m ++ q).
Proof.
  induction l as [|x l IH]; intros r p q H.
  - right. exists p. auto.
  - destruct p as [|y p]; [left; exists (x :: l); split; [discriminate|auto]|]. injection H as <- H.
    destruct (IH _ _ _ H) as [(m & N & ->)|(m & -> & ->)]; [left|right]; eexists; cbn; eauto.
Qed.

Lemma loop_nil fuel k c : upload_loop srv nets fuel k [] c = (inr SValue, c).
Proof. destruct fuel; reflexivity. Qed.

Lemma read_from_any o src a n c r s c1 : cl_read_from srv o src a n c = (r, s, c1) -> Inv total (c_back c) ->
  forall z, r = inl z -> n <= zlen src /\ s = drop n src.
Proof.
  intros E I z ->.
  assert (R : run_api srv o (AReadFrom src a n) c = (Out (inl z) s, c1)) by (cbn [run_api]; rewrite E; auto).
  eapply api_imageio in R as (_ & (_ & A) & _); eauto.
  destruct A as (L & S & _); [exists z; auto|]. auto.
Qed.

Lemma term_cut p m : m <> [] -> CRLF = p ++ m -> exists e, fst (read_term p) = inr e.
Proof.
  intros M E. destruct p as [|x [|y [|z p]]].
  - eexists. reflexivity.
  - injection E as <- _. eexists. reflexivity.
  - injection E as <- <- E. destruct m; [congruence|discriminate].
  - discriminate.
Qed.

Lemma drop_nil {A} n : drop n (@nil A) = [].
Proof. unfold drop. apply skipn_nil. Qed.

Lemma loop_cut : forall fs p q fuel k c r c',
  flat_map frame_bytes fs ++ header "stop" 0 0 = p ++ q -> 17 < zlen q -> Forall valid fs -> st_ok c ->
  upload_loop srv nets fuel k p c = (r, c') -> exists e, r = inr e.
Proof.
  induction fs as [|f fs IH]; intros p q fuel k c r c' P Q V OK E;
    (destruct fuel as [|fuel]; [injection E as <- <-; eauto|]); cbn [upload_loop] in E.
  - cbn [flat_map app] in P. assert (QN : q <> []) by (intros ->; cbn in Q; lia).
    pose proof (header_length "stop" 0 0 kind4_stop) as HL. rewrite P, zlen_app in HL.
    apply cut_header in P as (_ & _ & X); auto using kind4_stop. destruct X as (e & X); [lia|].
    destruct (read_frame p) as [x s]. cbn [fst] in X. subst x. injection E as <- <-. eauto.
  - inv V. destruct H1 as [VA VN]. cbn [flat_map] in P. rewrite <- app_assoc in P.
    destruct f as [a d|a n]; cbn [frame_bytes fstart flength] in *.
    + rewrite <- !app_assoc in P. apply app_cases in P as [(m & M & P)|(p1 & -> & P)].
      * apply cut_header in P as (N & X & _); auto using kind4_data.
        destruct (read_frame p) as [x s]. cbn [fst snd] in *. subst s.
        destruct X as [(e & ->)|(a' & n' & ->)]; [injection E as <- <-; eauto|].
        rewrite text_data in E. change (beq DATA ZERO) with false in E. rewrite beq_refl in E.
        destruct (cl_read_from _ _ _ _ _ _) as [[x s1] c1] eqn:R.
        destruct x as [z|e]; [|injection E as <- <-; eauto].
        eapply read_from_any in R as (_ & ->); [|apply OK|reflexivity]. rewrite drop_nil in E.
        cbn in E. injection E as <- <-. eauto.
      * rewrite read_header in E by (auto using kind4_data). rewrite text_data in E.
        change (beq DATA ZERO) with false in E. rewrite beq_refl in E.
        destruct (cl_read_from _ _ _ _ _ _) as [[x s1] c1] eqn:R.
        destruct x as [z|e]; [|injection E as <- <-; eauto].
        eapply read_from_ok in R as (_ & _ & _ & R); eauto; [|apply VN].
        destruct (R z eq_refl) as (OK1 & _ & L & ->).
        apply app_cases in P as [(m & M & ->)|(p2 & -> & P)].
        { rewrite zlen_app in L. destruct m; [congruence|]. rewrite zlen_cons in L. pose proof (zlen_nonneg m). lia. }
        destruct (take_app_eq d p2 (zlen d) eq_refl) as (_ & DR). rewrite DR in E.
        apply app_cases in P as [(m & M & P)|(p3 & -> & P)].
        { apply term_cut in P as (e & X); auto. destruct (read_term p2) as [y s]. cbn [fst] in X. subst y.
          injection E as <- <-. eauto. }
        rewrite read_term_ok in E. eauto.
    + apply app_cases in P as [(m & M & P)|(p1 & -> & P)].
      * apply cut_header in P as (N & X & _); auto using kind4_zero.
        destruct (read_frame p) as [x s]. cbn [fst snd] in *. subst s.
        destruct X as [(e & ->)|(a' & n' & ->)]; [injection E as <- <-; eauto|].
        rewrite text_zero, beq_refl in E.
        destruct (cl_zero _ _ _ _ _) as [[z|e] c1] eqn:R; [|injection E as <- <-; eauto].
        rewrite loop_nil in E. injection E as <- <-. eauto.
      * rewrite read_header in E by (auto using kind4_zero). rewrite text_zero, beq_refl in E.
        destruct (cl_zero _ _ _ _ _) as [[z|e] c1] eqn:R; [|injection E as <- <-; eauto].
        eapply zero_ok in R as (_ & _ & _ & R); eauto; [|apply VN]. destruct (R z eq_refl) as (OK1 & _). eauto.
Qed.

Lemma body_cut v fs p q c r c' :
  flat_map frame_bytes fs ++ header "stop" 0 0 = p ++ q -> 17 < zlen q -> Forall valid fs -> st_ok c ->
  upload_body srv nets v p c = (r, c') -> exists e, r = inr e.
Proof.
  intros P Q V OK E. unfold upload_body in E.
  destruct (cl_size _ _) as [[n|e] c1] eqn:S; [|injection E as <- <-; eauto].
  destruct (n <? v); [injection E as <- <-; eauto|].
  eapply size_ok in S as (OK1 & _); eauto.
  destruct (upload_loop _ _ _ _ _ _) as [x c2] eqn:L.
  eapply loop_cut in L as (e & ->); eauto. injection E as <- <-. eauto.
Qed.

Lemma upload_cut loads fails meta fs p q c r c' :
  stream_of meta fs = p ++ q -> 17 < zlen q -> Forall valid fs -> small (zlen meta) -> st_ok c ->
  upload srv nets loads fails p c = (r, c') -> exists e, r = inr e.
Proof.
  intros P Q V SM OK E. unfold stream_of in P. unfold upload in E.
  assert (T : forall text, match loads text with
      | Some v => match read_term [] with
                  | (inl _, s) => let (r, c) := upload_body srv nets v s c in leave fails r c
                  | (inr x, _) => (inr x, c) end
      | None => (inr SMeta, c) end = (r, c') -> exists e, r = inr e).
  { intros t X. destruct (loads t); cbn in X; injection X as <- <-; eauto. }
  apply app_cases in P as [(m & M & P)|(p1 & -> & P)].
  - apply cut_header in P as (N & X & _); auto using kind4_meta.
    destruct (read_frame p) as [x s]. cbn [fst snd] in *. subst s.
    destruct X as [(e & ->)|(a' & n' & ->)]; [injection E as <- <-; eauto|].
    rewrite text_meta, beq_refl in E. cbn [negb] in E. unfold read in E.
    destruct (n' =? -1); [eauto|]. destruct (n' <? 0); [injection E as <- <-; eauto|].
    rewrite drop_nil in E. eauto.
  - rewrite read_header in E by (auto using kind4_meta; vm_compute; split; congruence).
    rewrite text_meta, beq_refl in E. cbn [negb] in E. unfold read in E.
    pose proof (zlen_nonneg meta).
    destruct (Z.eqb_spec (zlen meta) (-1)); [lia|]. destruct (Z.ltb_spec (zlen meta) 0); [lia|].
    apply app_cases in P as [(m & M & P)|(p2 & -> & P)].
    + assert (D : drop (zlen meta) p1 = []).
      { apply zlen_0. rewrite zlen_drop. rewrite P, zlen_app in *. pose proof (zlen_nonneg m). pose proof (zlen_nonneg p1). lia. }
      rewrite D in E. eauto.
    + destruct (take_app_eq meta p2 (zlen meta) eq_refl) as (_ & D). rewrite D in E.
      destruct (loads _) as [v|]; [|injection E as <- <-; eauto].
      apply app_cases in P as [(m & M & P)|(p3 & -> & P)].
      { apply term_cut in P as (e & X); auto. destruct (read_term p2) as [y s]. cbn [fst] in X. subst y.
        injection E as <- <-. eauto. }
      rewrite read_term_ok in E. destruct (upload_body _ _ _ _ _) as [x c1] eqn:B.
      eapply body_cut in B as (e & ->); eauto. apply leave_ok in E as (_ & _ & X). eauto.
Qed.

Lemma upload_whole loads fails meta fs s c :
  small (zlen meta) ->
  upload srv nets loads fails (stream_of meta fs ++ s) c =
  match loads meta with
  | Some v => let (r, c) := upload_body srv nets v (flat_map frame_bytes fs ++ header "stop" 0 0 ++ s) c in
              leave fails r c
  | None => (inr SMeta, c)
  end.
Proof.
  intros SM. unfold upload, stream_of. rewrite <- !app_assoc.
  rewrite read_header by (auto using kind4_meta; vm_compute; split; congruence).
  rewrite text_meta, beq_refl. cbn [negb]. unfold read. pose proof (zlen_nonneg meta).
  destruct (Z.eqb_spec (zlen meta) (-1)); [lia|]. destruct (Z.ltb_spec (zlen meta) 0); [lia|].
  destruct (take_app_eq meta (CRLF ++ flat_map frame_bytes fs ++ header "stop" 0 0 ++ s) (zlen meta) eq_refl) as (-> & ->).
  rewrite read_term_ok. auto.
Qed.

(* ---- backup ---- *)

Lemma write_to_ok o a n c r out c1 : cl_write_to srv o a n c = (r, out, c1) -> Inv total (c_back c) ->
  Inv total (c_back c1) /\ img c1 = img c /\ c_closed c1 = c_closed c /\
  (forall z, r = inl z -> (forall i, exists x, n_dst o i = Some x /\ n <= x) -> is_range (img c) a n out).
Proof.
  intros E I.
  assert (R : run_api srv o (AWriteTo a n) c = (Out r out, c1)) by (cbn [run_api]; rewrite E; auto).
  eapply api_imageio in R as (J & (IM & A) & _); eauto. split; auto. split; auto. split.
  { unfold cl_write_to in E. destruct (write_to _ _ _ _ _) as [[? ?] ?]. injection E as <- <- <-. auto. }
  intros z -> D. apply A; auto. exists z. auto.
Qed.

Lemma same_fields inc e x im l : same_extent e x -> honest_extents inc im l -> In e l ->
  x_start x = JInt (start_of e) /\ x_length x = JInt (length_of e) /\ x_zero inc x = extent_zero e /\
  (inc = true -> x_dirty x = wanted e) /\ (inc = false -> wanted e = true).
Proof.
  intros S H I. specialize (H e I). destruct e; cbn in S; subst x; destruct H as [-> _]; cbn; repeat split; auto; discriminate.
Qed.

Lemma download_loop_ok inc im : forall l xs k c r out c',
  download_loop srv nets inc k xs c = (r, out, c') -> Forall2 same_extent l xs -> honest_extents inc im l ->
  Inv total (c_back c) -> img c = im ->
  Inv total (c_back c') /\ img c' = im /\ c_closed c' = c_closed c /\
  (r = inl tt -> takes_all total nets ->
     (forall e, In e l -> small (start_of e) /\ small (length_of e) /\ length_of e <= total) ->
     exists fs, Forall2 (frame_of im) l fs /\ out = flat_map frame_bytes fs).
Proof.
  intros l xs k c r out c' E S. revert k c r out c' E. induction S as [|e x l xs S1 S IH]; intros k c r out c' E H I IM.
  - cbn [download_loop] in E. injection E as <- <- <-. repeat (split; auto). intros. exists []. auto.
  - assert (H' : honest_extents inc im l) by (intros y Y; apply H; right; auto).
    destruct (same_fields _ _ _ _ _ S1 H (or_introl eq_refl)) as (F1 & F2 & F3 & _).
    cbn [download_loop] in E. unfold extent_frame in E. rewrite F1, F2, F3 in E. cbn [as_int] in E.
    remember (FRAME ZERO (start_of e) (length_of e)) as fz eqn:FZ.
    remember (FRAME DATA (start_of e) (length_of e)) as fd eqn:FD.
    destruct (extent_zero e) eqn:Z.
    + destruct (download_loop _ _ _ _ _ _) as [[r1 out1] c1] eqn:D. injection E as <- <- <-.
      apply IH in D as (J & IM1 & CL & D); auto. repeat (split; auto). intros R T B.
      destruct (B e (or_introl eq_refl)) as (B1 & B2 & B3).
      destruct D as (fs & G & ->); auto. { intros y Y. apply B. right. auto. }
      exists (FZero (start_of e) (length_of e) :: fs). split.
      * constructor; auto. split; [auto|]. split; [auto|]. split; [auto|]. intros i W.
        specialize (H e (or_introl eq_refl)). destruct e; cbn in *; subst; apply H; auto.
      * cbn [flat_map frame_bytes]. rewrite FZ, <- text_zero, frame_header by auto. auto.
    + destruct (cl_write_to _ _ _ _ _) as [[r0 d] c1] eqn:WT. eapply write_to_ok in WT as (J & IM1 & CL & WT); auto.
      destruct r0 as [z|er].
      2:{ injection E as <- <- <-. split; auto. split; [congruence|]. split; auto. discriminate. }
      destruct (download_loop _ _ _ _ _ _) as [[r1 out1] c2] eqn:D. injection E as <- <- <-.
      apply IH in D as (J2 & IM2 & CL2 & D); auto; [|congruence]. split; auto. split; auto. split; [congruence|].
      intros R T B. destruct (B e (or_introl eq_refl)) as (B1 & B2 & B3).
      destruct D as (fs & G & ->); auto. { intros y Y. apply B. right. auto. }
      assert (RG : is_range im (start_of e) (length_of e) d).
      { rewrite <- IM. eapply WT; eauto. intros i. destruct (T k i) as (y & Y & Y2). exists y. split; auto. lia. }
      pose proof RG as (ZL & _).
      exists (FData (start_of e) d :: fs). split.
      * constructor; auto. split; [auto|]. split; [exact ZL|]. split; [auto|]. rewrite ZL. auto.
      * cbn [flat_map frame_bytes]. rewrite FD, <- text_data, frame_header, ZL by auto.
        rewrite <- !app_assoc. auto.
Qed.

Fixpoint sum_data (l : list image_extent) : Z :=
  match l with
  | [] => 0
  | e :: l => (if extent_zero e then 0 else length_of e) + sum_data l
  end.

Lemma data_size_ok inc im l xs : Forall2 same_extent l xs -> honest_extents inc im l ->
  data_size inc xs = inl (sum_data l).
Proof.
  induction 1 as [|e x l xs S1 S IH]; intros H; auto.
  destruct (same_fields _ _ _ _ _ S1 H (or_introl eq_refl)) as (F1 & F2 & F3 & _).
  cbn [data_size sum_data]. rewrite F3, F2, IH by (intros y Y; apply H; right; auto). cbn [as_int].
  destruct (extent_zero e); auto.
Qed.

Lemma tiles_last : forall a b l, tiles a b l -> l <> [] ->
  exists l' e, l = l' ++ [e] /\ start_of e + length_of e = b.
Proof.
  induction 1 as [a|a b e l S L T IH]; intros N; [congruence|].
  destruct l as [|f l].
  - inv T. exists [], e. auto.
  - destruct IH as (l' & g & -> & E); [discriminate|]. exists (e :: l'), g. auto.
Qed.

Lemma dump_ok inc dumps im l xs m : Forall2 same_extent l xs -> honest_extents inc im l -> tiles 0 total l ->
  dump_metadata dumps inc xs = inl m -> m = dumps total (sum_data l) inc.
Proof.
  intros S H T E. unfold dump_metadata in E. rewrite (data_size_ok _ _ _ _ S H) in E.
  destruct (rev xs) as [|x rx] eqn:RX; [discriminate|].
  assert (XS : xs = rev rx ++ [x]) by (rewrite <- (rev_involutive xs), RX; auto).
  destruct (tiles_last _ _ _ T) as (l' & e & -> & EN).
  { intros ->. inv S. destruct (rev rx); discriminate. }
  rewrite XS in S. apply Forall2_app_inv_l in S as (x1 & x2 & S1 & S2 & SE).
  inv S2. inv H4. apply app_inj_tail in SE as (_ & ->).
  assert (IE : In e (l' ++ [e])) by (apply in_or_app; right; left; auto).
  destruct (same_fields _ _ _ _ _ H2 H IE) as (F1 & F2 & _).
  rewrite F1, F2 in E. cbn in E. injection E as <-. congruence.
Qed.

Lemma filter_same inc im : forall l xs, Forall2 same_extent l xs -> honest_extents inc im l ->
  Forall2 same_extent (filter wanted l) (if inc then filter x_dirty xs else xs).
Proof.
  intros l xs S H. destruct inc.
  - induction S as [|e x l xs S1 S IH]; cbn [filter]; auto.
    destruct (same_fields _ _ _ _ _ S1 H (or_introl eq_refl)) as (_ & _ & _ & F & _). rewrite F by auto.
    assert (IH' := IH (fun y Y => H y (or_intror Y))). destruct (wanted e); auto.
  - replace (filter wanted l) with l; auto.
    symmetry. clear S. induction l as [|e l IH]; auto. cbn [filter].
    assert (wanted e = true). { specialize (H e (or_introl eq_refl)). destruct e; auto. destruct H; discriminate. }
    rewrite H0. f_equal. apply IH. intros y Y. apply H. right. auto.
Qed.

Lemma tiles_bounds : forall a b l, tiles a b l -> 0 <= a -> forall e, In e l ->
  0 <= start_of e /\ 0 < length_of e /\ start_of e + length_of e <= b.
Proof.
  assert (M : forall a b l, tiles a b l -> a <= b) by (induction 1; lia).
  induction 1 as [a|a b e l S L T IH]; intros A x [].
  - subst x. apply M in T. lia.
  - apply IH; auto. lia.
Qed.

Lemma extents_good inc c xs c1 : cl_extents srv inc c = (inl xs, c1) ->
  TransferSpec.fresh total (c_back c) -> c_closed c = false -> 0 < total -> truthful inc total envs ->
  good_extents total envs inc (img c) xs (negb (h_can_extents (c_back c))) /\
  Inv total (c_back c1) /\ img c1 = img c /\ c_closed c1 = false.
Proof.
  intros E (Z & N1 & N2 & N3) CL P T. unfold cl_extents, serve_of in E. rewrite CL in E.
  destruct (HttpBackendModel.extents _ _ _) as [x s1] eqn:X. injection E as -> <-.
  assert (I : Inv total (c_back c)) by (split; auto; rewrite N1, N2; split; discriminate).
  unfold HttpBackendModel.extents in X. destruct (h_can_extents (c_back c)) eqn:CE; cbn [negb] in X |- *.
  - unfold cached_extents in X.
    assert (NN : (if inc then h_dirty (c_back c) else h_zero (c_back c)) = None) by (destruct inc; auto).
    rewrite NN in X. destruct (get_extents _ _ _) as [[ys|e] s2] eqn:G; [|discriminate].
    injection X as <- <-. eapply get_extents_good in G as (G & G1 & G2 & G3 & G4 & _); auto.
    split; auto. split; [|split; auto]. cbn [c_back with_back].
    destruct G as (l & S & TL & _). destruct inc.
    + split; [cbn; congruence|]. cbn. rewrite G3, G4, N1, N2. split; discriminate.
    + split; [cbn; congruence|]. cbn. rewrite G3, N1. split; [discriminate|]. intros ? [= <-].
      destruct (tiles_last _ _ _ TL) as (l' & e & -> & EN). { intros ->. inv TL. lia. }
      apply Forall2_app_inv_l in S as (x1 & x2 & S1 & S2 & ->). inv S2. inv H3. unfold jend. rewrite rev_app_distr.
      cbn [rev app]. clear -H1 EN. destruct e; cbn in H1; subst y; cbn in EN |- *; congruence.
  - destruct inc; [discriminate|]. destruct (size _ _) as [[n|e] s2] eqn:S; [|discriminate].
    injection X as <- <-. eapply size_imageio in S as (J & _ & _ & _ & IM & _ & N); eauto.
    rewrite (N n eq_refl). split; [|split; auto].
    exists [ZeroExtent 0 total false false]. split; [repeat constructor|].
    split. { econstructor; cbn; [auto|auto|]. constructor. }
    split. { intros e [<-|[]]. split; auto. discriminate. }
    exists O. auto.
Qed.

End Restore.
