(* Lemmas about the NBD client. *)
From Coq Require Import ZArith List Bool String Lia.
From Coq.Init Require Import Byte.
From Verif Require Import BytesLib NbdModel NbdSpec.
Import ListNotations.
Open Scope Z_scope.

(* Numbers in bytes *)

Lemma Z_of_byte_range b : 0 <= Z_of_byte b < 256.
Proof.
  unfold Z_of_byte. pose proof (Byte.to_N_bounded b). lia.
Qed.

Lemma Z_of_byte_of_Z z : Z_of_byte (byte_of_Z z) = z mod 256.
Proof.
  unfold Z_of_byte, byte_of_Z.
  assert (0 <= z mod 256 < 256) as H by (apply Z.mod_pos_bound; lia).
  destruct (Byte.of_N (Z.to_N (z mod 256))) eqn:E.
  - apply Byte.to_of_N in E. rewrite E. rewrite Z2N.id by lia. auto.
  - apply Byte.of_N_None_iff in E. lia.
Qed.

Lemma value_app l m : value (l ++ m) = value l * 256 ^ zlen m + value m.
Proof.
  induction l; cbn [value app]; [lia|].
  rewrite IHl, zlen_app, Z.pow_add_r by apply zlen_nonneg. ring.
Qed.

Lemma value_range l : 0 <= value l < 256 ^ zlen l.
Proof.
  induction l; cbn [value].
  - cbn. lia.
  - rewrite zlen_cons, Z.pow_add_r by (pose proof (zlen_nonneg l); lia).
    pose proof (Z_of_byte_range a) as H. unfold Z_of_byte in H. nia.
Qed.

Lemma unbe_value l : unbe l = value l.
Proof.
  unfold unbe.
  assert (forall a, fold_left (fun a b => a * 256 + Z_of_byte b) l a = a * 256 ^ zlen l + value l) as H.
  { induction l as [|b l IH]; intros a; cbn [fold_left value].
    - rewrite zlen_nil. lia.
    - rewrite IH, zlen_cons, Z.pow_add_r by (pose proof (zlen_nonneg l); lia).
      unfold Z_of_byte. ring. }
  rewrite H. lia.
Qed.

Lemma zlen_be n x : zlen (be n x) = Z.of_nat n.
Proof.
  revert x. induction n; intros; cbn [be]; auto.
  rewrite zlen_app, IHn, zlen_cons, zlen_nil. lia.
Qed.

Lemma value_be n x : 0 <= x < 256 ^ Z.of_nat n -> value (be n x) = x.
Proof.
  revert x. induction n; intros x H; cbn [be].
  - cbn in H. cbn. lia.
  - rewrite value_app, IHn.
    + cbn [value]. fold (Z_of_byte (byte_of_Z x)). rewrite Z_of_byte_of_Z.
      rewrite zlen_cons, zlen_nil. pose proof (Z.div_mod x 256). lia.
    + rewrite Nat2Z.inj_succ, Z.pow_succ_r in H by lia. split.
      * apply Z.div_pos; lia.
      * apply Z.div_lt_upper_bound; lia.
Qed.

Lemma u_be n x : 0 <= x < 256 ^ Z.of_nat n -> u (Z.of_nat n) x (be n x).
Proof. split; [apply zlen_be | apply value_be; auto]. Qed.

Lemma u_range n x l : u n x l -> 0 <= x < 256 ^ n.
Proof. intros [<- <-]. apply value_range. Qed.

Lemma value_inj l m : zlen l = zlen m -> value l = value m -> l = m.
Proof.
  revert m. induction l as [|a l IH]; intros [|b m] H E; auto; try discriminate.
  rewrite !zlen_cons in H.
  cbn [value] in E. replace (zlen l) with (zlen m) in E by lia.
  pose proof (value_range l). pose proof (value_range m).
  replace (zlen l) with (zlen m) in * by lia.
  pose proof (Z_of_byte_range a). pose proof (Z_of_byte_range b). unfold Z_of_byte in *.
  assert (Z.of_N (Byte.to_N a) = Z.of_N (Byte.to_N b)) as A by nia.
  apply N2Z.inj in A.
  assert (a = b) as ->.
  { assert (Some a = Some b) as S by (rewrite <- !Byte.of_to_N; congruence). congruence. }
  f_equal. apply IH; lia.
Qed.

Lemma u_fun n x l m : u n x l -> u n x m -> l = m.
Proof. intros [H1 H2] [H3 H4]. apply value_inj; congruence. Qed.

(* One field of a received struct *)
Lemma sub_mid {A} (p a q : list A) o n : zlen p = o -> zlen a = n -> sub o n (p ++ a ++ q) = a.
Proof.
  intros <- <-. unfold sub. rewrite drop_app, drop_all by lia.
  replace (zlen p - zlen p) with 0 by lia. rewrite drop_nonpos by lia. cbn [app].
  rewrite take_app, take_all by lia. rewrite take_nonpos by lia. apply app_nil_r.
Qed.

Lemma field_mid p a q o n x : zlen p = o -> u n x a -> field o n (p ++ a ++ q) = x.
Proof.
  intros H [H1 H2]. unfold field. rewrite sub_mid by auto. rewrite unbe_value. auto.
Qed.
Lemma field_end p a o n x : zlen p = o -> u n x a -> field o n (p ++ a) = x.
Proof. intros. rewrite <- (app_nil_r a). apply field_mid; auto. Qed.
Lemma field_first a q n x : u n x a -> field 0 n (a ++ q) = x.
Proof. intros. apply (field_mid [] a q); auto. Qed.
Lemma unbe_u n x a : u n x a -> unbe a = x.
Proof. intros [_ H]. rewrite unbe_value. auto. Qed.

(* Receiving *)

Lemma set_in_in s a b j i : set_in (set_in s a j) b i = set_in s b i.
Proof. reflexivity. Qed.

Lemma recv_loop_spec v n fuel got s :
  (Z.to_nat (n - zlen got) <= fuel)%nat -> zlen got <= n -> n - zlen got <= zlen (s_in s) ->
  exists i, recv_loop v fuel n got s
            = (got ++ take (n - zlen got) (s_in s), true, set_in s (drop (n - zlen got) (s_in s)) i).
Proof.
  revert got s. induction fuel; intros got s F G L.
  - cbn [recv_loop]. exists (s_tick s). rewrite take_nonpos, drop_nonpos, app_nil_r by lia.
    destruct s; reflexivity.
  - cbn [recv_loop]. destruct (zlen got <? n) eqn:E.
    + apply Z.ltb_lt in E. destruct (s_in s) as [|b r] eqn:I.
      { rewrite zlen_nil in L. lia. }
      remember (Z.max 1 (Z.min (v_recv v (s_tick s)) (Z.min (n - zlen got) (zlen (b :: r))))) as c eqn:C.
      remember (b :: r) as inp eqn:Q.
      assert (1 <= c <= n - zlen got) by lia.
      destruct (IHfuel (got ++ take c inp) (set_in s (drop c inp) (S (s_tick s)))) as [i H0].
      * rewrite zlen_app, zlen_take. lia.
      * rewrite zlen_app, zlen_take. lia.
      * rewrite zlen_app, zlen_take. cbn [s_in set_in]. rewrite zlen_drop. lia.
      * exists i. rewrite H0. cbn [s_in set_in]. rewrite zlen_app, zlen_take.
        replace (n - (zlen got + Z.max 0 (Z.min c (zlen inp)))) with (n - zlen got - c) by lia.
        rewrite drop_drop by lia. replace (c + (n - zlen got - c)) with (n - zlen got) by lia.
        rewrite <- app_assoc.
        replace (take c inp ++ take (n - zlen got - c) (drop c inp)) with (take (n - zlen got) inp); auto.
        replace (n - zlen got) with (c + (n - zlen got - c)) at 1 by lia.
        rewrite take_split by lia. reflexivity.
    + apply Z.ltb_ge in E. exists (s_tick s).
      rewrite take_nonpos, drop_nonpos, app_nil_r by lia. destruct s; reflexivity.
Qed.

Lemma recv_loop_short v n fuel got s :
  (Z.to_nat (n - zlen got) <= fuel)%nat -> zlen (s_in s) < n - zlen got ->
  exists i, recv_loop v fuel n got s = (got ++ s_in s, false, set_in s [] i).
Proof.
  revert got s. induction fuel; intros got s F L.
  - pose proof (zlen_nonneg (s_in s)). lia.
  - cbn [recv_loop]. pose proof (zlen_nonneg (s_in s)).
    destruct (zlen got <? n) eqn:E; [|apply Z.ltb_ge in E; lia].
    destruct (s_in s) as [|b r] eqn:I.
    { eexists. rewrite app_nil_r. reflexivity. }
    remember (Z.max 1 (Z.min (v_recv v (s_tick s)) (Z.min (n - zlen got) (zlen (b :: r))))) as c eqn:C.
    remember (b :: r) as inp eqn:Q.
    assert (0 < zlen inp) by (subst inp; rewrite zlen_cons; pose proof (zlen_nonneg r); lia).
    assert (1 <= c <= zlen inp) by lia.
    destruct (IHfuel (got ++ take c inp) (set_in s (drop c inp) (S (s_tick s)))) as [i H3].
    + rewrite zlen_app, zlen_take. lia.
    + rewrite zlen_app, zlen_take. cbn [s_in set_in]. rewrite zlen_drop. lia.
    + exists i. rewrite H3. cbn [s_in set_in]. rewrite <- app_assoc, take_drop. reflexivity.
Qed.

Lemma recv_spec v n s : 0 <= n <= zlen (s_in s) ->
  exists i, recv v n s = (inl (take n (s_in s)), set_in s (drop n (s_in s)) i).
Proof.
  intros H. unfold recv.
  destruct (recv_loop_spec v n (Z.to_nat n) [] s) as [i E]; rewrite ?zlen_nil; try lia.
  rewrite E. rewrite zlen_nil, Z.sub_0_r. cbn [app]. eauto.
Qed.

Lemma recv_app v n s a r : zlen a = n -> s_in s = a ++ r ->
  exists i, recv v n s = (inl a, set_in s r i).
Proof.
  intros H E. destruct (recv_spec v n s) as [i R].
  - rewrite E, zlen_app. pose proof (zlen_nonneg a). pose proof (zlen_nonneg r). lia.
  - exists i. rewrite R, E. rewrite take_app, drop_app, take_all, drop_all by lia.
    rewrite take_nonpos, drop_nonpos, app_nil_r by lia. reflexivity.
Qed.

Lemma recv_short v n s : zlen (s_in s) < n ->
  exists i, recv v n s = (inr ProtocolError, set_in s [] i).
Proof.
  intros H. unfold recv.
  destruct (recv_loop_short v n (Z.to_nat n) [] s) as [i E]; rewrite ?zlen_nil; try lia.
  rewrite E. eauto.
Qed.

(* Receiving into a part of the buffer *)
Lemma recv_into_slice_spec v s buf a b d r :
  s_buf s = Some buf -> 0 <= a -> b <= zlen buf -> zlen d = b - a -> s_in s = d ++ r ->
  exists i, recv_into_slice v a b s
            = (inl tt, set_buf (set_in s r i) (splice buf a d)).
Proof.
  intros B A L D I. unfold recv_into_slice. rewrite B. pose proof (zlen_nonneg d).
  rewrite !py_stop_nonneg by lia. rewrite (Z.min_l b), (Z.min_l a) by lia.
  destruct (recv_loop_spec v (b - a) (Z.to_nat (b - a)) [] s) as [i E];
    rewrite ?zlen_nil, ?I, ?zlen_app; try (pose proof (zlen_nonneg r); lia).
  rewrite E, zlen_nil, Z.sub_0_r, I, take_app, drop_app, take_all, drop_all by lia.
  rewrite take_nonpos, drop_nonpos, app_nil_r by lia. eauto.
Qed.

(* bind *)
Lemma bind_inl {A B} (m : M A) (f : A -> M B) s x s' : m s = (inl x, s') -> bind m f s = f x s'.
Proof. unfold bind. intros ->. reflexivity. Qed.
Lemma bind_inr {A B} (m : M A) (f : A -> M B) s e s' : m s = (inr e, s') -> bind m f s = (inr e, s').
Proof. unfold bind. intros ->. reflexivity. Qed.

Lemma bind_bind {A B C} (m : M A) (f : A -> M B) (g : B -> M C) s :
  bind (bind m f) g s = bind m (fun x => bind (f x) g) s.
Proof. unfold bind. destruct (m s) as [[x|e] s']; reflexivity. Qed.

(* Descriptors *)
Lemma flags_alloc f : Z.land f (Z.lor STATE_HOLE STATE_ZERO) = flags_in ALLOC f.
Proof.
  cbn [flags_in]. change (Z.lor STATE_HOLE STATE_ZERO) with (Z.ones 2).
  rewrite Z.land_ones by lia. change (2 ^ 2) with 4.
  rewrite !Z.testbit_odd. rewrite Z.shiftr_0_r. rewrite Z.shiftr_div_pow2 by lia.
  change (2 ^ 1) with 2. rewrite !Zodd_mod.
  pose proof (Z.div_mod f 2). pose proof (Z.div_mod (f / 2) 2). pose proof (Z.div_mod f 4).
  pose proof (Z.mod_pos_bound f 2). pose proof (Z.mod_pos_bound (f / 2) 2). pose proof (Z.mod_pos_bound f 4).
  destruct (Zeq_bool (f mod 2) 1) eqn:E1; destruct (Zeq_bool ((f / 2) mod 2) 1) eqn:E2;
    repeat match goal with
    | H : Zeq_bool _ _ = true |- _ => apply Zeq_bool_eq in H
    | H : Zeq_bool _ _ = false |- _ => apply Zeq_bool_neq in H
    end; lia.
Qed.

Lemma flags_dirty f : (if Z.land f STATE_DIRTY =? 0 then 0 else EXTENT_DIRTY) = flags_in DIRTY f.
Proof.
  cbn [flags_in]. change STATE_DIRTY with (Z.ones 1). rewrite Z.land_ones by lia.
  change (2 ^ 1) with 2. rewrite Z.testbit_odd, Z.shiftr_0_r, Zodd_mod.
  pose proof (Z.mod_pos_bound f 2).
  destruct (Zeq_bool (f mod 2) 1) eqn:E1.
  - apply Zeq_bool_eq in E1. rewrite E1. reflexivity.
  - apply Zeq_bool_neq in E1. replace (f mod 2) with 0 by lia. reflexivity.
Qed.

Lemma extent_unpack_spec c a b n f : u 4 n a -> u 4 f b -> n <> 0 ->
  extent_unpack (a ++ b) c = inl (Extent n (flags_in c f)).
Proof.
  intros A B N. unfold extent_unpack.
  rewrite (field_first a b 4 n) by auto. rewrite (field_end a b 4 4 f) by (auto; apply A).
  apply Z.eqb_neq in N. rewrite N. f_equal. f_equal.
  destruct c; [apply flags_alloc | reflexivity | apply flags_dirty].
Qed.

Lemma unpack_all_spec k c ds l fuel :
  descs_bytes ds l -> (List.length l <= fuel)%nat -> k_minblock k <> 0 ->
  Forall (fun d => fst d <> 0 /\ fst d mod k_minblock k = 0) ds ->
  unpack_all k fuel l c = inl (extents_of c ds).
Proof.
  intros D. revert fuel. induction D as [|n f a b l r A B D IH]; intros fuel F M G.
  - destruct fuel; reflexivity.
  - inversion G as [|x y [G1 G2] G3]; subst. cbn [fst] in *.
    rewrite !app_length in F.
    assert (zlen a = 4) as LA by apply A. assert (zlen b = 4) as LB by apply B.
    unfold zlen in LA, LB.
    destruct fuel as [|fuel]; [lia|]. cbn [unpack_all].
    assert (zlen (a ++ b ++ l) =? 0 = false) as ->.
    { apply Z.eqb_neq. rewrite !zlen_app. unfold zlen. lia. }
    replace (sub 0 8 (a ++ b ++ l)) with (a ++ b).
    2:{ rewrite app_assoc. symmetry. apply (sub_mid [] (a ++ b) l); auto.
        rewrite zlen_app. unfold zlen. lia. }
    rewrite (extent_unpack_spec c a b n f) by auto. cbn [e_length].
    apply Z.eqb_neq in M as M'. rewrite M'. rewrite G2. cbn [Z.eqb negb].
    replace (drop 8 (a ++ b ++ l)) with l.
    2:{ rewrite app_assoc, drop_app, drop_all by (rewrite zlen_app; unfold zlen; lia).
        rewrite drop_nonpos by (rewrite zlen_app; unfold zlen; lia). reflexivity. }
    rewrite IH by (auto; lia). reflexivity.
Qed.

Lemma descs_len ds l : descs_bytes ds l -> zlen l = 8 * zlen ds.
Proof.
  induction 1 as [|n f a b l r [A _] [B _] D IH]; auto.
  rewrite !zlen_app, zlen_cons. lia.
Qed.

Lemma descs_nil ds : descs_bytes ds [] -> ds = [].
Proof. intros D. apply descs_len in D. rewrite zlen_nil in D. apply zlen_0. lia. Qed.

(* Descriptors can be cut at each one. *)
Lemma descs_cut ds l n : descs_bytes ds l -> 0 <= n ->
  descs_bytes (take n ds) (take (8 * n) l) /\ descs_bytes (drop n ds) (drop (8 * n) l).
Proof.
  intros D. revert n. induction D as [|m f a b l r A B D IH]; intros n N.
  - unfold take, drop. rewrite !firstn_nil, !skipn_nil. split; constructor.
  - destruct (Z.eq_dec n 0) as [->|N0].
    + rewrite !take_nonpos, !drop_nonpos by lia. split; constructor; auto.
    + assert (zlen a = 4) as LA by apply A. assert (zlen b = 4) as LB by apply B.
      destruct (IH (n - 1)) as [I1 I2]; [lia|].
      unfold take, drop in *. replace (Z.to_nat n) with (S (Z.to_nat (n - 1))) by lia.
      cbn [firstn skipn].
      replace (Z.to_nat (8 * n)) with (List.length (a ++ b) + Z.to_nat (8 * (n - 1)))%nat.
      2:{ rewrite app_length. unfold zlen in *. lia. }
      rewrite app_assoc. rewrite firstn_app_2, skipn_app.
      rewrite (skipn_all2 (a ++ b)) by lia. replace (List.length (a ++ b) + Z.to_nat (8 * (n - 1)) - List.length (a ++ b))%nat
        with (Z.to_nat (8 * (n - 1))) by lia.
      cbn [app]. rewrite <- app_assoc. split; auto. constructor; auto.
Qed.

Lemma extents_of_app c a b : extents_of c (a ++ b) = extents_of c a ++ extents_of c b.
Proof. apply map_app. Qed.

Lemma recv_extents_spec v k c fuel ds l n s r :
  descs_bytes ds l -> (List.length l <= fuel)%nat -> s_in s = l ++ r ->
  0 < n -> (n < zlen l -> n mod 8 = 0) -> k_minblock k <> 0 ->
  Forall (fun d => fst d <> 0 /\ fst d mod k_minblock k = 0) ds ->
  exists i, recv_extents v k fuel (zlen l) n c s = (inl (extents_of c ds), set_in s r i).
Proof.
  revert ds l n s. induction fuel as [|fuel IH]; intros ds l n s D F I N M8 MB G.
  - destruct l; cbn [List.length] in F; [|lia]. apply descs_nil in D. subst ds.
    cbn [recv_extents]. exists (s_tick s). cbn [app] in I. subst r. destruct s; reflexivity.
  - cbn [recv_extents]. destruct (zlen l =? 0) eqn:Z0.
    + apply Z.eqb_eq in Z0. apply zlen_0 in Z0. subst l. apply descs_nil in D. subst ds.
      exists (s_tick s). cbn [app] in I. subst r. destruct s; reflexivity.
    + apply Z.eqb_neq in Z0. pose proof (descs_len ds l D) as DL. pose proof (zlen_nonneg l).
      pose proof (zlen_nonneg ds).
      remember (Z.min (zlen l) n) as m eqn:Em.
      assert (m = 8 * (m / 8)) as M.
      { destruct (Z_lt_dec n (zlen l)).
        - replace m with n by lia. pose proof (Z.div_mod n 8). specialize (M8 l0). lia.
        - replace m with (zlen l) by lia. rewrite DL. rewrite (Z.mul_comm 8 (zlen ds)), Z.div_mul by lia. lia. }
      remember (m / 8) as q eqn:Eq.
      destruct (descs_cut ds l q D) as [D1 D2]; [lia|]. rewrite <- M in D1, D2.
      destruct (recv_app v m s (take m l) (drop m l ++ r)) as [i R].
      { rewrite zlen_take. lia. }
      { rewrite app_assoc, take_drop. auto. }
      rewrite (bind_inl _ _ _ _ _ R).
      assert (Forall (fun d => fst d <> 0 /\ fst d mod k_minblock k = 0) (take q ds ++ drop q ds)) as G'.
      { rewrite take_drop. auto. }
      apply Forall_app in G' as [G1 G2].
      rewrite (bind_inl _ _ _ (extents_of c (take q ds)) (set_in s (drop m l ++ r) i)).
      2:{ unfold lift. rewrite (unpack_all_spec k c (take q ds)); auto. }
      destruct (IH (drop q ds) (drop m l) m (set_in s (drop m l ++ r) i)) as [j J]; auto.
      * assert (zlen (drop m l) = zlen l - m) as X by (rewrite zlen_drop; lia).
        unfold zlen in X, Em, N. lia.
      * lia.
      * rewrite zlen_drop. intros. destruct (Z_lt_dec n (zlen l)).
        -- replace m with n by lia. auto.
        -- lia.
      * assert (zlen (drop m l) = zlen l - m) as X by (rewrite zlen_drop; lia).
        rewrite X in J. rewrite (bind_inl _ _ _ _ _ J).
        exists j. unfold ret. rewrite <- extents_of_app, take_drop. reflexivity.
Qed.

(* ---- one chunk ---- *)

(* What a chunk does to the command. *)
Definition context_of (k : client) (name : string) : context :=
  if match k_dirty k with Some b => String.eqb name b | None => false end then DIRTY
  else if String.eqb name QEMU_ALLOCATION_DEPTH then DEPTH else ALLOC.

Lemma context_of_kind k name c : kind_of k name c -> context_of k name = c.
Proof.
  unfold kind_of, context_of. destruct c.
  - intros [A B]. apply String.eqb_neq in B. unfold QEMU_ALLOCATION_DEPTH. rewrite B.
    destruct (k_dirty k) as [b|]; auto. destruct (String.eqb_spec name b); auto. congruence.
  - intros [A ->]. destruct (k_dirty k) as [b|]; auto.
    destruct (String.eqb_spec "qemu:allocation-depth"%string b); auto. congruence.
  - intros ->. rewrite String.eqb_refl. auto.
Qed.

Definition acceptable (k : client) (offset : Z) (s : st) (c : chunk) : Prop :=
  match c with
  | CNone => True
  | CData o d => exists buf, s_buf s = Some buf /\ offset <= o /\ o + zlen d <= offset + zlen buf
  | CHole o m => exists buf, s_buf s = Some buf /\ 0 < m /\ offset <= o /\ o + m <= offset + zlen buf
  | CStatus i ds =>
      exists r, s_reply s = Some r /\ k_meta k i <> None /\ ds <> [] /\ zlen ds <= MAX_EXTENTS
      /\ k_minblock k <> 0 /\ Forall (fun d => fst d <> 0 /\ fst d mod k_minblock k = 0) ds
  | CError code _ => code < 2 ^ 31
  | CErrorOffset code _ _ => code < 2 ^ 31
  end.

Definition apply_chunk (k : client) (offset : Z) (c : chunk) (s : st) : st :=
  match c with
  | CData o d => match s_buf s with Some buf => set_buf s (splice buf (o - offset) d) | None => s end
  | CHole o m => match s_buf s with Some buf => set_buf s (splice buf (o - offset) (zeros m)) | None => s end
  | CStatus i ds =>
      match k_meta k i, s_reply s with
      | Some name, Some r => set_reply s ((name, extents_of (context_of k name) ds) :: r)
      | _, _ => s
      end
  | CErrorOffset code _ o => add_error s (o, code)
  | _ => s
  end.

(* Applying a chunk does not depend on the socket *)
Lemma apply_chunk_in k offset c s r i :
  apply_chunk k offset c (set_in s r i) = set_in (apply_chunk k offset c s) r i.
Proof.
  destruct c; cbn [apply_chunk]; auto.
  - cbn [s_buf set_in]. destruct (s_buf s); reflexivity.
  - cbn [s_buf set_in]. destruct (s_buf s); reflexivity.
  - cbn [s_reply set_in]. destruct (k_meta k id); auto. destruct (s_reply s); reflexivity.
Qed.

Lemma recv_error_chunk_spec v s c m a b r len :
  u 4 c a -> u 2 (zlen m) b -> s_in s = a ++ b ++ m ++ r -> len = 6 + zlen m ->
  exists i, recv_error_chunk v len s = (inl c, set_in s r i).
Proof.
  intros A B I L. unfold recv_error_chunk.
  assert (zlen a = 4) as LA by apply A. assert (zlen b = 2) as LB by apply B.
  destruct (recv_app v 6 s (a ++ b) (m ++ r)) as [i R].
  { rewrite zlen_app. lia. }
  { rewrite <- app_assoc. auto. }
  rewrite (bind_inl _ _ _ _ _ R).
  rewrite (field_first a b 4 c) by auto. rewrite (field_end a b 4 2 (zlen m)) by auto.
  replace (zlen m =? len - 6) with true by (symmetry; apply Z.eqb_eq; lia). cbn [negb].
  destruct (recv_app v (zlen m) (set_in s (m ++ r) i) m r) as [j J]; auto.
  rewrite (bind_inl _ _ _ _ _ J). unfold ret. exists j. reflexivity.
Qed.

Lemma payload_type c ty x : payload_bytes c ty x ->
  ty = match c with CNone => 0 | CData _ _ => 1 | CHole _ _ => 2 | CStatus _ _ => 5
       | CError _ _ => 32769 | CErrorOffset _ _ _ => 32770 end.
Proof. destruct 1; reflexivity. Qed.

(* The chunk after the magic *)
(* Decide comparisons of constants. *)
Ltac ceq := repeat match goal with
  | |- context [?x =? ?y] => first [change (x =? y) with true | change (x =? y) with false]
  end.

Lemma recv_reply_chunk_spec v k handle offset done c l s r a tail :
  chunk_bytes handle done c l -> zlen a = 4 -> l = a ++ tail -> s_in s = tail ++ r ->
  acceptable k offset s c -> (c = CNone -> done = true) ->
  exists i, recv_reply_chunk v k handle offset s =
    match c with
    | CError code _ => (inr (if done then ReplyError code else ProtocolError), set_in s r i)
    | _ => (inl done, set_in (apply_chunk k offset c s) r i)
    end.
Proof.
  intros (a' & b & ty & d & e & f & x & fl & L & A' & B & FL & T & H & E & P) LA L' I AC DN.
  rewrite L' in L. apply app_inj_tail_iff in L || idtac.
  assert (a = a' /\ tail = b ++ f ++ d ++ e ++ x) as [-> ->].
  { apply app_eq_app in L as [q [[L1 L2]|[L1 L2]]];
      assert (zlen q = 0) as Q by (apply (f_equal (@zlen byte)) in L1; rewrite zlen_app in L1; destruct A' as [A' _]; lia);
      apply zlen_0 in Q; subst q; rewrite ?app_nil_r in *; cbn [app] in *; auto. }
  clear L L'.
  assert (zlen b = 2) as LB by apply B. assert (zlen d = 8) as LD by apply H.
  assert (zlen e = 4) as LE by apply E. assert (zlen f = 2) as LF by apply T.
  unfold recv_reply_chunk.
  destruct (recv_app v 16 s (b ++ f ++ d ++ e) (x ++ r)) as [i R].
  { rewrite !zlen_app. lia. }
  { rewrite I. rewrite <- !app_assoc. reflexivity. }
  rewrite (bind_inl _ _ _ _ _ R).
  rewrite (field_first b _ 2 fl) by auto.
  rewrite (field_mid b f (d ++ e) 2 2 ty) by auto.
  replace (field 4 8 (b ++ f ++ d ++ e)) with handle.
  2:{ symmetry. rewrite app_assoc. apply (field_mid (b ++ f) d e); auto. rewrite zlen_app. lia. }
  replace (field 12 4 (b ++ f ++ d ++ e)) with (zlen x).
  2:{ symmetry. rewrite !app_assoc. apply field_end; auto. rewrite !zlen_app. lia. }
  rewrite Z.eqb_refl. cbn [negb].
  remember (set_in s (x ++ r) i) as s1 eqn:S1.
  assert (I1 : s_in s1 = x ++ r) by (subst s1; reflexivity).
  destruct P as [|o dd pa O|o n pa pb O N|id ds pa pl ID DS|code m pa pb C M|code m o pa pb pe C M O].
  - (* none *)
    ceq. cbn iota.
    cbn iota. rewrite (bind_inl _ _ _ tt s1) by reflexivity.
    unfold handle_none_chunk. rewrite FL, (DN eq_refl). cbn [negb].
    change (zlen [] =? 0) with true. cbn [negb].
    rewrite (bind_inl _ _ _ tt s1) by reflexivity. unfold ret. exists i. subst s1. reflexivity.
  - (* data *)
    ceq. cbn iota.
    cbn iota. rewrite (bind_inl _ _ _ tt s1) by reflexivity.
    destruct AC as (buf & SB & O1 & O2).
    assert (zlen pa = 8) as LP by apply O.
    unfold handle_data_chunk. rewrite bind_bind.
    destruct (recv_app v 8 s1 pa (dd ++ r)) as [j J]; auto.
    { rewrite I1, <- app_assoc. auto. }
    rewrite (bind_inl _ _ _ _ _ J). rewrite (unbe_u 8 o pa O).
    destruct (recv_into_slice_spec v (set_in s1 (dd ++ r) j) buf (o - offset) (o - offset + (zlen (pa ++ dd) - 8)) dd r) as [q Q].
    + subst s1. auto.
    + lia.
    + rewrite zlen_app. lia.
    + rewrite zlen_app. lia.
    + reflexivity.
    + rewrite (bind_inl _ _ _ _ _ Q). unfold ret. exists q. rewrite FL. cbn [apply_chunk]. rewrite SB. subst s1. reflexivity.
  - (* hole *)
    ceq. cbn iota.
    cbn iota. rewrite (bind_inl _ _ _ tt s1) by reflexivity.
    destruct AC as (buf & SB & N0 & O1 & O2).
    assert (zlen pa = 8) as LP by apply O. assert (zlen pb = 4) as LPB by apply N.
    unfold handle_hole_chunk. replace (zlen (pa ++ pb) =? 12) with true by (symmetry; apply Z.eqb_eq; rewrite zlen_app; lia).
    cbn [negb]. rewrite bind_bind.
    destruct (recv_app v 12 s1 (pa ++ pb) r) as [j J]; auto.
    { rewrite zlen_app. lia. }
    rewrite (bind_inl _ _ _ _ _ J). rewrite (field_first pa pb 8 o) by auto. rewrite (field_end pa pb 8 4 n) by auto.
    replace (n =? 0) with false by (symmetry; apply Z.eqb_neq; lia).
    assert (SB1 : s_buf (set_in s1 r j) = Some buf) by (subst s1; auto). unfold bind; cbv beta. rewrite SB1.
    rewrite !py_stop_nonneg by lia. rewrite (Z.min_l (o - offset + n)), (Z.min_l (o - offset)) by lia.
    replace (Z.max 0 (o - offset + n - (o - offset)) =? n) with true by (symmetry; apply Z.eqb_eq; lia).
    unfold ret. exists j. rewrite FL. cbn [apply_chunk]. rewrite SB. subst s1. reflexivity.
  - (* block status *)
    ceq. cbn iota.
    cbn iota. rewrite (bind_inl _ _ _ tt s1) by reflexivity.
    destruct AC as (rp & SR & K & DN0 & MX & MB & G).
    assert (zlen pa = 4) as LP by apply ID. pose proof (descs_len ds pl DS) as DL.
    assert (0 < zlen ds) as DP by (apply zlen_pos; auto).
    unfold handle_block_status_chunk.
    assert (zlen (pa ++ pl) / 8 = zlen ds /\ zlen (pa ++ pl) mod 8 = 4) as [D8 M8].
    { rewrite zlen_app, LP, DL. split.
      - replace (4 + 8 * zlen ds) with (4 + zlen ds * 8) by lia. rewrite Z.div_add by lia. reflexivity.
      - replace (4 + 8 * zlen ds) with (4 + zlen ds * 8) by lia. rewrite Z.mod_add by lia. reflexivity. }
    rewrite D8, M8. replace (zlen ds =? 0) with false by (symmetry; apply Z.eqb_neq; lia).
    change (4 =? 4) with true. cbn [orb negb].
    replace (zlen ds >? MAX_EXTENTS) with false by (symmetry; rewrite Z.gtb_ltb; apply Z.ltb_ge; lia).
    rewrite bind_bind.
    destruct (recv_app v 4 s1 pa (pl ++ r)) as [j J]; auto.
    { rewrite I1, <- app_assoc. auto. }
    rewrite (bind_inl _ _ _ _ _ J). rewrite (unbe_u 4 id pa ID).
    cbn [apply_chunk]. destruct (k_meta k id) as [name|] eqn:KM; [|congruence]. fold (context_of k name).
    replace (zlen (pa ++ pl) - 4) with (zlen pl) by (rewrite zlen_app; lia).
    destruct (recv_extents_spec v k (context_of k name) (Z.to_nat (zlen (pa ++ pl))) ds pl
                (Z.min (zlen pl) (8 * 1024)) (set_in s1 (pl ++ r) j) r) as [q Q]; auto.
    + rewrite zlen_app. unfold zlen. lia.
    + lia.
    + intros. replace (Z.min (zlen pl) (8 * 1024)) with (1024 * 8) by lia. apply Z.mod_mul. lia.
    + rewrite bind_bind. rewrite (bind_inl _ _ _ _ _ Q). unfold ret.
      assert (SR1 : s_reply (set_in (set_in s1 (pl ++ r) j) r q) = Some rp) by (subst s1; auto).
      unfold bind; cbv beta. rewrite SR1. exists q. rewrite FL. rewrite SR. subst s1. reflexivity.
  - (* error *)
    ceq. cbn iota.
    unfold handle_error_chunk. rewrite bind_bind.
    destruct (recv_error_chunk_spec v s1 code m pa pb r (zlen (pa ++ pb ++ m))) as [j J]; auto.
    { rewrite I1, <- !app_assoc. auto. }
    { rewrite !zlen_app. destruct C as [C _]. destruct M as [M _]. lia. }
    rewrite (bind_inl _ _ _ _ _ J). rewrite FL. cbn [acceptable] in AC. unfold raise, reply_error.
    exists j. subst s1. rewrite set_in_in.
    replace (code >=? 2 ^ 31) with false by (symmetry; rewrite Z.geb_leb; apply Z.leb_gt; lia).
    destruct done; reflexivity.
  - (* error at offset *)
    ceq. cbn iota.
    cbn iota. rewrite (bind_inl _ _ _ tt s1) by reflexivity.
    unfold handle_error_offset_chunk. rewrite bind_bind.
    destruct (recv_error_chunk_spec v s1 code m pa pb (pe ++ r) (zlen (pa ++ pb ++ m ++ pe) - 8)) as [j J]; auto.
    { rewrite I1, <- !app_assoc. auto. }
    { rewrite !zlen_app. destruct C as [C _]. destruct M as [M _]. destruct O as [O _]. lia. }
    rewrite (bind_inl _ _ _ _ _ J). rewrite bind_bind.
    destruct (recv_app v 8 (set_in s1 (pe ++ r) j) pe r) as [q Q]; auto.
    { apply O. }
    rewrite (bind_inl _ _ _ _ _ Q). cbn [acceptable] in AC. unfold reply_error.
    replace (code >=? 2 ^ 31) with false by (symmetry; rewrite Z.geb_leb; apply Z.leb_gt; lia).
    unfold ret. rewrite FL. exists q. cbn [apply_chunk]. rewrite (unbe_u 8 o pe O). subst s1. reflexivity.
Qed.

(* ---- a whole reply ---- *)

Lemma zlen_splice_in l pos d : 0 <= pos -> pos + zlen d <= zlen l -> zlen (splice l pos d) = zlen l.
Proof.
  intros. rewrite zlen_splice by auto. destruct d; auto.
  rewrite zlen_cons in *. pose proof (zlen_nonneg d). lia.
Qed.

Fixpoint outcome (k : client) (offset : Z) (cs : list chunk) (s : st) : (unit + exc) * st :=
  match cs with
  | [] => (match s_errors s with [] => inl tt | _ => inr RequestError end, s)
  | CError code _ :: _ => (inr (ReplyError code), s)
  | c :: cs => outcome k offset cs (apply_chunk k offset c s)
  end.

Lemma outcome_in k offset cs s r i :
  outcome k offset cs (set_in s r i) =
  (fst (outcome k offset cs s), set_in (snd (outcome k offset cs s)) r i).
Proof.
  revert s. induction cs as [|c cs IH]; intros s; [reflexivity|].
  destruct c; cbn [outcome]; rewrite ?apply_chunk_in, ?IH; reflexivity.
Qed.

Lemma acceptable_apply k offset s c c' :
  acceptable k offset s c -> acceptable k offset s c' -> acceptable k offset (apply_chunk k offset c' s) c.
Proof.
  intros A A'.
  assert (B : forall buf, s_buf s = Some buf ->
              exists buf', s_buf (apply_chunk k offset c' s) = Some buf' /\ zlen buf' = zlen buf).
  { intros buf SB. destruct c'; cbn [apply_chunk]; eauto.
    - destruct A' as (b & X & O1 & O2). rewrite SB in *. injection X as <-.
      cbn [s_buf set_buf]. eexists. split; eauto. apply zlen_splice_in; lia.
    - destruct A' as (b & X & N & O1 & O2). rewrite SB in *. injection X as <-.
      cbn [s_buf set_buf]. eexists. split; eauto. apply zlen_splice_in; rewrite ?zlen_zeros; lia.
    - destruct (k_meta k id), (s_reply s); eauto. }
  assert (R : forall r, s_reply s = Some r -> exists r', s_reply (apply_chunk k offset c' s) = Some r').
  { intros r SR. destruct c'; cbn [apply_chunk]; eauto.
    - destruct (s_buf s); eauto.
    - destruct (s_buf s); eauto.
    - rewrite SR. destruct (k_meta k id); cbn; eauto. }
  destruct c; cbn [acceptable] in *; auto.
  - destruct A as (b & X & Y). destruct (B b X) as (b' & X' & L). exists b'. rewrite L. auto.
  - destruct A as (b & X & Y). destruct (B b X) as (b' & X' & L). exists b'. rewrite L. auto.
  - destruct A as (b & X & Y). destruct (R b X) as (b' & X'). exists b'. auto.
Qed.

Lemma apply_chunk_structured k offset c s : s_structured (apply_chunk k offset c s) = s_structured s.
Proof.
  destruct c; cbn [apply_chunk]; auto.
  - destruct (s_buf s); auto.
  - destruct (s_buf s); auto.
  - destruct (k_meta k id), (s_reply s); auto.
Qed.

Lemma set_structured_in s r i : set_structured (set_in s r i) = set_in (set_structured s) r i.
Proof. reflexivity. Qed.
Lemma set_structured_same s : s_structured s = true -> set_structured s = s.
Proof. destruct s; cbn. intros ->. reflexivity. Qed.

Lemma chunk_bytes_magic h done c l : chunk_bytes h done c l ->
  exists a tail, l = a ++ tail /\ u 4 STRUCTURED_REPLY_MAGIC a.
Proof. intros (a & b & ty & d & e & f & x & fl & L & A & _). eauto. Qed.

Lemma acceptable_structured k offset s c : acceptable k offset s c -> acceptable k offset (set_structured s) c.
Proof. destruct c; auto. Qed.
Lemma acceptable_in k offset s c r i : acceptable k offset s c -> acceptable k offset (set_in s r i) c.
Proof. destruct c; auto. Qed.

Lemma reply_bytes_len h cs l : reply_bytes h cs l -> (List.length cs <= List.length l)%nat /\ cs <> [].
Proof.
  assert (X : forall d c l, chunk_bytes h d c l -> (1 <= List.length l)%nat).
  { intros d c l' C. apply chunk_bytes_magic in C as (a & tail & -> & [A _]).
    rewrite app_length. unfold zlen in A. lia. }
  induction 1.
  - apply X in H. cbn. split; [lia|discriminate].
  - apply X in H1. rewrite app_length. cbn [List.length]. split; [lia|discriminate].
Qed.

Lemma recv_reply_loop_spec v k h offset cs l fuel s r :
  reply_bytes h cs l -> k_structured k = true -> s_in s = l ++ r ->
  (List.length cs <= fuel)%nat -> Forall (acceptable k offset s) cs ->
  exists i, recv_reply_loop v k fuel h offset s =
    (fst (outcome k offset cs (set_structured s)),
     set_in (snd (outcome k offset cs (set_structured s))) r i).
Proof.
  intros R. revert fuel s. induction R as [c l C|c l cs l' N1 N2 C R IH]; intros fuel s K I F AC.
  - destruct fuel as [|fuel]; [cbn in F; lia|]. cbn [recv_reply_loop].
    destruct (chunk_bytes_magic _ _ _ _ C) as (a & tail & L & [LA VA]).
    inversion AC as [|x y AC1 _]; subst x y.
    destruct (recv_app v 4 s a (tail ++ r)) as [i R1]; auto.
    { rewrite I, L, <- app_assoc. auto. }
    rewrite (bind_inl _ _ _ _ _ R1). rewrite unbe_value, VA.
    rewrite (bind_inl get _ _ (set_in s (tail ++ r) i) (set_in s (tail ++ r) i)) by reflexivity.
    ceq. cbn iota. rewrite K. cbn [negb].
    rewrite (bind_inl _ _ _ tt (set_structured (set_in s (tail ++ r) i))) by reflexivity.
    destruct (recv_reply_chunk_spec v k h offset true c l (set_structured (set_in s (tail ++ r) i)) r a tail)
      as [j J]; auto.
    destruct c; cbn [outcome].
    5:{ rewrite (bind_inr _ _ _ _ _ J). exists j. reflexivity. }
    all: rewrite (bind_inl _ _ _ _ _ J); cbn iota;
      match goal with |- context [bind get _ ?x] => rewrite (bind_inl get _ x x x) by reflexivity end;
      rewrite set_structured_in, apply_chunk_in; cbn [s_errors set_in fst snd];
      match goal with |- context [s_errors ?x] => destruct (s_errors x) eqn:SE end;
      unfold ret, raise; exists j; rewrite ?set_in_in; reflexivity.
  - destruct fuel as [|fuel]; [cbn in F; lia|]. cbn [recv_reply_loop].
    destruct (chunk_bytes_magic _ _ _ _ C) as (a & tail & L & [LA VA]).
    inversion AC as [|x y AC1 AC2]; subst x y.
    destruct (recv_app v 4 s a (tail ++ l' ++ r)) as [i R1]; auto.
    { rewrite I, L, <- !app_assoc. auto. }
    rewrite (bind_inl _ _ _ _ _ R1). rewrite unbe_value, VA.
    rewrite (bind_inl get _ _ (set_in s (tail ++ l' ++ r) i) (set_in s (tail ++ l' ++ r) i)) by reflexivity.
    ceq. cbn iota. rewrite K. cbn [negb].
    rewrite (bind_inl _ _ _ tt (set_structured (set_in s (tail ++ l' ++ r) i))) by reflexivity.
    destruct (recv_reply_chunk_spec v k h offset false c l (set_structured (set_in s (tail ++ l' ++ r) i)) (l' ++ r) a tail)
      as [j J]; auto.
    assert (J' : recv_reply_chunk v k h offset (set_structured (set_in s (tail ++ l' ++ r) i)) =
       (inl false, set_in (apply_chunk k offset c (set_structured s)) (l' ++ r) j)).
    { rewrite J. rewrite set_structured_in, apply_chunk_in. destruct c; try reflexivity.
      exfalso. eapply N2. reflexivity. }
    rewrite (bind_inl _ _ _ _ _ J'). cbn iota.
    destruct (IH fuel (set_in (apply_chunk k offset c (set_structured s)) (l' ++ r) j)) as [q Q]; auto.
    { cbn in F. lia. }
    { rewrite Forall_forall in *. intros x X. apply acceptable_in, acceptable_apply.
      - apply acceptable_structured; auto.
      - apply acceptable_structured; auto. }
    rewrite Q. exists q.
    rewrite set_structured_in, outcome_in. rewrite set_structured_same.
    2:{ rewrite apply_chunk_structured. reflexivity. }
    cbn [fst snd]. rewrite set_in_in.
    destruct c; try reflexivity. exfalso. eapply N2. reflexivity.
Qed.

Lemma recv_reply_spec v k h offset cs l s r :
  reply_bytes h cs l -> k_structured k = true -> s_in s = l ++ r ->
  Forall (acceptable k offset s) cs ->
  exists i, recv_reply v k h offset s =
    (fst (outcome k offset cs (set_structured s)),
     set_in (snd (outcome k offset cs (set_structured s))) r i).
Proof.
  intros R K I A. unfold recv_reply. eapply recv_reply_loop_spec; eauto.
  apply reply_bytes_len in R as [R _]. rewrite I, app_length. lia.
Qed.

(* A simple reply *)
Lemma splice_whole l d : zlen d = zlen l -> splice l 0 d = d.
Proof.
  intros H. apply bytes_ext.
  - rewrite zlen_splice_in; lia.
  - intros i I. rewrite getb_splice by lia. rewrite zlen_splice_in in I by lia.
    replace (0 <=? i) with true by lia. replace (i <? 0 + zlen d) with true by lia.
    cbn [andb]. f_equal. lia.
Qed.

Lemma recv_simple_ok v k h offset s r l d :
  simple_bytes 0 h d l -> s_structured s = false -> s_in s = l ++ r ->
  match s_buf s with Some b => zlen d = zlen b | None => d = [] end ->
  exists i, recv_reply v k h offset s =
    (inl tt, set_in (match s_buf s with Some _ => set_buf s d | None => s end) r i).
Proof.
  intros (a & b & c & -> & [LA VA] & B & C) SS I D. unfold recv_reply. cbn [recv_reply_loop].
  destruct (recv_app v 4 s a ((b ++ c ++ d) ++ r)) as [i R1]; auto.
  { rewrite I, <- !app_assoc. auto. }
  rewrite (bind_inl _ _ _ _ _ R1). rewrite unbe_value, VA.
  match goal with |- context [bind get _ ?x] => rewrite (bind_inl get _ x x x) by reflexivity end.
  ceq. cbn iota. cbn [s_structured set_in]. rewrite SS. unfold recv_simple_reply.
  assert (zlen b = 4) as LB by apply B. assert (zlen c = 8) as LC by apply C.
  match goal with |- context [bind _ _ ?x] =>
    destruct (recv_app v 12 x (b ++ c) (d ++ r)) as [j J] end.
  { rewrite zlen_app. lia. }
  { cbn [s_in set_in]. rewrite <- !app_assoc. auto. }
  rewrite (bind_inl _ _ _ _ _ J).
  rewrite (field_first b c 4 0) by auto. rewrite (field_end b c 4 8 h) by auto.
  rewrite !Z.eqb_refl. cbn [negb].
  match goal with |- context [bind get _ ?x] => rewrite (bind_inl get _ x x x) by reflexivity end.
  rewrite set_in_in. cbn [s_buf set_in].
  destruct (s_buf s) as [[|x buf]|] eqn:SB.
  - apply zlen_0 in D. subst d. exists j. unfold ret. destruct s; cbn in *. subst. reflexivity.
  - destruct (recv_into_slice_spec v (set_in s (d ++ r) j) (x :: buf) 0 (zlen (x :: buf)) d r) as [q Q]; auto.
    + lia.
    + lia.
    + rewrite Q. exists q. rewrite splice_whole by auto. reflexivity.
  - subst d. exists j. reflexivity.
Qed.

Lemma recv_simple_error v k h offset s r l code h' :
  simple_bytes code h' [] l -> s_structured s = false -> s_in s = l ++ r -> 0 < code < 2 ^ 31 ->
  exists i, recv_reply v k h offset s = (inr (ReplyError code), set_in s r i).
Proof.
  intros (a & b & c & -> & [LA VA] & B & C) SS I D. unfold recv_reply. cbn [recv_reply_loop].
  rewrite app_nil_r in I.
  destruct (recv_app v 4 s a ((b ++ c) ++ r)) as [i R1]; auto.
  { rewrite I, <- !app_assoc. auto. }
  rewrite (bind_inl _ _ _ _ _ R1). rewrite unbe_value, VA.
  match goal with |- context [bind get _ ?x] => rewrite (bind_inl get _ x x x) by reflexivity end.
  ceq. cbn iota. cbn [s_structured set_in]. rewrite SS. unfold recv_simple_reply.
  assert (zlen b = 4) as LB by apply B. assert (zlen c = 8) as LC by apply C.
  match goal with |- context [bind _ _ ?x] =>
    destruct (recv_app v 12 x (b ++ c) r) as [j J] end.
  { rewrite zlen_app. lia. }
  { reflexivity. }
  rewrite (bind_inl _ _ _ _ _ J).
  rewrite (field_first b c 4 code) by auto.
  replace (code =? 0) with false by (symmetry; apply Z.eqb_neq; lia). cbn [negb].
  unfold raise, reply_error.
  replace (code >=? 2 ^ 31) with false by (symmetry; rewrite Z.geb_leb; apply Z.leb_gt; lia).
  exists j. reflexivity.
Qed.

(* ---- sending a command ---- *)

Lemma pack_spec n x : 0 <= x < 256 ^ Z.of_nat n ->
  exists l, pack n x = inl l /\ u (Z.of_nat n) x l.
Proof.
  intros H. unfold pack. replace (0 <=? x) with true by lia.
  replace (x <? 256 ^ Z.of_nat n) with true by lia. cbn [andb].
  exists (be n x). split; auto. apply u_be; auto.
Qed.

Lemma to_bytes_spec flags type handle offset length :
  0 <= flags < 2 ^ 16 -> 0 <= type < 2 ^ 16 -> 0 <= handle < 2 ^ 64 -> 0 <= offset < 2 ^ 64 ->
  0 <= length < 2 ^ 32 ->
  exists l, to_bytes flags type handle offset length = inl l
            /\ request_bytes flags type handle offset length l.
Proof.
  intros. unfold to_bytes.
  destruct (pack_spec 4 REQUEST_MAGIC) as (a & -> & A); [cbv; intuition discriminate|].
  destruct (pack_spec 2 flags) as (b & -> & B); [lia|].
  destruct (pack_spec 2 type) as (c & -> & C); [lia|].
  destruct (pack_spec 8 handle) as (d & -> & D); [lia|].
  destruct (pack_spec 8 offset) as (e & -> & E); [lia|].
  destruct (pack_spec 4 length) as (f & -> & F); [lia|].
  eexists. split; [reflexivity|]. exists a, b, c, d, e, f. auto 10.
Qed.

Definition op_buf (o : op) : option (list byte) := match o with ORead _ b => Some b | _ => None end.
Definition op_structured (k : client) (o : op) : bool :=
  match o with ORead _ _ => k_structured k | OExtents _ _ => true | _ => false end.
Definition op_reply (o : op) : option (list (string * list extent)) :=
  match o with OExtents _ _ => Some [] | _ => None end.
Definition op_offset (o : op) : Z :=
  match o with ORead a _ | OWrite a _ | OZero a _ _ | OExtents a _ => a | OFlush => 0 end.
Definition started (k : client) (o : op) (s : st) (out : list byte) (i : nat) : st :=
  St (s_in s) (s_out s ++ out) i (s_counter s + 1) (op_buf o) (op_structured k o) [] (op_reply o).

Lemma land_pow2 x n : 0 <= n -> (Z.land x (2 ^ n) =? 0) = negb (Z.testbit x n).
Proof.
  intros N. destruct (Z.testbit x n) eqn:E; cbn [negb].
  - apply Z.eqb_neq. intros C. assert (Z.testbit (Z.land x (2 ^ n)) n = false) as X.
    { rewrite C. apply Z.bits_0. }
    rewrite Z.land_spec, E, Z.pow2_bits_true in X by auto. discriminate.
  - apply Z.eqb_eq. apply Z.bits_inj'. intros m M. rewrite Z.land_spec, Z.bits_0.
    destruct (Z.eq_dec m n) as [->|D]; [rewrite E; auto|].
    rewrite Z.pow2_bits_false by auto. apply andb_false_r.
Qed.

Lemma send_ok v d s : can_send v ->
  send v d s = (inl tt, set_out s (s_out s ++ d) (S (s_tick s))).
Proof. intros H. unfold send. rewrite H. reflexivity. Qed.

Lemma op_start v k o s fl ty off len data :
  can_send v -> fits o -> 0 <= s_counter s < 2 ^ 64 -> demanded k o = Some (fl, ty, off, len, data) ->
  exists b i, request_bytes fl ty (s_counter s) off len b /\ off = op_offset o /\
    do_op v k o s = recv_reply v k (s_counter s) off (started k o s (b ++ data) i).
Proof.
  intros V F C D. destruct o; cbn [demanded fits op_offset] in *.
  - injection D as <- <- <- <- <-. unfold do_op, readinto. pose proof (zlen_nonneg buf).
    destruct (to_bytes_spec 0 0 (s_counter s) offset (zlen buf)) as (b & T & R); try lia.
    unfold new_command, send_command, bind, lift. rewrite T. rewrite send_ok by auto.
    exists b. eexists. split; auto. split; auto. unfold started. rewrite app_nil_r. reflexivity.
  - injection D as <- <- <- <- <-. unfold do_op, write. pose proof (zlen_nonneg data0).
    destruct (to_bytes_spec 0 1 (s_counter s) offset (zlen data0)) as (b & T & R); try lia.
    unfold new_command, send_command, bind, lift. rewrite T. rewrite send_ok by auto.
    rewrite send_ok by auto.
    exists b. eexists. split; auto. split; auto. unfold started. cbn [set_out s_out]. rewrite <- app_assoc. reflexivity.
  - unfold do_op, zero. change FLAG_SEND_WRITE_ZEROES with (2 ^ 6). rewrite land_pow2 by lia.
    destruct (Z.testbit (k_tflags k) 6); [|discriminate]. injection D as <- <- <- <- <-. cbn [negb].
    destruct (to_bytes_spec (if punch_hole then 0 else 2) 6 (s_counter s) offset length) as (b & T & R); try lia.
    { destruct punch_hole; lia. }
    unfold new_command, send_command, bind, lift. change CMD_FLAG_NO_HOLE with 2. rewrite T. rewrite send_ok by auto.
    exists b. eexists. split; auto. split; auto. unfold started. rewrite app_nil_r. reflexivity.
  - unfold do_op, flush. change FLAG_SEND_FLUSH with (2 ^ 2). rewrite land_pow2 by lia.
    destruct (Z.testbit (k_tflags k) 2); [|discriminate]. injection D as <- <- <- <- <-. cbn [negb].
    destruct (to_bytes_spec 0 3 (s_counter s) 0 0) as (b & T & R); try lia.
    unfold new_command, send_command, bind, lift. rewrite T. rewrite send_ok by auto.
    exists b. eexists. split; auto. split; auto. unfold started. rewrite app_nil_r. reflexivity.
  - injection D as <- <- <- <- <-. unfold do_op, extents.
    destruct (to_bytes_spec 0 7 (s_counter s) offset length) as (b & T & R); try lia.
    unfold new_command, send_command, bind, lift. rewrite T. rewrite send_ok by auto.
    exists b, (S (s_tick s)). split; auto. split; auto. unfold started. rewrite app_nil_r.
    cbn [op_buf op_structured op_reply]. unfold set_out. cbn [s_out s_in s_tick s_counter s_buf s_structured s_errors s_reply].
    match goal with |- context [recv_reply v k ?h ?o ?x] => destruct (recv_reply v k h o x) as [[[]|e] s'] end;
      reflexivity.
Qed.

(* An operation that is not demanded does nothing *)
Lemma op_skip v k o s : demanded k o = None -> snd (do_op v k o s) = s.
Proof.
  destruct o; cbn [demanded]; try discriminate.
  - unfold do_op, zero. change FLAG_SEND_WRITE_ZEROES with (2 ^ 6). rewrite land_pow2 by lia.
    destruct (Z.testbit (k_tflags k) 6); [discriminate|]. reflexivity.
  - unfold do_op, flush. change FLAG_SEND_FLUSH with (2 ^ 2). rewrite land_pow2 by lia.
    destruct (Z.testbit (k_tflags k) 2); [discriminate|]. reflexivity.
Qed.

(* ---- what receiving keeps, whatever the server sends ---- *)

Section Preserve.
Variable v : env.
Variable k : client.
Variable P : st -> Prop.
Definition good_list (l : list extent) : Prop :=
  l <> [] /\ Forall (fun e => 0 < e_length e /\ e_length e mod k_minblock k = 0) l.
Hypothesis Hin : forall s r i, zlen r <= zlen (s_in s) -> P s -> P (set_in s r i).
Hypothesis Hstr : forall s, P s -> P (set_structured s).
Hypothesis Herr : forall s e, P s -> P (add_error s e).
Hypothesis Hbuf : forall s buf a d, P s -> s_buf s = Some buf -> 0 <= a -> a + zlen d <= zlen buf ->
  P (set_buf s (splice buf a d)).
Hypothesis Hrep : forall s name l r, P s -> s_reply s = Some r -> good_list l ->
  P (set_reply s ((name, l) :: r)).

(* Whatever happens P is kept, and never the exception of the fuel. *)
Definition keeps {A} (m : M A) : Prop :=
  forall s, P s -> P (snd (m s)) /\ fst (m s) <> inr OutOfFuel.
Definition keeps_post {A} (m : M A) (Q : A -> Prop) : Prop :=
  forall s, P s -> P (snd (m s)) /\ fst (m s) <> inr OutOfFuel /\ forall x, fst (m s) = inl x -> Q x.

Lemma keeps_bind {A B} (m : M A) (f : A -> M B) :
  keeps m -> (forall x, keeps (f x)) -> keeps (bind m f).
Proof.
  intros Km Kf s Ps. unfold bind. specialize (Km s Ps). destruct (m s) as [[x|e] s']; cbn [fst snd] in *.
  - apply Kf. apply Km.
  - split; [apply Km|]. destruct Km as [_ Km]. congruence.
Qed.
Lemma keeps_post_bind {A B} (m : M A) (f : A -> M B) Q R :
  keeps_post m Q -> (forall x, Q x -> keeps_post (f x) R) -> keeps_post (bind m f) R.
Proof.
  intros Km Kf s Ps. unfold bind. specialize (Km s Ps). destruct (m s) as [[x|e] s']; cbn [fst snd] in *.
  - apply Kf; apply Km; auto.
  - split; [apply Km|]. destruct Km as [_ [Km _]]. split; congruence.
Qed.
Lemma keeps_post_keeps {A} (m : M A) Q : keeps_post m Q -> keeps m.
Proof. intros H s Ps. destruct (H s Ps) as (A1 & A2 & _). auto. Qed.
Lemma keeps_keeps_post {A} (m : M A) : keeps m -> keeps_post m (fun _ => True).
Proof. intros H s Ps. destruct (H s Ps) as (A1 & A2). auto. Qed.
Lemma keeps_ret {A} (x : A) : keeps (ret x).
Proof. intros s Ps. split; auto. discriminate. Qed.
Lemma keeps_raise {A} e : e <> OutOfFuel -> keeps (@raise A e).
Proof. intros E s Ps. split; auto. cbn. congruence. Qed.

Lemma recv_loop_frame n fuel got s d ok s' :
  recv_loop v fuel n got s = (d, ok, s') -> zlen got <= Z.max 0 n ->
  (exists r i, s' = set_in s r i /\ zlen r <= zlen (s_in s)) /\ zlen d <= Z.max 0 n.
Proof.
  revert got s. induction fuel; intros got s E G; cbn [recv_loop] in E.
  - injection E as <- <- <-. split; auto. exists (s_in s), (s_tick s). destruct s; split; [auto|lia].
  - destruct (zlen got <? n) eqn:L.
    + destruct (s_in s) as [|b q] eqn:I.
      * injection E as <- <- <-. split; auto. eexists _, _. split; [reflexivity|]. lia.
      * remember (Z.max 1 (Z.min (v_recv v (s_tick s)) (Z.min (n - zlen got) (zlen (b :: q))))) as c eqn:C.
        apply Z.ltb_lt in L. apply IHfuel in E.
        2:{ rewrite zlen_app, zlen_take. lia. }
        destruct E as [(r & i & -> & R) X]. split; auto. exists r, i. split; auto.
        cbn [s_in set_in] in R. rewrite zlen_drop in R. pose proof (zlen_nonneg (b :: q)). lia.
    + injection E as <- <- <-. split; auto. exists (s_in s), (s_tick s). destruct s; split; [auto|lia].
Qed.

Lemma keeps_recv n : keeps (recv v n).
Proof.
  intros s Ps. unfold recv. destruct (recv_loop v (Z.to_nat n) n [] s) as [[d ok] s'] eqn:E.
  apply recv_loop_frame in E as [(r & i & -> & R) X]; [|rewrite zlen_nil; lia].
  destruct ok; cbn [fst snd]; (split; [apply Hin; auto|discriminate]).
Qed.

Lemma py_stop_range i n : 0 <= n -> 0 <= py_stop i n <= n.
Proof. apply py_stop_bounds. Qed.

Lemma keeps_recv_into_slice a b : keeps (recv_into_slice v a b).
Proof.
  intros s Ps. unfold recv_into_slice. destruct (s_buf s) as [buf|] eqn:SB.
  2:{ split; auto. discriminate. }
  pose proof (py_stop_range a (zlen buf) (zlen_nonneg buf)).
  pose proof (py_stop_range b (zlen buf) (zlen_nonneg buf)).
  remember (py_stop b (zlen buf) - py_stop a (zlen buf)) as n eqn:N.
  destruct (recv_loop v (Z.to_nat n) n [] s) as [[d ok] s'] eqn:E.
  apply recv_loop_frame in E as [(r & i & -> & R) X]; [|rewrite zlen_nil; lia].
  assert (P (set_buf (set_in s r i) (splice buf (py_stop a (zlen buf)) d))).
  { destruct (Z_le_dec n 0).
    - replace d with (@nil byte) by (symmetry; apply zlen_0; pose proof (zlen_nonneg d); lia).
      apply Hbuf; auto; try lia. rewrite zlen_nil. lia.
    - apply Hbuf; auto; lia. }
  destruct ok; cbn [fst snd]; (split; [auto|discriminate]).
Qed.

Lemma unpack_all_good fuel view c l :
  unpack_all k fuel view c = inl l -> (List.length view <= fuel)%nat ->
  Forall (fun e => 0 < e_length e /\ e_length e mod k_minblock k = 0) l /\ (view <> [] -> l <> []).
Proof.
  revert view l. induction fuel; intros view l E F; cbn [unpack_all] in E.
  - injection E as <-. split; auto. destruct view; [congruence|cbn in F; lia].
  - destruct (zlen view =? 0) eqn:Z0.
    { injection E as <-. split; auto. intros N. apply zlen_pos in N. lia. }
    apply Z.eqb_neq in Z0. destruct (extent_unpack (sub 0 8 view) c) as [e|e] eqn:U; [|discriminate].
    destruct (k_minblock k =? 0); [discriminate|].
    destruct (negb _) eqn:M; [discriminate|].
    destruct (unpack_all k fuel (drop 8 view) c) as [l'|] eqn:R; [|discriminate].
    injection E as <-. apply IHfuel in R as [R _].
    + split; [|discriminate]. constructor; auto. apply negb_false_iff, Z.eqb_eq in M. split; auto.
      unfold extent_unpack in U. destruct (field 0 4 (sub 0 8 view) =? 0) eqn:Q; [discriminate|].
      injection U as <-. cbn [e_length]. apply Z.eqb_neq in Q. unfold field in *.
      rewrite unbe_value in *. pose proof (value_range (sub 0 4 (sub 0 8 view))). lia.
    + pose proof (zlen_drop 8 view) as X. unfold zlen in X, Z0. lia.
Qed.

Lemma unpack_all_fuel fuel view c : unpack_all k fuel view c <> inr OutOfFuel.
Proof.
  revert view. induction fuel; intros view; cbn [unpack_all]; [discriminate|].
  destruct (zlen view =? 0); [discriminate|]. unfold extent_unpack.
  destruct (_ =? 0); [discriminate|]. destruct (_ =? 0); [discriminate|].
  destruct (negb _); [discriminate|]. specialize (IHfuel (drop 8 view)).
  destruct (unpack_all k fuel (drop 8 view) c); [discriminate|congruence].
Qed.

Lemma recv_len n : keeps_post (recv v n) (fun d => zlen d = Z.max 0 n).
Proof.
  intros s Ps. destruct (keeps_recv n s Ps) as [A1 A2]. split; auto. split; auto.
  intros x E. destruct (Z_le_dec 0 n) as [N|N].
  - destruct (Z_le_dec n (zlen (s_in s))) as [L|L].
    + destruct (recv_spec v n s) as [i R]; [lia|]. rewrite R in E. injection E as <-.
      rewrite zlen_take. lia.
    + destruct (recv_short v n s) as [i R]; [lia|]. rewrite R in E. discriminate.
  - unfold recv in E. replace (Z.to_nat n) with O in E by lia. cbn in E. injection E as <-. cbn. lia.
Qed.

Lemma recv_extents_keeps fuel length n c : 0 <= length -> 0 < n ->
  (Z.to_nat length <= fuel)%nat ->
  keeps_post (recv_extents v k fuel length n c)
    (fun l => Forall (fun e => 0 < e_length e /\ e_length e mod k_minblock k = 0) l /\ (0 < length -> l <> [])).
Proof.
  revert length n. induction fuel; intros length n L N F; cbn [recv_extents].
  - intros s Ps. cbn. split; auto. split; [discriminate|]. intros x [= <-]. split; auto. lia.
  - destruct (length =? 0) eqn:Z0.
    + intros s Ps. cbn. split; auto. split; [discriminate|]. intros x [= <-]. split; auto. lia.
    + apply Z.eqb_neq in Z0. eapply keeps_post_bind; [apply recv_len|]. intros buf B. cbv beta in B.
      apply (keeps_post_bind _ _ (fun l => Forall (fun e => 0 < e_length e /\ e_length e mod k_minblock k = 0) l /\ l <> [])).
      { intros s Ps. cbn [lift fst snd]. split; auto. split; [apply unpack_all_fuel|].
        intros x E. apply unpack_all_good in E as [E1 E2]; auto. split; auto. apply E2.
        intros ->. rewrite zlen_nil in B. lia. }
      intros l [G1 G2].
      eapply keeps_post_bind; [apply IHfuel; lia|]. intros l' [G3 _].
      intros s Ps. cbn. split; auto. split; [discriminate|]. intros x [= <-]. split.
      * apply Forall_app; auto.
      * intros _ C. apply app_eq_nil in C as [C _]. auto.
Qed.

Lemma keeps_block_status length : 0 <= length -> keeps (handle_block_status_chunk v k length).
Proof.
  intros L. unfold handle_block_status_chunk.
  destruct ((length / 8 =? 0) || negb (length mod 8 =? 4)) eqn:E; [apply keeps_raise; discriminate|].
  destruct (_ >? _); [apply keeps_raise; discriminate|].
  apply orb_false_iff in E as [E1 E2]. apply negb_false_iff, Z.eqb_eq in E2. apply Z.eqb_neq in E1.
  assert (12 <= length).
  { pose proof (Z.div_mod length 8). pose proof (Z.div_pos length 8). lia. }
  apply keeps_bind; [apply keeps_recv|]. intros d.
  destruct (k_meta k (unbe d)) as [name|]; [|apply keeps_raise; discriminate].
  fold (context_of k name).
  eapply keeps_post_keeps. eapply keeps_post_bind.
  { apply recv_extents_keeps; lia. }
  intros l [G1 G2]. apply keeps_keeps_post. intros s Ps.
  destruct (s_reply s) as [r|] eqn:SR; cbn [fst snd]; (split; [|discriminate]); auto.
  apply Hrep; auto. split; auto. apply G2. lia.
Qed.

Lemma field_nonneg o n d : 0 <= field o n d.
Proof. unfold field. rewrite unbe_value. apply value_range. Qed.

Lemma reply_error_fuel c : reply_error c <> OutOfFuel.
Proof. unfold reply_error. destruct (_ >=? _); discriminate. Qed.

Lemma keeps_error_chunk n : keeps (recv_error_chunk v n).
Proof.
  unfold recv_error_chunk. apply keeps_bind; [apply keeps_recv|]. intros d.
  destruct (negb _); [apply keeps_raise; discriminate|].
  apply keeps_bind; [apply keeps_recv|]. intros. apply keeps_ret.
Qed.

Lemma keeps_reply_chunk h offset : keeps (recv_reply_chunk v k h offset).
Proof.
  unfold recv_reply_chunk. apply keeps_bind; [apply keeps_recv|]. intros d.
  destruct (negb _); [apply keeps_raise; discriminate|].
  apply keeps_bind.
  { destruct (_ =? _); [|apply keeps_ret]. unfold handle_error_chunk.
    apply keeps_bind; [apply keeps_error_chunk|]. intros c.
    destruct (Z.odd _); apply keeps_raise; [apply reply_error_fuel|discriminate]. }
  intros _. apply keeps_bind; [|intros; apply keeps_ret].
  destruct (_ =? _).
  { unfold handle_error_offset_chunk. apply keeps_bind; [apply keeps_error_chunk|]. intros c.
    apply keeps_bind; [apply keeps_recv|]. intros o. pose proof (reply_error_fuel c).
    destruct (reply_error c); try (apply keeps_raise; congruence).
    intros s Ps. split; [apply Herr; auto|discriminate]. }
  destruct (_ =? _).
  { unfold handle_none_chunk. destruct (negb _); [apply keeps_raise; discriminate|].
    destruct (negb _); [apply keeps_raise; discriminate|apply keeps_ret]. }
  destruct (_ =? _).
  { unfold handle_data_chunk. apply keeps_bind; [apply keeps_recv|]. intros o. apply keeps_recv_into_slice. }
  destruct (_ =? _).
  { unfold handle_hole_chunk. destruct (negb _); [apply keeps_raise; discriminate|].
    apply keeps_bind; [apply keeps_recv|]. intros o. destruct (_ =? _); [apply keeps_raise; discriminate|].
    intros s Ps. destruct (s_buf s) as [buf|] eqn:SB; [|split; [auto|discriminate]].
    destruct (Z.max 0 _ =? _) eqn:E; (split; [|discriminate]); auto. cbn [snd].
    apply Z.eqb_eq in E.
    pose proof (py_stop_range (field 0 8 o - offset) (zlen buf) (zlen_nonneg buf)).
    pose proof (py_stop_range (field 0 8 o - offset + field 8 4 o) (zlen buf) (zlen_nonneg buf)).
    apply Hbuf; auto; try lia. rewrite zlen_zeros. pose proof (field_nonneg 8 4 o). lia. }
  destruct (_ =? _); [|apply keeps_raise; discriminate].
  apply keeps_block_status. apply field_nonneg.
Qed.

Lemma keeps_simple h : keeps (recv_simple_reply v h).
Proof.
  unfold recv_simple_reply. apply keeps_bind; [apply keeps_recv|]. intros d.
  destruct (negb _); [apply keeps_raise; apply reply_error_fuel|].
  destruct (negb _); [apply keeps_raise; discriminate|].
  apply keeps_bind.
  { intros s Ps. split; auto. discriminate. }
  intros s0. destruct (s_buf s0) as [[|b l]|]; try apply keeps_ret. apply keeps_recv_into_slice.
Qed.
End Preserve.

(* The same, for the loop: every round takes 4 bytes at least. *)
Section Reply.
Variable v : env.
Variable k : client.
Variable P : st -> Prop.
Hypothesis Hin : forall s r i, zlen r <= zlen (s_in s) -> P s -> P (set_in s r i).
Hypothesis Hstr : forall s, P s -> P (set_structured s).
Hypothesis Herr : forall s e, P s -> P (add_error s e).
Hypothesis Hbuf : forall s buf a d, P s -> s_buf s = Some buf -> 0 <= a -> a + zlen d <= zlen buf ->
  P (set_buf s (splice buf a d)).
Hypothesis Hrep : forall s name l r, P s -> s_reply s = Some r -> good_list k l ->
  P (set_reply s ((name, l) :: r)).

Lemma keeps_reply_loop fuel h offset s :
  (List.length (s_in s) < fuel)%nat -> P s ->
  P (snd (recv_reply_loop v k fuel h offset s)) /\ fst (recv_reply_loop v k fuel h offset s) <> inr OutOfFuel.
Proof.
  revert s. induction fuel as [|fuel IH]; intros s F Ps; [lia|]. cbn [recv_reply_loop].
  destruct (Z_lt_dec (zlen (s_in s)) 4) as [L|L].
  { destruct (recv_short v 4 s L) as [i R]. rewrite (bind_inr _ _ _ _ _ R). cbn [fst snd]. split; [|discriminate].
    apply Hin; auto. rewrite zlen_nil. apply zlen_nonneg. }
  destruct (recv_spec v 4 s) as [i R]; [lia|]. rewrite (bind_inl _ _ _ _ _ R).
  remember (set_in s (drop 4 (s_in s)) i) as s1 eqn:S1.
  assert (P1 : P s1). { subst s1. apply Hin; auto. rewrite zlen_drop. lia. }
  assert (L1 : (List.length (s_in s1) < fuel)%nat).
  { subst s1. cbn [s_in set_in]. pose proof (zlen_drop 4 (s_in s)) as Q. unfold zlen in *. lia. }
  rewrite (bind_inl get _ _ s1 s1) by reflexivity.
  destruct (_ =? _).
  { destruct (s_structured s1); [cbn; split; [auto|discriminate]|]. apply keeps_simple; auto. }
  destruct (_ =? _); [|cbn; split; [auto|discriminate]].
  destruct (negb _); [cbn; split; [auto|discriminate]|].
  rewrite (bind_inl _ _ _ tt (set_structured s1)) by reflexivity.
  pose proof (keeps_reply_chunk v k (fun s => P s /\ (List.length (s_in s) < fuel)%nat)) as K.
  destruct (K ltac:(intros s2 r j Z0 [A1 A2]; split; [apply Hin; auto|cbn; unfold zlen in Z0; lia])
              ltac:(intros s2 e [A1 A2]; split; [apply Herr; auto|auto])
              ltac:(intros s2 buf a d [A1 A2] B1 B2 B3; split; [apply Hbuf; auto|auto])
              ltac:(intros s2 nm l r [A1 A2] B1 B2; split; [apply Hrep; auto|auto])
              h offset (set_structured s1)) as [[K1 K2] K3].
  { split; auto. }
  destruct (recv_reply_chunk v k h offset (set_structured s1)) as [[last|e] s2] eqn:E;
    cbn [fst snd] in *.
  2:{ rewrite (bind_inr _ _ _ _ _ E). cbn [fst snd]. split; auto. congruence. }
  rewrite (bind_inl _ _ _ _ _ E). destruct last.
  - rewrite (bind_inl get _ _ s2 s2) by reflexivity. destruct (s_errors s2); cbn; (split; [auto|discriminate]).
  - apply IH; auto.
Qed.

Lemma keeps_reply h offset s : P s ->
  P (snd (recv_reply v k h offset s)) /\ fst (recv_reply v k h offset s) <> inr OutOfFuel.
Proof. intros. unfold recv_reply. apply keeps_reply_loop; auto. Qed.
End Reply.

(* ---- reads ---- *)

Lemma outcome_read k img offset n cs s buf :
  s_buf s = Some buf -> zlen buf = n -> s_errors s = [] -> Forall (truthful img offset n) cs ->
  exists buf', fst (outcome k offset cs s) = inl tt
    /\ s_buf (snd (outcome k offset cs s)) = Some buf' /\ zlen buf' = n
    /\ forall i, 0 <= i < n ->
       (Exists (fun c => covers c (offset + i)) cs -> getb buf' i = getb img (offset + i))
       /\ (~ Exists (fun c => covers c (offset + i)) cs -> getb buf' i = getb buf i).
Proof.
  revert s buf. induction cs as [|c cs IH]; intros s buf SB L SE T.
  - cbn [outcome fst snd]. rewrite SE. exists buf. repeat split; auto.
    intros X. inversion X.
  - inversion T as [|x y T1 T2]; subst x y.
    assert (Q : exists b1, s_buf (apply_chunk k offset c s) = Some b1 /\ zlen b1 = n
              /\ s_errors (apply_chunk k offset c s) = []
              /\ forall i, 0 <= i < n -> (covers c (offset + i) -> getb b1 i = getb img (offset + i))
                          /\ (~ covers c (offset + i) -> getb b1 i = getb buf i)).
    { destruct c; cbn [truthful] in T1; try contradiction; cbn [apply_chunk covers]; rewrite ?SB.
      - exists buf. intuition.
      - destruct T1 as (T1 & T3 & T4). eexists. split; [reflexivity|].
        split; [rewrite zlen_splice_in; lia|]. split; auto.
        intros i I. rewrite getb_splice by lia. split; intros H.
        + replace (offset0 - offset <=? i) with true by lia.
          replace (i <? offset0 - offset + zlen data) with true by lia. cbn [andb].
          rewrite T4 by lia. f_equal. lia.
        + destruct (offset0 - offset <=? i) eqn:E1, (i <? offset0 - offset + zlen data) eqn:E2; auto. lia.
      - destruct T1 as (T0 & T1 & T3 & T4). eexists. split; [reflexivity|].
        split; [rewrite zlen_splice_in; rewrite ?zlen_zeros; lia|]. split; auto.
        intros i I. rewrite getb_splice by lia. rewrite zlen_zeros. split; intros H.
        + replace (offset0 - offset <=? i) with true by lia.
          replace (i <? offset0 - offset + Z.max 0 size) with true by lia. cbn [andb].
          rewrite getb_zeros. specialize (T4 (offset + i - offset0)).
          replace (offset0 + (offset + i - offset0)) with (offset + i) in T4 by lia.
          symmetry. apply T4. lia.
        + destruct (offset0 - offset <=? i) eqn:E1, (i <? offset0 - offset + Z.max 0 size) eqn:E2; auto. lia. }
    destruct Q as (b1 & B1 & B2 & B3 & B4).
    destruct (IH _ b1 B1 B2 B3 T2) as (buf' & R1 & R2 & R3 & R4).
    exists buf'.
    assert (OC : outcome k offset (c :: cs) s = outcome k offset cs (apply_chunk k offset c s)).
    { destruct c; try reflexivity. cbn in T1. contradiction. }
    rewrite OC. repeat split; auto.
    + intros X. inversion X as [? ? X1|? ? X1]; subst.
      * destruct (R4 i H) as [R5 R6].
        assert (D : Exists (fun c => covers c (offset + i)) cs \/ ~ Exists (fun c => covers c (offset + i)) cs).
        { clear. induction cs as [|c cs IH]; [right; intros X; inversion X|].
          assert (covers c (offset + i) \/ ~ covers c (offset + i)) as [C|C].
          { destruct c; cbn [covers]; try (right; tauto); lia. }
          - left. constructor. auto.
          - destruct IH as [IH|IH]; [left; constructor 2; auto|]. right. intros X. inversion X; subst; auto. }
        destruct D as [D|D]; [apply R5; auto|]. rewrite R6 by auto. apply B4; auto.
      * apply R4; auto.
    + intros X. destruct (R4 i H) as [R5 R6]. rewrite R6.
      * apply B4; auto.
      * intros Y. apply X. constructor 2. auto.
Qed.

Lemma answers_acceptable k o c s : answers k o c ->
  s_buf s = op_buf o -> s_reply s = op_reply o -> acceptable k (op_offset o) s c.
Proof.
  destruct c, o; cbn [answers]; try contradiction; cbn [acceptable op_buf op_reply op_offset]; auto.
  - intros [A B] E _. exists buf. auto.
  - intros [A B] E _. exists buf. auto.
  - intros A _ E. exists []. auto.
Qed.

Lemma error_acceptable k o c s : is_error c -> acceptable k (op_offset o) s c.
Proof. destruct c; cbn; try contradiction; lia. Qed.

Lemma outcome_error k offset cs s : Exists is_error cs \/ s_errors s <> [] ->
  Forall (fun c => is_error c \/ (forall x m, c <> CError x m)) cs ->
  fst (outcome k offset cs s) = inr RequestError \/ exists code, fst (outcome k offset cs s) = inr (ReplyError code) /\ 0 < code.
Proof.
  revert s. induction cs as [|c cs IH]; intros s E F.
  - cbn [outcome fst]. destruct E as [E|E]; [inversion E|]. destruct (s_errors s); [congruence|auto].
  - inversion F as [|x y F1 F2]; subst x y.
    assert (G : (exists x m, c = CError x m) \/ ((forall x m, c <> CError x m) /\ outcome k offset (c :: cs) s = outcome k offset cs (apply_chunk k offset c s))).
    { destruct c; cbn; eauto; right; split; auto; discriminate. }
    destruct G as [(x & m & ->)|[G0 G]].
    + right. cbn. exists x. split; auto. destruct F1 as [F1|F1]; [cbn in F1; lia|]. exfalso. eapply F1. reflexivity.
    + rewrite G. apply IH; auto.
      destruct E as [E|E].
      * inversion E as [? ? E1|? ? E1]; subst; auto. right. destruct c; cbn in E1; try contradiction.
        -- exfalso. eapply G0. reflexivity.
        -- cbn [apply_chunk s_errors add_error]. intros C. apply app_eq_nil in C as [_ C]. discriminate.
      * right. destruct c; cbn [apply_chunk]; auto.
        -- destruct (s_buf s); auto.
        -- destruct (s_buf s); auto.
        -- destruct (k_meta k id), (s_reply s); auto.
        -- cbn [s_errors add_error]. intros C. apply app_eq_nil in C as [C _]. auto.
Qed.

(* The replies collected *)
Lemma outcome_status k offset cs s r :
  s_errors s = [] -> s_reply s = Some r ->
  Forall (fun c => match c with CStatus i _ => k_meta k i <> None | CNone => True | _ => False end) cs ->
  fst (outcome k offset cs s) = inl tt /\
  s_reply (snd (outcome k offset cs s)) =
    Some (rev (flat_map (fun c => match c with
      | CStatus i ds => match k_meta k i with Some name => [(name, extents_of (context_of k name) ds)] | None => [] end
      | _ => [] end) cs) ++ r).
Proof.
  revert s r. induction cs as [|c cs IH]; intros s r E R F.
  - cbn. rewrite E, R. auto.
  - inversion F as [|x y F1 F2]; subst x y. destruct c; try contradiction.
    + cbn [outcome apply_chunk flat_map app]. apply IH; auto.
    + cbn [outcome apply_chunk flat_map]. destruct (k_meta k id) as [name|] eqn:K; [|congruence]. rewrite R.
      destruct (IH (set_reply s ((name, extents_of (context_of k name) descs) :: r))
                   ((name, extents_of (context_of k name) descs) :: r)) as [I1 I2]; auto.
      rewrite I1, I2. split; auto. f_equal. cbn [app rev]. rewrite <- app_assoc. reflexivity.
Qed.

Lemma assoc_app {A} name (l m : list (string * A)) :
  assoc name (l ++ m) = match assoc name l with Some x => Some x | None => assoc name m end.
Proof.
  induction l as [|[n x] l IH]; cbn; auto. destruct (String.eqb n name); auto.
Qed.
Lemma assoc_none {A} name (l : list (string * A)) :
  Forall (fun p => fst p <> name) l -> assoc name l = None.
Proof.
  induction 1 as [|[n x] l H F IH]; cbn in *; auto. apply String.eqb_neq in H. rewrite H. auto.
Qed.
