(* Theorems about extents of NBD exports: C24, C25. *)
From Coq Require Import ZArith List Bool String Lia.
From Coq.Init Require Import Byte.
From Verif Require Import BytesLib NbdModel NbdSpec NbdProofs NbdTheorems ExtentsModel ExtentsSpec ExtentsProofs.
Import ListNotations.
Open Scope Z_scope.

(* C24: whatever the server answers. What was yielded are non empty extents
   inside of the range, neighbours having different flags; if the generator
   ends without an error they are exactly as long as the range. *)
Theorem extents_cover :
  forall v k dirty offset length s out r s',
  ExtentsModel.extents v k offset (Some length) dirty s = (out, r, s') -> 0 < length ->
  exists E, out = map Some E /\ Forall (fun e => 0 < e_length e) E /\ distinct_neighbours E
    /\ total E <= length /\ (r = inl tt -> total E = length).
Proof.
  intros v k dirty offset length s out r s' X L. unfold ExtentsModel.extents in X.
  apply loop_spec in X; [|constructor|lia|lia|lia].
  destruct X as (_ & E & tr & s1 & -> & P & N & _ & _ & T1 & T2 & _).
  cbn [opt total] in *.
  exists E. split; auto. split; auto. split; [apply noadj_distinct; auto|]. split; [lia|].
  intros RR. destruct (T2 RR). lia.
Qed.
Print Assumptions extents_cover.

(* The rounds of the loop are bounded by the length, whatever the server
   answers. *)
Theorem extents_never_out_of_fuel :
  forall v k dirty offset length s,
  snd (fst (ExtentsModel.extents v k offset (Some length) dirty s)) <> inr OutOfFuel.
Proof.
  intros v k dirty offset length s.
  destruct (ExtentsModel.extents v k offset (Some length) dirty s) as [[out r] s'] eqn:X.
  unfold ExtentsModel.extents in X. destruct (Z_lt_ge_dec 0 length).
  - apply loop_spec in X; [|constructor|lia|lia|lia]. cbn. tauto.
  - replace (offset + length - offset) with length in X by lia.
    replace (Z.to_nat length) with O in X by lia. cbn [extents_loop] in X.
    replace (offset <? offset + length) with false in X by lia. injection X as <- <- <-. discriminate.
Qed.
Print Assumptions extents_never_out_of_fuel.

(* C25: whatever the server answers, each byte of what was yielded has the
   flags of the last reply of the run asked from this byte or before. *)
Theorem extents_flags :
  forall v k dirty offset length s out r s',
  ExtentsModel.extents v k offset (Some length) dirty s = (out, r, s') -> 0 < length ->
  exists E tr s1, out = map Some E /\ calls v k s tr s1 /\ (r = inl tt -> s1 = s') /\
  forall i f, at_byte E i f ->
  exists tr1 o n d tr2, tr = tr1 ++ (o, n, d) :: tr2 /\ offset <= o <= offset + i
    /\ Forall (fun c => offset + i < fst (fst c)) tr2
    /\ reply_flags dirty (k_dirty k) d (offset + i - o) f.
Proof.
  intros v k dirty offset length s out r s' X L. unfold ExtentsModel.extents in X.
  apply loop_spec in X; [|constructor|lia|lia|lia].
  destruct X as (_ & E & tr & s1 & -> & P & N & C & FO & T1 & T2 & T3).
  exists E, tr, s1. split; auto. split; auto. split; [intros RR; apply T2; auto|].
  intros i f A. destruct (T3 i f A) as [_ B]. pose proof (at_byte_range _ _ _ P A) as RG. cbn [opt total] in B.
  destruct B as (tr1 & o & n & d & tr2 & -> & B1 & B2 & B3); [lia|].
  apply Forall_app in FO as [_ FO]. inversion FO as [|y z FO1 _]; subst y z. cbn in FO1.
  rewrite Z.sub_0_r in *.
  exists tr1, o, n, d, tr2. repeat split; auto; lia.
Qed.
Print Assumptions extents_flags.

(* C24, C25: with an honest server, however it splits its replies, extents()
   succeeds, and reports the flags of every byte. *)
Theorem extents_of_honest_server :
  forall v k (dirty : bool) F ctx offset length s l rest,
  can_send v -> k_structured k = true ->
  (if dirty then ctx <> None /\ k_dirty k = ctx
   else ctx = None \/ ctx = Some "qemu:allocation-depth"%string) ->
  0 < length -> 0 <= offset -> offset + length <= 2 ^ 64 ->
  0 <= s_counter s -> s_counter s + length <= 2 ^ 64 ->
  honest k F ctx (offset + length) (s_counter s) offset l -> s_in s = l ++ rest ->
  exists E s', ExtentsModel.extents v k offset (Some length) dirty s = (map Some E, inl tt, s')
    /\ s_in s' = rest /\ distinct_neighbours E
    /\ total E = length
    /\ (forall i, 0 <= i < length -> at_byte E i (flags_of F ctx (offset + i))).
Proof.
  intros v k dirty F ctx offset length s l rest V K CTX L O1 O2 C1 C2 H I.
  unfold ExtentsModel.extents.
  destruct (honest_loop v k dirty F ctx (offset + length) (s_counter s) offset l V K CTX O2 H
              (Z.to_nat (offset + length - offset)) None s rest) as (E & s' & X & Y & P & N & T);
    auto; try lia; [constructor|].
  destruct (loop_spec v k dirty (Z.to_nat (offset + length - offset)) offset (offset + length) None s (map Some E) (inl tt) s')
    as (_ & E' & tr & s1 & EQ & P' & _ & _ & _ & _ & T2 & _); auto; [constructor|lia|lia|lia|].
  assert (E = E').
  { clear - EQ. revert E' EQ. induction E as [|a E IH]; intros [|b E'] Q; try discriminate; auto.
    injection Q as -> Q. f_equal. auto. }
  subst E'. destruct (T2 eq_refl) as [TE _]. cbn [opt total] in TE.
  exists E, s'. split; auto. split; auto. split; [apply noadj_distinct; auto|]. split; [lia|].
  intros i R. destruct (at_byte_ex E i P) as [f A]; [lia|].
  destruct (T i f A) as [_ B]. cbn [opt total] in B. specialize (B ltac:(lia)).
  rewrite Z.sub_0_r in B. subst f. auto.
Qed.
Print Assumptions extents_of_honest_server.

(* C24: the extents of the backend, for every server: if the request succeeds
   they start at 0, are contiguous, not empty, and end at the size of the
   export. *)
Theorem image_extents_cover_partial :
  forall v k has_base q s out s',
  backend_extents v k has_base q s = (out, inl tt, s') -> 0 < k_size k ->
  tiles 0 (k_size k) out.
Proof.
  intros v k has_base q s out s' X L. unfold backend_extents in X.
  assert (D : forall dirty, (let '(l, r, s') := ExtentsModel.extents v k 0 None dirty s in
        let '(out, r') := convert dirty 0 l in
        match r' with
        | inr e => (out, inr (FailClient e), s')
        | inl _ => (out, match r with inl _ => inl tt | inr e => inr (FailClient e) end, s')
        end) = (out, inl tt, s') -> tiles 0 (k_size k) out).
  { intros dirty. unfold ExtentsModel.extents.
    destruct (extents_loop v k dirty (Z.to_nat (k_size k - 0)) 0 (k_size k) None s) as [[l r] s1] eqn:Y.
    apply loop_spec in Y; [|constructor|lia|lia|lia].
    destruct Y as (_ & E & tr & s2 & -> & P & N & _ & _ & T1 & T2 & _).
    destruct (convert_spec dirty E 0 P) as (xs & C & T & _). rewrite C.
    intros Q. destruct r as [[]|e]; [|discriminate]. injection Q as <- <-.
    destruct (T2 eq_refl) as [TE _]. cbn [opt total] in TE.
    replace (k_size k) with (0 + total E) by lia. auto. }
  destruct q; [| |discriminate].
  - cbn [negb andb] in X. destruct has_base; cbn [negb andb] in X.
    + eapply D; eauto.
    + injection X as <- <-. repeat constructor; auto. 
  - cbn [negb andb] in X. destruct (k_dirty k); [|discriminate]. eapply D; eauto.
Qed.
Print Assumptions image_extents_cover_partial.

(* C25: each extent reported by the backend says for all of its bytes what a
   reply of the run says, the last one asked from the byte or before. *)
Theorem image_extents_flags :
  forall v k has_base q s out r s',
  backend_extents v k has_base q s = (out, r, s') -> 0 < k_size k ->
  (q = QDirty \/ has_base = true) ->
  exists tr s1, calls v k s tr s1 /\
  forall e i, In e out -> start_of e <= i < start_of e + length_of e ->
  exists tr1 o n d tr2 f, tr = tr1 ++ (o, n, d) :: tr2 /\ o <= i
    /\ Forall (fun c => i < fst (fst c)) tr2
    /\ reply_flags (match q with QDirty => true | _ => false end) (k_dirty k) d (i - o) f /\ says e f.
Proof.
  intros v k has_base q s out r s' X L HB. unfold backend_extents in X.
  assert (D : forall dirty, (let '(l, r, s') := ExtentsModel.extents v k 0 None dirty s in
        let '(out, r') := convert dirty 0 l in
        match r' with
        | inr e => (out, inr (FailClient e), s')
        | inl _ => (out, match r with inl _ => inl tt | inr e => inr (FailClient e) end, s')
        end) = (out, r, s') -> exists tr s1, calls v k s tr s1 /\
    forall e i, In e out -> start_of e <= i < start_of e + length_of e ->
    exists tr1 o n d tr2 f, tr = tr1 ++ (o, n, d) :: tr2 /\ o <= i
      /\ Forall (fun c => i < fst (fst c)) tr2
      /\ reply_flags dirty (k_dirty k) d (i - o) f /\ says e f).
  { intros dirty. unfold ExtentsModel.extents.
    destruct (extents_loop v k dirty (Z.to_nat (k_size k - 0)) 0 (k_size k) None s) as [[l r1] s1] eqn:Y.
    apply loop_spec in Y; [|constructor|lia|lia|lia].
    destruct Y as (_ & E & tr & s2 & -> & P & N & C & _ & T1 & T2 & T3).
    destruct (convert_spec dirty E 0 P) as (xs & CV & T & _ & B). rewrite CV.
    intros Q. injection Q as <- <- <-. exists tr, s2. split; auto.
    intros e i I R. destruct (B e i I R) as (f & A & SY).
    destruct (T3 _ _ A) as [_ G]. pose proof (at_byte_range _ _ _ P A). cbn [opt total] in G.
    destruct G as (tr1 & o & n & d & tr2 & G0 & G1 & G2 & G3); [lia|].
    replace (0 + (i - 0) - 0) with i in * by lia.
    exists tr1, o, n, d, tr2, f. auto. }
  destruct q.
  - cbn [negb andb] in X. destruct HB as [HB|HB]; [discriminate|]. subst has_base. cbn [negb] in X. eapply D; eauto.
  - cbn [negb andb] in X. destruct (k_dirty k).
    + eapply D; eauto.
    + injection X as <- <- <-. exists [], s. split; [constructor|]. intros e i [].
  - injection X as <- <- <-. exists [], s. split; [constructor|]. intros e i [].
Qed.
Print Assumptions image_extents_flags.

(* The API of the backend over an honest server. *)
Theorem image_extents_of_honest_server :
  forall v k q F ctx s l rest,
  can_send v -> k_structured k = true ->
  match q with
  | QZero => ctx = None \/ ctx = Some "qemu:allocation-depth"%string
  | QDirty => ctx <> None /\ k_dirty k = ctx
  | QOther => False
  end ->
  0 < k_size k <= 2 ^ 64 -> 0 <= s_counter s -> s_counter s + k_size k <= 2 ^ 64 ->
  honest k F ctx (k_size k) (s_counter s) 0 l -> s_in s = l ++ rest ->
  exists out s', backend_extents v k true q s = (out, inl tt, s') /\ s_in s' = rest
    /\ tiles 0 (k_size k) out
    /\ forall e i, In e out -> start_of e <= i < start_of e + length_of e -> says e (flags_of F ctx i).
Proof.
  intros v k q F ctx s l rest V K CTX L C1 C2 H I.
  set (dirty := match q with QDirty => true | _ => false end).
  assert (CTX2 : ctx_ok k dirty ctx) by (destruct q; cbn in *; auto; contradiction).
  destruct (honest_loop v k dirty F ctx (k_size k) (s_counter s) 0 l V K CTX2 ltac:(lia) H
              (Z.to_nat (k_size k - 0)) None s rest) as (E & s' & X & Y & P & N & T);
    auto; try lia; [constructor|].
  destruct (convert_spec dirty E 0 P) as (xs & CV & TL & _ & B).
  assert (R : backend_extents v k true q s = (xs, inl tt, s')).
  { unfold backend_extents. destruct q; [| |contradiction]; cbn [negb andb].
    - unfold ExtentsModel.extents. fold dirty. rewrite X, CV. auto.
    - destruct CTX as [X1 X2]. rewrite X2. destruct ctx; [|congruence]. cbn.
      unfold ExtentsModel.extents. fold dirty. rewrite X, CV. auto. }
  exists xs, s'. split; auto. split; auto. split.
  - eapply image_extents_cover_partial; eauto. lia.
  - intros e i J RG. destruct (B e i J RG) as (f & A & SY). destruct (T _ _ A) as [_ Q].
    pose proof (at_byte_range _ _ _ P A). cbn [opt total] in Q. specialize (Q ltac:(lia)).
    replace (0 + (i - 0) - 0) with i in Q by lia. subst f. auto.
Qed.
Print Assumptions image_extents_of_honest_server.

(* C24, last clause: neighbours of the same kind. The generator merges only
   extents with equal flags of the server; flags which are not visible in the
   API (here the hole flag of base:allocation) keep extents apart. *)
Definition ex_status (h fl : Z) (id : Z) (ds : list (Z * Z)) : list byte :=
  ex_chunk h fl 5 (be 4 id ++ flat_map (fun d => be 4 (fst d) ++ be 4 (snd d)) ds).

Theorem image_extents_distinct_refuted :
  exists v k s out s' e e' l,
  can_send v /\ backend_extents v k true QZero s = (out, inl tt, s')
  /\ out = e :: e' :: l /\ same_kind e e'.
Proof.
  exists ex_env, ex_client, (ex_state (ex_status 7 1 1 [(4, 2); (4, 3)])).
  do 5 eexists. split; [exact ex_can_send|]. split; [vm_compute; reflexivity|]. split; [reflexivity|]. vm_compute. auto.
Qed.
Print Assumptions image_extents_distinct_refuted.

(* Without base:allocation nothing is known about zeros: the whole image is
   reported as data, without asking the server; dirty extents without a dirty
   bitmap are refused, also without asking. *)
Theorem image_extents_unknown :
  forall v k q s out r s',
  backend_extents v k false q s = (out, r, s') ->
  (q = QZero -> s' = s /\ r = inl tt /\ (0 < k_size k -> tiles 0 (k_size k) out)
     /\ Forall (fun e => says e 0) out)
  /\ (q = QDirty -> k_dirty k = None -> s' = s /\ r = inr UnsupportedOperation /\ out = []).
Proof.
  intros v k q s out r s' X. unfold backend_extents in X. split.
  - intros ->. cbn [negb andb] in X. injection X as <- <- <-. repeat split.
    + intros L. constructor; cbn; [reflexivity|lia|constructor].
    + constructor; [|constructor]. cbn. auto.
  - intros -> D. cbn [negb andb] in X. rewrite D in X. injection X as <- <- <-. auto.
Qed.
Print Assumptions image_extents_unknown.

Example image_extents_unknown_case :
  backend_extents ex_env ex_client false QZero (ex_state [])
    = ([ZeroExtent 0 8 false false], inl tt, ex_state []).
Proof. reflexivity. Qed.

(* An empty export: the generator yields None, and the backend fails. *)
Theorem extents_of_empty_export_refuted :
  exists v k s s', can_send v /\ k_size k = 0
  /\ backend_extents v k true QZero s = ([], inr (FailClient AttributeError), s').
Proof.
  exists ex_env, (Client true (k_meta ex_client) None 1 0 0), (ex_state []).
  eexists. split; [exact ex_can_send|]. split; [reflexivity|]. vm_compute. reflexivity.
Qed.
Print Assumptions extents_of_empty_export_refuted.

(* Dirty extents when the server has a dirty bitmap but does not offer
   base:allocation: KeyError. *)
Theorem dirty_extents_without_base_refuted :
  exists v k s s', can_send v
  /\ backend_extents v k false QDirty s = ([], inr (FailClient KeyError), s').
Proof.
  exists ex_env, ex_client, (ex_state (ex_status 7 1 2 [(8, 1)])).
  eexists. split; [exact ex_can_send|]. vm_compute. reflexivity.
Qed.
Print Assumptions dirty_extents_without_base_refuted.

(* ---- concrete cases ---- *)

(* Two requests. The first reply has 4 bytes of data in base:allocation
   (in two pieces) and a dirty bitmap for all; the second reply goes beyond
   the end of the export. *)
Definition ex_F (name : string) (i : Z) : Z :=
  if String.eqb name "base:allocation" then if i <? 4 then 0 else 3
  else if i <? 2 then 4 else 0.
Definition ex_cs1 := [CStatus 1 [(2, 0); (2, 0)]; CStatus 2 [(2, 1); (6, 0)]].
Definition ex_cs2 := [CStatus 2 [(8, 0)]; CStatus 1 [(6, 3)]].
Definition ex_l1 := ex_status 7 0 1 [(2, 0); (2, 0)] ++ ex_status 7 1 2 [(2, 1); (6, 0)].
Definition ex_l2 := ex_status 8 0 2 [(8, 0)] ++ ex_status 8 1 1 [(6, 3)].

Lemma ex_status_bytes h fl id ds done :
  0 <= h < 2 ^ 64 -> 0 <= fl < 2 ^ 16 -> Z.odd fl = done -> 0 <= id < 2 ^ 32 -> zlen ds < 2 ^ 20 ->
  Forall (fun d => 0 <= fst d < 2 ^ 32 /\ 0 <= snd d < 2 ^ 32) ds ->
  chunk_bytes h done (CStatus id ds) (ex_status h fl id ds).
Proof.
  intros H FL OD ID LN F.
  assert (P : forall n x, 0 <= x < 256 ^ Z.of_nat n -> u (Z.of_nat n) x (be n x)).
  { intros n x X. destruct (pack_spec n x X) as (b & E & U). unfold pack in E.
    replace ((0 <=? x) && (x <? 256 ^ Z.of_nat n)) with true in E by lia. congruence. }
  assert (D : descs_bytes ds (flat_map (fun d => be 4 (fst d) ++ be 4 (snd d)) ds)).
  { induction F as [|[n f] r [A B] F IH]; cbn [flat_map]; [constructor|]. rewrite <- app_assoc. constructor.
    - apply (P 4%nat). auto. - apply (P 4%nat). auto.
    - apply IH. rewrite zlen_cons in LN. lia. }
  assert (LL : zlen (be 4 id ++ flat_map (fun d => be 4 (fst d) ++ be 4 (snd d)) ds) = 4 + 8 * zlen ds).
  { rewrite zlen_app, (descs_len _ _ D). replace (zlen (be 4 id)) with 4; [lia|]. symmetry. apply (P 4%nat id). auto. }
  eexists (be 4 0x668e33ef), (be 2 fl), 5, (be 8 h), (be 4 _), (be 2 5), _, fl.
  split; [reflexivity|]. split; [apply (P 4%nat); lia|]. split; [apply (P 2%nat); auto|]. split; auto.
  split; [apply (P 2%nat); lia|]. split; [apply (P 8%nat); auto|].
  split; [apply (P 4%nat); rewrite LL; pose proof (zlen_nonneg ds); change (256 ^ Z.of_nat 4) with (2 ^ 32); lia|].
  constructor; auto. apply (P 4%nat). auto.
Qed.

Ltac inv_at A := repeat (let J := fresh "J" in let A' := fresh "A" in
  inversion A as [? ? ? J|? ? ? ? A']; subst; clear A; [|rename A' into A]; cbn [e_length e_flags fst] in *).
Lemma ex_F_base i : ex_F "base:allocation" i = if i <? 4 then 0 else 3. Proof. reflexivity. Qed.
Lemma ex_F_dirty i : ex_F "qemu:dirty-bitmap:b" i = if i <? 2 then 4 else 0. Proof. reflexivity. Qed.

Lemma ex_honest : honest ex_client ex_F (Some "qemu:dirty-bitmap:b"%string) 8 7 0 (ex_l1 ++ ex_l2 ++ []).
Proof.
  assert (B : kind_of ex_client "base:allocation" ALLOC) by (split; discriminate).
  assert (Dk : kind_of ex_client "qemu:dirty-bitmap:b" DIRTY) by reflexivity.
  assert (TB : forall name kind, kind_of ex_client name kind -> name = "base:allocation"%string -> kind = ALLOC).
  { intros name [] Q ->; auto; [destruct Q as [_ Q]; discriminate Q|discriminate Q]. }
  assert (TD : forall name kind, kind_of ex_client name kind -> name = "qemu:dirty-bitmap:b"%string -> kind = DIRTY).
  { intros name [] Q ->; auto; destruct Q as [Q _]; exfalso; apply Q; reflexivity. }
  apply honest_reply with (cs := ex_cs1) (n := 4) (n2 := 8); [lia| | | | | |discriminate|].
  - apply more_chunks; [discriminate|discriminate| |apply last_chunk].
    + apply ex_status_bytes; try lia; try reflexivity. repeat constructor; cbn; lia.
    + apply ex_status_bytes; try lia; try reflexivity. repeat constructor; cbn; lia.
  - repeat constructor; vm_compute; discriminate.
  - constructor; [|constructor; [|constructor]].
    + intros name kind E KD i f A. injection E as <-. rewrite (TB _ _ KD eq_refl) in A. cbn in A.
      inv_at A; try (inversion A; fail); rewrite ?ex_F_base, ?ex_F_dirty.
      * replace (0 + i <? 4) with true by lia. reflexivity.
      * match goal with |- (if ?b then _ else _) = _ => replace b with true by lia end. reflexivity.
    + intros name kind E KD i f A. injection E as <-. rewrite (TD _ _ KD eq_refl) in A. cbn in A.
      inv_at A; try (inversion A; fail); rewrite ?ex_F_base, ?ex_F_dirty.
      * replace (0 + i <? 2) with true by lia. reflexivity.
      * match goal with |- (if ?b then _ else _) = _ => replace b with false by lia end. reflexivity.
  - exists 1, [(2, 0); (2, 0)], ALLOC. split; [left; auto|]. repeat split; auto; try discriminate.
    intros id ds [X|[X|[]]] Y; injection X as <- <-; auto. discriminate.
  - exists 2, [(2, 1); (6, 0)], DIRTY. split; [right; left; auto|]. repeat split; auto; try discriminate.
    intros id ds [X|[X|[]]] Y; injection X as <- <-; auto. discriminate.
  - change (7 + 1) with 8. change (0 + Z.min 4 8) with 4.
    apply honest_reply with (cs := ex_cs2) (n := 6) (n2 := 8); [lia| | | | | |discriminate|constructor; lia].
    + apply more_chunks; [discriminate|discriminate| |apply last_chunk].
      * apply ex_status_bytes; try lia; try reflexivity. repeat constructor; cbn; lia.
      * apply ex_status_bytes; try lia; try reflexivity. repeat constructor; cbn; lia.
    + repeat constructor; vm_compute; discriminate.
    + constructor; [|constructor; [|constructor]].
      * intros name kind E KD i f A. injection E as <-. rewrite (TD _ _ KD eq_refl) in A. cbn in A.
        inv_at A; try (inversion A; fail); rewrite ?ex_F_base, ?ex_F_dirty.
        replace (4 + i <? 2) with false by lia. reflexivity.
      * intros name kind E KD i f A. injection E as <-. rewrite (TB _ _ KD eq_refl) in A. cbn in A.
        inv_at A; try (inversion A; fail); rewrite ?ex_F_base, ?ex_F_dirty.
        replace (4 + i <? 4) with false by lia. reflexivity.
    + exists 1, [(6, 3)], ALLOC. split; [right; left; auto|]. repeat split; auto; try discriminate.
      intros id ds [X|[X|[]]] Y; injection X as <- <-; auto. discriminate.
    + exists 2, [(8, 0)], DIRTY. split; [left; auto|]. repeat split; auto; try discriminate.
      intros id ds [X|[X|[]]] Y; injection X as <- <-; auto. discriminate.
Qed.

Example image_extents_of_honest_server_case :
  exists out s', backend_extents ex_env ex_client true QDirty (ex_state ((ex_l1 ++ ex_l2 ++ []) ++ [x77])) = (out, inl tt, s')
    /\ s_in s' = [x77] /\ tiles 0 8 out
    /\ forall e i, In e out -> start_of e <= i < start_of e + length_of e ->
         says e (flags_of ex_F (Some "qemu:dirty-bitmap:b"%string) i).
Proof.
  apply image_extents_of_honest_server with (l := ex_l1 ++ ex_l2 ++ []); auto using ex_can_send, ex_honest;
    try (vm_compute; intuition discriminate).
Qed.

(* What comes out. *)
Example extents_cover_case :
  let s := ex_state (ex_l1 ++ ex_l2) in
  fst (backend_extents ex_env ex_client true QDirty s)
    = ([DirtyExtent 0 2 true false; DirtyExtent 2 2 false false; DirtyExtent 4 4 false true], inl tt)
  /\ fst (ExtentsModel.extents ex_env ex_client 1 (Some 2) true (ex_state (ex_status 7 0 1 [(2, 0)] ++ ex_status 7 1 2 [(4, 1); (8, 1)])))
    = ([Some (Extent 2 4)], inl tt).
Proof. vm_compute. auto. Qed.

(* Allocation depth reported: hole. No base:allocation: one data extent. *)
Example image_extents_flags_case :
  let k := Client true (fun i => if i =? 1 then Some "base:allocation"%string
            else if i =? 2 then Some "qemu:allocation-depth"%string else None) None 1 8 0 in
  fst (backend_extents ex_env k true QZero (ex_state (ex_status 7 0 1 [(2, 0); (6, 3)] ++ ex_status 7 1 2 [(4, 1); (4, 0)])))
    = ([ZeroExtent 0 2 false false; ZeroExtent 2 2 true false; ZeroExtent 4 4 true true], inl tt)
  /\ fst (backend_extents ex_env k false QZero (ex_state [])) = ([ZeroExtent 0 8 false false], inl tt).
Proof. vm_compute. auto. Qed.
