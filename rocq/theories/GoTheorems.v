From Coq Require Import ZArith List Bool Ascii String Lia.
From Verif Require Import BytesLib HeaderModel HeaderSpec OpsTheorems ImagesModel HttpBackendModel GoModel GoSpec GoProofs.
Import ListNotations.
Open Scope Z_scope.

Notation all_values r := (values (List.length r) (Iter r 0)).

(* ---- C86: the extents of an NBD image ---- *)

(* If the extents are returned, they are the image in order, whatever the
   server says; and nothing panics. *)
Theorem go_extents_cover :
  forall libnbd rounds tries size, gives_pairs libnbd -> 0 <= size < 2 ^ 64 ->
  extents libnbd rounds tries size <> Panics /\
  forall r, extents libnbd rounds tries size = Returns r -> tiles (all_values r) 0 size.
Proof.
  intros libnbd rounds tries size GP SZ. unfold extents.
  destruct (extents_loop_spec libnbd size tries GP ltac:(lia) rounds 0 0 [] _ ltac:(lia) eq_refl) as (A & _ & B).
  split; auto. intros r E. apply B in E as (qs & -> & G & S & _). cbn [app].
  destruct (values_spec (List.length (entries_of qs)) qs 0) as (fs & T & _); auto; try lia.
  rewrite S in T. exact T.
Qed.
Print Assumptions go_extents_cover.

(* If the server tells the truth about the flags of the bytes, [zero] is right
   for every byte; if no pair is empty no extent is, and extents next to each
   other have different flags. *)
Theorem go_extents_right :
  forall libnbd rounds tries size flags r,
  gives_pairs libnbd -> truthful flags size libnbd -> 0 <= size < 2 ^ 64 ->
  extents libnbd rounds tries size = Returns r ->
  (forall e i, In e (all_values r) -> inside i e -> e_zero e = Z.testbit (flags i) 1) /\
  (positive libnbd ->
     (forall e, In e (all_values r) -> 0 < e_length e) /\
     forall a e1 e2 b, all_values r = a ++ e1 :: e2 :: b -> flags (e_start e2 - 1) <> flags (e_start e2)).
Proof.
  intros libnbd rounds tries size flags r GP TR SZ E. unfold extents in E.
  destruct (extents_loop_spec libnbd size tries GP ltac:(lia) rounds 0 0 [] _ ltac:(lia) eq_refl) as (_ & _ & B).
  apply B in E as (qs & -> & G & S & SY & PO). cbn [app] in *. specialize (SY flags TR).
  destruct (values_spec (List.length (entries_of qs)) qs 0) as (fs & T & D & _ & Z & Y & P); auto; try lia.
  specialize (Y flags size SY ltac:(lia)). set (l := all_values (entries_of qs)) in *. split.
  - clear -Z Y. revert Z Y. generalize l. intros l0 Z. induction Z as [|e f l0 fs ZE Z IH]; intros Y e1 i I IN; [destruct I|].
    inversion Y as [|? ? ? ? Y1 Y2]; subst. destruct I as [->|I]; [|eapply IH; eauto].
    rewrite ZE. f_equal. symmetry. auto.
  - intros PS. specialize (P (PO PS)). split; [apply Forall_forall; auto|]. intros a e1 e2 b E.
    clearbody l. subst l. remember (0 + sum qs) as stop eqn:ST. clear -T D Y P. revert T. generalize 0. revert fs D Y P. induction a as [|e a IH]; intros fs D Y P z T; cbn [app] in *.
    + inversion Y as [|? f1 ? fs1 Y1 Y2]; subst. inversion Y2 as [|? f2 ? fs2 Y3 Y4]; subst.
      inversion P as [|? ? P1 P2]; subst. inversion P2 as [|? ? P3 P4]; subst. cbn in T. destruct T as (T1 & _ & T2 & _).
      rewrite (Y1 (e_start e2 - 1)), (Y3 (e_start e2)); [|unfold inside; lia..]. apply D.
    + inversion Y as [|? f1 ? fs1 Y1 Y2]; subst. inversion P; subst. cbn in T. destruct T as (_ & _ & T).
      apply (IH fs1) with (z := z + e_length e); auto. cbn in D. destruct fs1; [exact I|apply D].
Qed.
Print Assumptions go_extents_right.

(* With a server that replies with at least one extent that is not empty, and
   if it is not interrupted all the time, Extents returns or fails. *)
Theorem go_extents_end :
  forall libnbd size, gives_pairs libnbd -> positive libnbd -> replies libnbd -> 0 <= size < 2 ^ 64 ->
  exists rounds tries, extents libnbd rounds tries size <> Loops.
Proof.
  intros libnbd size GP PO RP SZ. destruct (extents_loop_ends libnbd size GP PO RP ltac:(lia)) as (tries & T).
  exists (S (Z.to_nat size)), tries. apply T; lia.
Qed.
Print Assumptions go_extents_end.

(* It fails only with an error of a request; and it asks only for ranges of at
   most 1 GiB inside of the image. *)
Theorem go_extents_requests :
  forall libnbd rounds tries size, gives_pairs libnbd -> 0 <= size < 2 ^ 64 ->
  (forall e, extents libnbd rounds tries size = Fails e -> e <> 4 /\
     exists k o l, 0 <= o /\ 0 < l <= 2 ^ 30 /\ o + l <= size /\ s_err (libnbd k o l) = Some e) /\
  (forall other,
     (forall k o l, 0 <= o -> 0 < l <= 2 ^ 30 -> o + l <= size -> other k o l = libnbd k o l) ->
     extents other rounds tries size = extents libnbd rounds tries size).
Proof.
  intros libnbd rounds tries size GP SZ. split.
  - intros e E. unfold extents in E.
    destruct (extents_loop_spec libnbd size tries GP ltac:(lia) rounds 0 0 [] _ ltac:(lia) eq_refl) as (_ & A & _). apply A. auto.
  - intros other O. symmetry. apply extents_loop_ext; auto; [lia| |lia]. intros k o l A B C. symmetry. apply O; auto.
Qed.
Print Assumptions go_extents_requests.

(* The text of extents is JSON for them, for all extents. *)
Theorem map_text_is_json :
  forall l, Forall (fun e => 0 <= e_start e /\ 0 <= e_length e) l ->
  json_text (JList (map extent_json l)) (writeExtents l).
Proof. intros l. apply writeExtents_json. Qed.
Print Assumptions map_text_is_json.

(* The map command: if it exits with 0 the handle was closed and the output is
   the start of the JSON for extents from 0 to the size, all of it if writing
   does not fail.  Otherwise nothing was printed. *)
Theorem map_prints_extents :
  forall libnbd rounds tries size room e1 e2 e3 e4, gives_pairs libnbd -> 0 <= size < 2 ^ 64 ->
  let r := mapURL libnbd rounds tries size room e1 e2 e3 e4 in
  (r_exit r = Some 0 ->
     r_handle r = [HCreate; HShutdown; HClose] /\ e1 = None /\ e2 = None /\ e3 = None /\ e4 = None /\
     exists entries t rest, extents libnbd rounds tries size = Returns entries /\
       tiles (all_values entries) 0 size /\ json_text (JList (map extent_json (all_values entries))) t /\
       t = r_out r ++ rest /\ (room = None -> rest = [])) /\
  (r_exit r <> Some 0 -> r_out r = []).
Proof.
  intros libnbd rounds tries size room e1 e2 e3 e4 GP SZ r.
  destruct (go_extents_cover libnbd rounds tries size GP SZ) as [_ C].
  unfold mapURL, connect in r. destruct e1, e2, e3, e4; try (subst r; split; [discriminate|reflexivity]).
  destruct (extents libnbd rounds tries size) as [en|e| |] eqn:E; try (subst r; split; [discriminate|reflexivity]).
  subst r. cbn [r_exit r_handle r_out app]. split; [|tauto]. intros _. split; [reflexivity|]. do 4 (split; [reflexivity|]).
  specialize (C en eq_refl). exists en, (writeExtents (all_values en)).
  exists (match room with None => [] | Some n => skipn n (writeExtents (all_values en)) end).
  split; auto. split; auto. split. { apply writeExtents_json. eapply tiles_nonneg; [|eauto]. lia. }
  destruct room as [n|]; cbn [take_out].
  - split; [rewrite firstn_skipn; reflexivity|discriminate].
  - split; [rewrite app_nil_r; reflexivity|reflexivity].
Qed.
Print Assumptions map_prints_extents.

(* ---- a case ---- *)

(* An image of 10 bytes: 3 of data, 4 in a hole, 3 of data.  The server replies
   with two extents at most, is interrupted at first, and the last reply ends
   after the image. *)
Definition server_ex (n : nat) (offset length : Z) : status :=
  match n with
  | O => Status [] (Some EINTR)
  | _ =>
      if offset =? 0 then Status [(false, [7; 7], 0); (true, [2; 0; 1; 0], 0)] None
      else if offset =? 3 then Status [(true, [3; 3; 1; 3], 0)] None
      else Status [(true, [8; 0], 0)] None
  end.
Definition flags_ex (i : Z) : Z := if (3 <=? i) && (i <? 7) then 3 else 0.

Ltac in_calls H :=
  repeat (destruct H as [H|H]); try contradiction; try discriminate H;
  try (injection H as <-).

Example go_extents_ex :
  extents server_ex 5 5 10 = Returns [2; 0; 1; 0; 3; 3; 1; 3; 3; 0] /\
  all_values [2; 0; 1; 0; 3; 3; 1; 3; 3; 0] = [Extent 0 3 false; Extent 3 4 true; Extent 7 3 false].
Proof. split; reflexivity. Qed.

Example server_ex_pairs : gives_pairs server_ex.
Proof.
  intros n o l e H. unfold server_ex in H. destruct n; [destruct H|]. destruct (o =? 0); [|destruct (o =? 3)]; cbn in H; in_calls H.
  - exists [(2, 0); (1, 0)]. split; auto. repeat constructor; cbn; unfold is_u32; lia.
  - exists [(3, 3); (1, 3)]. split; auto. repeat constructor; cbn; unfold is_u32; lia.
  - exists [(8, 0)]. split; auto. repeat constructor; cbn; unfold is_u32; lia.
Qed.

Example server_ex_ends : positive server_ex /\ replies server_ex.
Proof.
  split.
  - intros n o l e ps H E. unfold server_ex in H. destruct n; [destruct H|].
    destruct (o =? 0); [|destruct (o =? 3)]; cbn in H; in_calls H;
      destruct ps as [|[a b] [|[c d] [|[x y] ps]]]; try discriminate E; cbn in E; injection E; intros; subst; repeat constructor.
  - split.
    + exists 1%nat. intros n o l N. destruct n; [lia|]. unfold server_ex. destruct (o =? 0); [|destruct (o =? 3)]; discriminate.
    + intros n o l E. unfold server_ex in *. destruct n; [discriminate|].
      destruct (o =? 0); [|destruct (o =? 3)]; cbn;
        (eexists; split; [eauto|]; intros e H; in_calls H; discriminate).
Qed.

(* A server of 10 bytes that tells the truth: the flags of what is asked for. *)
Definition honest_ex (n : nat) (offset length : Z) : status :=
  if offset <? 0 then Status [] (Some 22)
  else if offset <? 3 then Status [(true, [3 - offset; 0], 0)] None
  else if offset <? 7 then Status [(true, [7 - offset; 3; 100; 0], 0)] None
  else Status [(true, [5; 0], 0)] None.

Example honest_ex_truthful : gives_pairs honest_ex /\ truthful flags_ex 10 honest_ex /\
  extents honest_ex 5 5 10 = Returns [3; 0; 4; 3; 3; 0].
Proof.
  assert (X : forall n o l e, In (true, e, 0) (s_calls (honest_ex n o l)) ->
    exists ps, e = entries_of ps /\ Forall good ps /\ says flags_ex 10 o ps).
  { intros n o l e H. unfold honest_ex in H.
    destruct (Z.ltb_spec o 0); [destruct H|]. destruct (Z.ltb_spec o 3); [|destruct (Z.ltb_spec o 7)]; cbn [s_calls In] in H; in_calls H.
    - exists [(3 - o, 0)]. split; [reflexivity|]. split; [repeat constructor; unfold is_u32; cbn [fst snd]; lia|].
      cbn [says]. unfold is_u32. repeat split; try lia; intros i I1 I2; unfold flags_ex;
        destruct (Z.leb_spec 3 i), (Z.ltb_spec i 7); cbn [andb]; lia.
    - exists [(7 - o, 3); (100, 0)]. split; [reflexivity|]. split; [repeat constructor; unfold is_u32; cbn [fst snd]; lia|].
      cbn [says]. unfold is_u32. repeat split; try lia; intros i I1 I2; unfold flags_ex;
        destruct (Z.leb_spec 3 i), (Z.ltb_spec i 7); cbn [andb]; lia.
    - exists [(5, 0)]. split; [reflexivity|]. split; [repeat constructor; unfold is_u32; cbn [fst snd]; lia|].
      cbn [says]. unfold is_u32. repeat split; try lia; intros i I1 I2; unfold flags_ex;
        destruct (Z.leb_spec 3 i), (Z.ltb_spec i 7); cbn [andb]; lia. }
  split; [|split; [|reflexivity]].
  - intros n o l e H. apply X in H as (ps & -> & G & _). exists ps. auto.
  - intros n o l e H. apply X in H as (ps & -> & _ & S). exists ps. auto.
Qed.

Example map_ex :
  mapURL server_ex 5 5 10 None None None None None =
  Run (Some 0)
    (lit "[{""start"": 0, ""length"": 3, ""zero"": false}," ++ [ascii_of_N 10] ++
     lit " {""start"": 3, ""length"": 4, ""zero"": true}," ++ [ascii_of_N 10] ++
     lit " {""start"": 7, ""length"": 3, ""zero"": false}]" ++ [ascii_of_N 10])
    [HCreate; HShutdown; HClose].
Proof. reflexivity. Qed.

(* ---- findings ---- *)

(* A server that replies without extents for base:allocation, or with empty
   ones, keeps Extents busy for ever. *)
Theorem go_extents_end_refuted :
  exists libnbd size, gives_pairs libnbd /\ 0 <= size < 2 ^ 64 /\
  (forall n o l, s_err (libnbd n o l) = None) /\ forall rounds tries, extents libnbd rounds tries size = Loops.
Proof.
  exists (fun _ _ _ => Status [(true, [0; 0], 0)] None), 10.
  split. { intros n o l e [[= <-]|[]]. exists [(0, 0)]. split; auto. repeat constructor; cbn; unfold is_u32; lia. }
  split; [lia|]. split; [auto|]. intros rounds tries. unfold extents.
  set (f := fun (_ : nat) (_ _ : Z) => Status [(true, [0; 0], 0)] None).
  assert (X : forall rounds n got, extents_loop f rounds tries n 10 0 got = Loops); [|apply X].
  clear rounds. intros rounds. induction rounds as [|rounds IH]; intros n got; auto. destruct tries as [|tries]; auto.
  exact (IH (S n) (got ++ [0; 0])).
Qed.
Print Assumptions go_extents_end_refuted.

(* If the standard output fails the map is cut off, and the exit status is 0. *)
Theorem map_success_refuted :
  exists libnbd rounds tries size room, gives_pairs libnbd /\
  r_exit (mapURL libnbd rounds tries size room None None None None) = Some 0 /\
  forall j, ~ json_text j (r_out (mapURL libnbd rounds tries size room None None None None)).
Proof.
  exists server_ex, 5%nat, 5%nat, 10, (Some O). split; [apply server_ex_pairs|]. split; [reflexivity|].
  intros j. cbn [r_out mapURL connect]. replace (extents server_ex 5 5 10) with (@Returns (list Z) [2; 0; 1; 0; 3; 3; 1; 3; 3; 0]) by reflexivity.
  cbn [r_out take_out firstn]. intros H. remember [] as s eqn:E. induction H.
  - subst s. destruct H0 as [X|(c & r & X & _)]; discriminate X.
  - discriminate.
  - discriminate.
  - discriminate.
  - discriminate.
  - apply app_eq_nil in E as (_ & E). apply app_eq_nil in E as (E & _). auto.
Qed.
Print Assumptions map_success_refuted.

(* If asking for the size, or for the extents, fails, the handle is not closed
   (and the qemu-nbd started for it is not terminated). *)
Theorem map_closes_refuted :
  (exists libnbd size, r_handle (mapURL libnbd 5 5 size None None None None (Some 22)) = [HCreate]) /\
  (exists libnbd size, gives_pairs libnbd /\ r_exit (mapURL libnbd 5 5 size None None None None None) = Some 1 /\
     r_handle (mapURL libnbd 5 5 size None None None None None) = [HCreate]).
Proof.
  split; [exists server_ex, 10; reflexivity|]. exists (fun _ _ _ => Status [] (Some 22)), 10.
  split; [intros n o l e []|]. split; reflexivity.
Qed.
Print Assumptions map_closes_refuted.

(* ---- C87: reading ---- *)

Lemma u64_id n : 0 <= n < 2 ^ 64 -> u64 n = n.
Proof. intros. apply Z.mod_small. auto. Qed.

Lemma u64_neg n : - 2 ^ 63 <= n < 0 -> u64 n = n + 2 ^ 64.
Proof. intros. unfold u64. rewrite <- (Z_mod_plus_full n 1). apply Z.mod_small. lia. Qed.

(* ReadAt of the NBD backend does what io.ReaderAt asks for; what it asks the
   server for is inside of the image; and it fails only if the server does. *)
Theorem go_nbd_reads :
  forall img pread buf off, honest_pread img pread -> zlen img < 2 ^ 63 -> zlen buf < 2 ^ 63 ->
  - 2 ^ 63 <= off < 2 ^ 63 ->
  forall n e buf' q, readAt pread (zlen img) buf off = (n, e, buf', q) ->
  reader_at img off buf n e buf' /\
  (forall o l, q = Some (o, l) -> o = off /\ 0 <= o /\ 0 <= l <= zlen buf /\ o + l <= zlen img) /\
  (forall x, e = EErr x -> exists o l, q = Some (o, l) /\ snd (pread o l) = Some x) /\
  (e = ENil -> n = zlen buf) /\
  (zlen img < off -> e = EEOF).
Proof.
  intros img pread buf off [HP HL] LI LB OFF n e buf' q E. pose proof (zlen_nonneg img). pose proof (zlen_nonneg buf).
  unfold readAt in E. rewrite Z.gtb_ltb in E. destruct (Z.ltb_spec off 0).
  { rewrite u64_neg in E by lia. replace (zlen img <? off + 2 ^ 64) with true in E by lia. injection E as <- <- <- <-.
    split; [|split; [discriminate|split; [discriminate|split; [discriminate|auto]]]].
    unfold reader_at. repeat split; try lia; try discriminate; auto. }
  rewrite (u64_id off) in E by lia. destruct (Z.ltb_spec (zlen img) off).
  { injection E as <- <- <- <-. split; [|split; [discriminate|split; [discriminate|split; [discriminate|auto]]]].
    unfold reader_at. repeat split; try lia; try discriminate; auto. }
  rewrite (u64_id (off + zlen buf)) in E by lia. rewrite Z.gtb_ltb in E. rewrite (u64_id (zlen img - off)) in E by lia.
  assert (X : exists len eof, (if zlen img <? off + zlen buf then (zlen img - off, EEOF) else (zlen buf, ENil)) = (len, eof) /\
    0 <= len <= zlen buf /\ off + len <= zlen img /\
    (eof = ENil /\ len = zlen buf \/ eof = EEOF /\ len = zlen img - off /\ zlen img < off + zlen buf)).
  { destruct (Z.ltb_spec (zlen img) (off + zlen buf)); eexists _, _; (split; [reflexivity|]); [split; [lia|]; split; [lia|]; right; repeat split; lia|].
    split; [lia|]. split; [lia|]. left. auto. }
  destruct X as (len & eof & X & L1 & L2 & C). rewrite X in E. clear X.
  specialize (HP off len). specialize (HL off len). destruct (pread off len) as [data err] eqn:PR. cbn [fst snd] in *.
  assert (ZB : zlen (data ++ drop (zlen data) buf) = zlen buf).
  { rewrite zlen_app, zlen_drop. pose proof (zlen_nonneg data). lia. }
  destruct err as [x|]; injection E as <- <- <- <-.
  - split; [|split; [|split; [|split; [|lia]]]].
    + unfold reader_at. repeat split; try lia; try discriminate; auto.
    + intros o l [= <- <-]. repeat split; try lia.
    + intros y [= <-]. exists off, len. rewrite PR. auto.
    + discriminate.
  - destruct (HP eq_refl) as (P1 & P2 & P3). pose proof P3 as [P4 _].
    split; [|split; [|split; [|split; [|lia]]]].
    + unfold reader_at. split; [auto|]. split; [lia|]. split; [destruct C as [[-> ->]|[-> _]]; [lia|discriminate]|].
      split. { intros _. split; auto. rewrite take_app, P4, Z.sub_diag, (take_nonpos 0), app_nil_r, take_all by lia. exact P3. }
      split. { intros ->. destruct C as [[? _]|(_ & -> & C)]; [discriminate|]. split; [lia|]. auto. }
      split; [intros y ->; destruct C as [[? _]|[? _]]; discriminate|]. lia.
    + intros o l [= <- <-]. repeat split; try lia.
    + intros y ->. destruct C as [[? _]|[? _]]; discriminate.
    + intros ->. destruct C as [[_ ->]|[? _]]; [|discriminate]. auto.
Qed.
Print Assumptions go_nbd_reads.

(* An image of 4 bytes and its server. *)
Definition img_ex : list byte := ["065"; "066"; "067"; "068"]%byte.
Definition pread_ex (o l : Z) : list byte * option Z :=
  if (0 <? l) && (0 <=? o) && (o + l <=? 4) then (sub o l img_ex, None) else ([], Some 22).

Example pread_ex_honest : honest_pread img_ex pread_ex.
Proof.
  split; intros o l; unfold pread_ex; destruct (Z.ltb_spec 0 l), (Z.leb_spec 0 o), (Z.leb_spec (o + l) 4); cbn [andb fst snd]; try discriminate.
  - intros _. split; auto. split; auto. split.
    + rewrite zlen_sub. change (zlen img_ex) with 4. lia.
    + intros i I. change (zlen img_ex) with 4. split; [lia|]. rewrite getb_sub by lia. replace (i <? l) with true by lia. reflexivity.
  - rewrite zlen_sub. lia.
  - rewrite zlen_nil; lia.
  - rewrite zlen_nil; lia.
  - rewrite zlen_nil; lia.
  - rewrite zlen_nil; lia.
  - rewrite zlen_nil; lia.
  - rewrite zlen_nil; lia.
  - rewrite zlen_nil; lia.
Qed.

Example go_nbd_reads_ex :
  readAt pread_ex 4 (zeros 3) 2 = (2, EEOF, ["067"; "068"; "000"]%byte, Some (2, 2)) /\
  readAt pread_ex 4 (zeros 2) 1 = (2, ENil, ["066"; "067"]%byte, Some (1, 2)) /\
  readAt pread_ex 4 (zeros 2) 5 = (0, EEOF, zeros 2, None) /\
  readAt pread_ex 4 (zeros 2) (-1) = (0, EEOF, zeros 2, None).
Proof. repeat split. Qed.

(* Reading at the end of the image is an error of the server instead of EOF:
   a loop reading until EOF fails. *)
Theorem go_nbd_reads_refuted :
  exists img pread buf, honest_pread img pread /\ 0 < zlen buf /\
    exists x, readAt pread (zlen img) buf (zlen img) = (0, EErr x, buf, Some (zlen img, 0)).
Proof. exists img_ex, pread_ex, (zeros 2). split; [apply pread_ex_honest|]. split; [reflexivity|]. exists 22. reflexivity. Qed.
Print Assumptions go_nbd_reads_refuted.
