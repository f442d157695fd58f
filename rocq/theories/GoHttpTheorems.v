From Coq Require Import ZArith List Bool Ascii String Lia.
From Verif Require Import BytesLib HeaderModel HeaderSpec HttpModel OpsModel OpsTheorems ImagesModel ImagesSpec ExtentsModel
  HttpBackendModel HttpBackendSpec HttpBackendProofs HttpBackendTheorems GoModel GoSpec GoHttpModel GoHttpSpec GoHttpProofs.
Import ListNotations.
Open Scope Z_scope.

(* A new backend, http.go:41. *)
Notation gnew w := (GB 0 [] 0 w).

(* ---- C87: the HTTP backend ---- *)

(* Any calls of a backend of an imageio server, whatever fails: Size gives the
   size of the image, Extents the extents the server had at some time, and
   ReadAt does what io.ReaderAt asks for; nothing panics and the image is not
   changed. *)
Theorem go_http_calls :
  forall id img envs breaks w cs,
  (forall i, usable id (zlen img) (envs i)) -> (forall i, fitting (zlen img) (envs i)) -> zlen img < 2 ^ 63 ->
  iw_img w = img -> Forall go_call cs ->
  let r := grun (imageio id envs) breaks cs (gnew w) in
  Forall2 (good_call img (fun es => exists i l, se_ext (envs i) false img = Some l /\ es = map go_extent l)) cs (fst r) /\
  iw_img (g_world (snd r)) = img.
Proof.
  intros id img envs breaks w cs U F L I C r.
  destruct (grun_spec id img envs breaks U F L cs (gnew w)) as [(A & _) B]; auto.
  repeat split; auto.
Qed.
Print Assumptions go_http_calls.

(* With a server doing what it is asked and a connection that does not break,
   reading inside of the image succeeds, reading over its end gives what there
   is and EOF, and reading after the end EOF. *)
Theorem go_http_reads_succeed :
  forall id img envs w buf off l,
  id <> [] -> (forall i, willing id (zlen img) (envs i)) -> (forall i, patient (zlen img) (envs i)) ->
  (forall i, fitting (zlen img) (envs i)) -> zlen img < 2 ^ 63 -> iw_img w = img ->
  se_ext (envs (iw_n w)) false img = Some l ->
  0 < zlen buf < 2 ^ 63 -> 0 <= off < 2 ^ 63 -> off <> zlen img ->
  exists buf' s, gread (imageio id envs) (fun _ => None) buf off (gnew w) =
    (Some (Z.max 0 (Z.min (zlen buf) (zlen img - off)), if off + zlen buf <=? zlen img then ENil else EEOF, buf'), s).
Proof.
  intros id img envs w buf off l ID Wi Pa F L I X LB OFF NE. pose proof (zlen_nonneg img).
  destruct (gread (imageio id envs) (fun _ => None) buf off (gnew w)) as [r s'] eqn:E. unfold gread in E.
  destruct (gsize (imageio id envs) (fun _ => None) (gnew w)) as [sz s1] eqn:G.
  assert (G' : exists s2, gsize (imageio id envs) (fun _ => None) (gnew w) = (GOk (zlen img), s2) /\ iw_img (g_world s2) = img).
  { assert (IV : inv img envs (gnew w)) by (repeat split; auto).
    pose proof G as G0. apply (gsize_spec id img envs) in G as ((IW & _) & SZ); auto; [|intros i; apply Wi].
    rewrite G0. destruct SZ as [->| ->]; [|eauto]. exfalso.
    unfold gsize in G0. cbn [g_size Z.eqb] in G0. unfold getExtents, client_do in G0. cbn [g_world g_reqs g_size g_extents] in G0.
    destruct (imageio id envs w (MExtents (lits "zero"))) as [y w1] eqn:S.
    pose proof S as S0. apply (srv_extents id envs _ _ _ false) in S as (S1 & _ & S3).
    destruct (Wi (iw_n w)) as ((GB & CC & _ & EE) & (bs & bf & OP) & RD & WR & RF & CN & LS & LM & RG & WG & WW & WF).
    unfold imageio, served, extents_get in S0. cbn [ireq_of q_id q_query] in S0.
    destruct id as [|i0 id0]; [tauto|]. unfold enter in S0. cbn [se_v se_ext se_lost i_auth i_open q_id] in S0.
    rewrite RD, OP, LS, I in S0. cbn in S0. rewrite X in S0. cbn in S0. injection S0 as <- <-.
    cbn [p_status Z.eqb Pos.eqb negb p_json unmarshal] in G0. rewrite decode_dicts in G0 by (eapply F; eauto).
    cbn [g_extents] in G0. pose proof (EE img l eq_refl X) as EX. unfold extents_end in EX.
    rewrite map_map, <- map_rev in G0. destruct (rev l); cbn [map] in G0; discriminate. }
  destruct G' as (s2 & G1 & IW). rewrite G1 in G. injection G as <- <-.
  rewrite (u64_small off), (u64_small (off + zlen buf)), !Z.gtb_ltb in E by lia.
  destruct (Z.ltb_spec (zlen img) off).
  { injection E as <- <-. replace (off + zlen buf <=? zlen img) with false by lia.
    replace (Z.max 0 (Z.min (zlen buf) (zlen img - off))) with 0 by lia. eauto. }
  rewrite (u64_small (zlen img - off)) in E by lia.
  assert (Y : (if zlen img <? off + zlen buf then (zlen img - off, EEOF) else (zlen buf, ENil)) =
    (Z.max 0 (Z.min (zlen buf) (zlen img - off)), if off + zlen buf <=? zlen img then ENil else EEOF)).
  { destruct (Z.ltb_spec (zlen img) (off + zlen buf)); [replace (off + zlen buf <=? zlen img) with false by lia|
      replace (off + zlen buf <=? zlen img) with true by lia]; f_equal; lia. }
  rewrite Y in E. clear Y. set (len := Z.max 0 (Z.min (zlen buf) (zlen img - off))) in *.
  assert (LL : 0 < len /\ off + len <= zlen img) by (unfold len; lia). clearbody len.
  destruct (will_get id (zlen img) envs ID Wi Pa (g_world s2) len off) as (p & w' & S & P1 & P2 & P3); [congruence|lia..|].
  unfold gget, client_do in E. change (range_header off len) with (range_text off (off + len - 1)) in E.
  rewrite S, P1, P2, !Z.eqb_refl in E. cbn [negb] in E. unfold arriving in E.
  rewrite take_all, P3, Z.ltb_irrefl in E by lia. injection E as <- <-. eauto.
Qed.
Print Assumptions go_http_reads_succeed.

(* ---- a case ---- *)

Example fitting_ex : fitting 10 senv_ex.
Proof.
  intros img l L E. injection E as <-.
  assert (Z : 0 <= leading img <= zlen img).
  { clear L. induction img as [|b img IH]; [cbn; lia|]. rewrite zlen_cons. destruct b; cbn [leading]; lia. }
  apply Forall_app. split.
  - destruct (0 <? leading img); constructor; [|constructor]. cbn [go_extent e_start e_length]. lia.
  - destruct (leading img <? zlen img); constructor; [|constructor]. cbn [go_extent e_start e_length]. lia.
Qed.

(* The response to the third request, the second read, breaks. *)
Example go_http_calls_ex :
  fst (grun srv_ex (fun n => match n with 2%nat => Some 1 | _ => None end)
    [GExtents; GRead (zeros 3) 8; GRead (zeros 3) 1; GSize; GRead (zeros 2) 11; GRead (zeros 2) (-1)] (gnew world_ex)) =
  [OExtents (GOk [Some (Extent 0 2 true); Some (Extent 2 8 false)]);
   ORead (Some (0, EErr 0, [x09; x00; x00]));
   ORead (Some (3, ENil, [x00; x03; x04]));
   OSize (GOk 10);
   ORead (Some (0, EEOF, zeros 2)); ORead (Some (0, EEOF, zeros 2))].
Proof. vm_compute. reflexivity. Qed.

Example go_http_reads_ex :
  fst (gread srv_ex (fun _ => None) (zeros 3) 8 (gnew world_ex)) = Some (2, EEOF, [x09; x0a; x00]) /\
  fst (gread srv_ex (fun _ => None) (zeros 2) 8 (gnew world_ex)) = Some (2, ENil, [x09; x0a]).
Proof. vm_compute. split; reflexivity. Qed.

(* Any server and any answer.  Extents of a new backend gives what the answer
   means if it is complete and good, and an error in all other cases. *)
Theorem go_http_extents_decoded :
  forall W (serve : W -> message -> option response * W) breaks w,
  match fst (gextents serve breaks (gnew w)) with
  | GOk l => exists p, fst (serve w (MExtents (lits "zero"))) = Some p /\ p_status p = 200 /\ breaks 0%nat = None /\
      means_extents (p_json p) l
  | GErr => forall p l, fst (serve w (MExtents (lits "zero"))) = Some p -> p_status p = 200 -> breaks 0%nat = None ->
      ~ means_extents (p_json p) l
  | GPanic => False
  end.
Proof.
  intros W serve breaks w. unfold gextents, getExtents, client_do. cbn [g_extents g_world g_reqs g_size].
  destruct (serve w (MExtents (lits "zero"))) as [[p|] w1]; cbn [fst]; [|intros p l H; discriminate H].
  destruct (Z.eqb_spec (p_status p) 200) as [ST|ST]; cbn [negb].
  2: { cbn [fst]. intros q l [= <-] Q. congruence. }
  destruct (breaks 0%nat) as [cut|] eqn:BR; cbn [fst g_extents]; [intros q l _ _ H; discriminate H|].
  pose proof (unmarshal_means (p_json p)) as M. destruct (unmarshal [] (p_json p)) as [l ok].
  destruct ok; cbn [fst g_extents].
  - exists p. auto.
  - intros q l0 Q _ _ H. injection Q as <-. exact (M l0 H).
Qed.
Print Assumptions go_http_extents_decoded.

(* Missing members, null, and values of wrong types. *)
Example go_http_decode_ex :
  let serve j (w : unit) (_ : message) := (Some (Resp 200 (Some 2) [] j), w) in
  let ask j := fst (gextents (serve j) (fun _ => None) (gnew tt)) in
  ask (Some (JList [JObj [(lit "start", JInt 4); (lit "zero", JNull)]; JNull])) = GOk [Some (Extent 4 0 false); None] /\
  ask (Some JNull) = GOk [] /\ ask (Some (JInt 1)) = GErr /\
  ask (Some (JList [JObj [(lit "zero", JInt 1)]])) = GErr /\
  ask (Some (JList [JObj [(lit "length", JInt (2 ^ 64))]])) = GErr.
Proof. vm_compute. repeat (split; [reflexivity|]). reflexivity. Qed.

(* ---- findings ---- *)

(* Reading at the end of the image, or no bytes, fails instead of giving EOF or
   nothing: an invalid range is asked for. *)
Theorem go_http_reads_succeed_refuted :
  exists id img e w, id <> [] /\ willing id (zlen img) e /\ patient (zlen img) e /\ fitting (zlen img) e /\ iw_img w = img /\
  fst (gread (imageio id (fun _ => e)) (fun _ => None) (zeros 2) (zlen img) (gnew w)) = Some (0, EErr 0, zeros 2) /\
  fst (gread (imageio id (fun _ => e)) (fun _ => None) [] 0 (gnew w)) = Some (0, EErr 0, []).
Proof.
  exists (lit "id"), (iw_img world_ex), senv_ex, world_ex.
  split; [discriminate|]. split; [exact willing_ex|]. split; [exact patient_ex|]. split; [exact fitting_ex|].
  split; [reflexivity|]. vm_compute. split; reflexivity.
Qed.
Print Assumptions go_http_reads_succeed_refuted.

(* A server that has no extents for its image, which is empty, makes Size and
   ReadAt panic. *)
Theorem go_http_size_refuted :
  exists W (serve : W -> message -> option response * W) w,
  (forall w m, exists p, fst (serve w m) = Some p /\ p_status p = 200 /\ p_json p = Some (JList [])) /\
  fst (gsize serve (fun _ => None) (gnew w)) = GPanic /\
  fst (gread serve (fun _ => None) (zeros 2) 0 (gnew w)) = None.
Proof.
  exists unit, (fun w _ => (Some (Resp 200 (Some 2) [] (Some (JList []))), w)), tt.
  split; [|split; reflexivity]. intros w m. eexists. split; [reflexivity|]. auto.
Qed.
Print Assumptions go_http_size_refuted.

(* If decoding the extents fails, the next call of Extents succeeds, without
   asking the server, with the extents that failed to decode. *)
Theorem go_http_extents_again_refuted :
  exists W (serve : W -> message -> option response * W) w s,
  gextents serve (fun _ => None) (gnew w) = (GErr, s) /\
  gextents serve (fun _ => None) s = (GOk [Some (Extent 0 0 true); Some (Extent 4 6 false)], s).
Proof.
  exists unit, (fun w _ => (Some (Resp 200 (Some 2) [] (Some (JList
    [JObj [(lit "start", JInt 0); (lit "length", JInt (-4)); (lit "zero", JBool true)];
     JObj [(lit "start", JInt 4); (lit "length", JInt 6); (lit "zero", JBool false)]]))), w)), tt.
  eexists. split; reflexivity.
Qed.
Print Assumptions go_http_extents_again_refuted.
