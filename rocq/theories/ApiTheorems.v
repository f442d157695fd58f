From Coq Require Import ZArith List Bool Lia String.
From Verif Require Import BytesLib HeaderModel HeaderSpec HttpModel OpsModel OpsProofs OpsTheorems ImagesModel ImagesSpec
  HttpBackendModel HttpBackendSpec HttpBackendProofs HttpBackendTheorems ApiModel ApiSpec ApiProofs.
Import ListNotations.
Open Scope Z_scope.

(* A new client: nothing is known about the image yet. *)
Definition fresh {W} (c : client W) : Prop :=
  c_closed c = false /\ h_size (c_back c) = None /\ h_zero (c_back c) = None.

Lemma fresh_client_inv total (c : client iworld) :
  fresh c -> zlen (img c) = total -> Inv total (c_back c).
Proof. intros (_ & A & B) L. apply fresh_inv; auto. Qed.

Lemma apis_inv id total envs nets : (forall i, usable id total (envs i)) ->
  forall l k c rs c',
  run_apis (imageio id envs) nets k l c = (rs, c') -> Inv total (c_back c) ->
  Inv total (c_back c') /\ api_calls nets k l (img c) rs (img c').
Proof.
  intros U. induction l as [|a l IH]; intros k c rs c' E I; cbn [run_apis] in E.
  - injection E as <- <-. cbn. auto.
  - destruct (run_api _ _ _ _) as [r c1] eqn:R. destruct (run_apis _ _ _ _ _) as [rs1 c2] eqn:RS.
    injection E as <- <-. eapply api_imageio in R as (J & A); eauto.
    eapply IH in RS as (J2 & AS); eauto. split; auto. cbn [api_calls]. eauto.
Qed.

(* ---- C76: the client and the server together ---- *)

(* Any calls of a new client do what they do on an array of bytes. *)
Theorem client_is_an_array :
  forall id total envs, (forall i, usable id total (envs i)) ->
  forall nets l c rs c',
  fresh c -> zlen (img c) = total ->
  run_apis (imageio id envs) nets 0 l c = (rs, c') ->
  api_calls nets 0 l (img c) rs (img c').
Proof.
  intros id total envs U nets l c rs c' F L E.
  eapply apis_inv in E; eauto using fresh_client_inv. tauto.
Qed.
Print Assumptions client_is_an_array.

(* With any server: a read that returns has filled the buffer. *)
Theorem read_fills_the_buffer :
  forall W (server : W -> message -> option response * W) o offset buf c n b c',
  cl_read server o offset buf c = (inl n, b, c') -> n = zlen buf /\ zlen b = zlen buf.
Proof.
  intros W server o offset buf c n b c' E. unfold cl_read, cl_size in E.
  destruct (size _ _) as [y s1] eqn:SZ. destruct y as [sz|e]; [|discriminate].
  apply size_eq in SZ as (_ & _ & _ & _ & _ & _ & _ & HS). specialize (HS sz eq_refl).
  destruct (Z.ltb_spec sz (offset + zlen buf)); [discriminate|].
  unfold at_offset in E. cbn [seek snd Z.eqb c_back with_back] in E.
  destruct (readinto _ _ _ _) as [[r b1] s2] eqn:R. injection E as -> <- <-.
  apply readinto_eq in R as (s3 & rs & SZ & R).
  unfold size in SZ. cbn [set_pos h_size] in SZ. rewrite HS in SZ. injection SZ as <- <-.
  cbn [h_pos set_pos] in R. pose proof (zlen_nonneg buf).
  destruct R as [(N & [= ->] & -> & _)|(N & p & w & ri & d & S & -> & D & DP & R)].
  - lia.
  - destruct R as [([= ->] & Z & _)|((e & [=]) & _)].
    rewrite zlen_app, zlen_drop. lia.
Qed.
Print Assumptions read_fills_the_buffer.

(* With any server: a read or write behind the end of the image raises
   RuntimeError, and asks the server for nothing but the size. *)
Theorem bounds_are_checked :
  forall W (server : W -> message -> option response * W) o offset buf c sz c1 a r c',
  cl_size server c = (inl sz, c1) -> sz < offset + zlen buf ->
  a = ARead offset buf \/ a = AWrite offset buf ->
  run_api server o a c = (r, c') ->
  o_result r = inr XRuntime /\ (a = ARead offset buf -> o_bytes r = buf) /\ c' = c1 /\
  exists pre, h_sent (c_back c') = h_sent (c_back c) ++ pre /\ Forall about_size pre.
Proof.
  intros W server o offset buf c sz c1 a r c' SZ B A E.
  assert (PRE : exists pre, h_sent (c_back c1) = h_sent (c_back c) ++ pre /\ Forall about_size pre).
  { unfold cl_size in SZ. destruct (size _ _) as [y s1] eqn:X. injection SZ as -> <-.
    apply size_eq in X as (_ & _ & _ & _ & _ & _ & P & _). exact P. }
  destruct A as [-> | ->]; cbn [run_api] in E; [unfold cl_read in E|unfold cl_write in E];
    rewrite SZ in E; destruct (Z.ltb_spec sz (offset + zlen buf)); try lia;
    injection E as <- <-; (split; [reflexivity|]); (split; [auto || discriminate|]); auto.
Qed.
Print Assumptions bounds_are_checked.

(* ---- calls that succeed ---- *)

Definition reachable (id : str) (total : Z) envs (c : client iworld) : Prop :=
  exists c0 nets l rs, fresh c0 /\ zlen (img c0) = total /\ run_apis (imageio id envs) nets 0 l c0 = (rs, c).

(* A network, reader and writer that do what they are asked. *)
Definition working (o : net) : Prop :=
  (forall i, n_read o i <> None) /\ (forall i, n_send o i = SendOk) /\
  (forall i, exists c, n_src o i = Some c /\ 0 < c) /\ (forall i, n_dst o i <> None).

(* After any calls: a call of an open client with a range inside of the image
   succeeds, if the server does what it is asked and told the size. *)
Theorem calls_in_bounds_succeed :
  forall id total envs o a c offset n,
  id <> [] -> (forall i, willing id total (envs i)) -> (forall i, patient total (envs i)) -> working o ->
  reachable id total envs c -> c_closed c = false -> 0 < c_buflen c ->
  range_of a = Some (offset, n) -> 0 < n -> 0 <= offset -> offset + n <= total ->
  (forall src, a = AReadFrom src offset n -> n <= zlen src) ->
  fst (cl_size (imageio id envs) c) = inl total ->
  ok (fst (run_api (imageio id envs) o a c)).
Proof.
  intros id total envs o a c offset n ID Wi Pa (NR & NS & NI & ND) (c0 & nets & l & rs & F & L & E) CL BL RG N P T SRC SZ.
  assert (U : forall i, usable id total (envs i)) by (intros i; apply Wi).
  eapply apis_inv in E as (I & _); eauto using fresh_client_inv. clear F L.
  pose proof I as (L & _).
  unfold cl_size in SZ. destruct (size _ _) as [y s1] eqn:S. cbn [fst] in SZ. subst y.
  pose proof S as S0.
  assert (SV : forall s, serve_of (imageio id envs) (with_back c s) = imageio id envs)
    by (intros s; unfold serve_of, with_back; cbn [c_closed]; rewrite CL; auto).
  assert (SV0 : serve_of (imageio id envs) c = imageio id envs) by (unfold serve_of; rewrite CL; auto).
  rewrite SV0 in S. pose proof S as S2.
  eapply size_imageio in S2 as ((L1 & _) & _); eauto.
  apply size_eq in S as (_ & _ & _ & _ & _ & _ & _ & HS). specialize (HS total eq_refl).
  destruct a; try discriminate; injection RG as -> <-; cbn [run_api].
  - unfold cl_read, cl_size. rewrite S0. destruct (Z.ltb_spec total (offset + zlen buf)); [lia|].
    unfold at_offset. rewrite !SV. cbn [seek snd Z.eqb c_back with_back].
    destruct (readinto_over_http_succeeds id total envs o buf (set_pos s1 offset)) as (b & s2 & ->); auto.
    eexists. reflexivity.
  - unfold cl_write, cl_size. rewrite S0. destruct (Z.ltb_spec total (offset + zlen buf)); [lia|].
    unfold at_offset. rewrite !SV. cbn [seek snd Z.eqb c_back with_back].
    destruct (write_over_http_succeeds id total envs o buf (set_pos s1 offset)) as (s2 & ->); auto.
    { intros ->. cbn in N. lia. }
    eexists. reflexivity.
  - unfold cl_zero, at_offset. rewrite SV0. cbn [seek snd Z.eqb].
    assert (Z : exists s2, zero (imageio id envs) o length (set_pos (c_back c) offset) = (inl length, s2)).
    { destruct (h_can_zero (c_back c)) eqn:CZ.
      - eapply zero_over_http_succeeds; eauto. cbn. lia.
      - eapply emulated_zero_succeeds; eauto. }
    destruct Z as (s2 & ->). eexists. reflexivity.
  - unfold cl_read_from, at_offset. rewrite SV0. cbn [seek snd Z.eqb].
    destruct (read_from_over_http_succeeds id total envs o src length (c_buflen c) (set_pos (c_back c) offset))
      as (lf & s2 & ->); auto. eexists. reflexivity.
  - unfold cl_write_to, at_offset. rewrite SV0. cbn [seek snd Z.eqb].
    destruct (write_to_over_http_succeeds id total envs o length (c_buflen c) (set_pos (c_back c) offset))
      as (out & s2 & ->); auto. eexists. reflexivity.
Qed.
Print Assumptions calls_in_bounds_succeed.

(* ---- flush ---- *)

Definition Durable (s : hb iworld) : Prop := h_can_flush s = false -> durable (iw_log (h_world s)).

Section Durable.
Variables (id : str) (total : Z) (envs : nat -> senv).
Hypothesis U : forall i, usable id total (envs i).
Notation srv := (imageio id envs).

Lemma durable_step o bc s r s' n :
  run_call srv o bc s = (r, s') -> o_result r = inl n -> Inv total s -> Durable s ->
  Inv total s' /\ Durable s'.
Proof.
  intros E R I D. eapply call_imageio in E as (J & (CF & log & LG & X) & _); eauto. split; auto.
  intros F. rewrite CF in F. specialize (X n R). rewrite F in X. rewrite LG. apply durable_app; auto.
Qed.

Lemma api_durable o a c r c' :
  run_api srv o a c = (r, c') -> ok r -> c_closed c = false -> Inv total (c_back c) -> Durable (c_back c) ->
  Durable (c_back c').
Proof.
  intros E (n & R) CL I D.
  assert (SV : forall s, serve_of srv (with_back c s) = srv)
    by (intros s; unfold serve_of, with_back; cbn [c_closed]; rewrite CL; auto).
  assert (SV0 : serve_of srv c = srv) by (unfold serve_of; rewrite CL; auto).
  destruct a; cbn [run_api] in E.
  - destruct (cl_read _ _ _ _ _) as [[x b] c1] eqn:X. injection E as <- <-. cbn in R. subst x.
    unfold cl_read, cl_size in X. rewrite SV0 in X. destruct (size _ _) as [y s1] eqn:SZ.
    destruct y as [sz|e]; [|discriminate]. destruct (sz <? _); [discriminate|].
    unfold at_offset in X. rewrite !SV in X. cbn [seek snd Z.eqb c_back with_back] in X.
    destruct (readinto _ _ _ _) as [[z b1] s2] eqn:RI. injection X as -> <- <-.
    assert (X1 : run_call srv o CSize (c_back c) = (Out (inl sz) [], s1)) by (cbn [run_call]; rewrite SZ; auto).
    eapply durable_step in X1 as (I1 & D1); eauto; [|reflexivity].
    assert (X2 : run_call srv o (CReadinto buf) (set_pos s1 offset) = (Out (inl n) b1, s2))
      by (cbn [run_call]; rewrite RI; auto).
    eapply durable_step in X2 as (I2 & D2); eauto. reflexivity.
  - destruct (cl_write _ _ _ _ _) as [x c1] eqn:X. injection E as <- <-. cbn in R. subst x.
    unfold cl_write, cl_size in X. rewrite SV0 in X. destruct (size _ _) as [y s1] eqn:SZ.
    destruct y as [sz|e]; [|discriminate]. destruct (sz <? _); [discriminate|].
    unfold at_offset in X. rewrite !SV in X. cbn [seek snd Z.eqb c_back with_back] in X.
    destruct (write _ _ _ _) as [z s2] eqn:RI. destruct z as [m|e]; [|discriminate]. injection X as <- <-.
    assert (X1 : run_call srv o CSize (c_back c) = (Out (inl sz) [], s1)) by (cbn [run_call]; rewrite SZ; auto).
    eapply durable_step in X1 as (I1 & D1); eauto; [|reflexivity].
    assert (X2 : run_call srv o (CWrite buf) (set_pos s1 offset) = (Out (inl m) [], s2))
      by (cbn [run_call]; rewrite RI; auto).
    eapply durable_step in X2 as (I2 & D2); eauto. reflexivity.
  - destruct (cl_zero _ _ _ _ _) as [x c1] eqn:X. injection E as <- <-. cbn in R. subst x.
    unfold cl_zero, at_offset in X. rewrite SV0 in X. cbn [seek snd Z.eqb] in X.
    destruct (zero _ _ _ _) as [z s2] eqn:RI. destruct z as [m|e]; [|discriminate]. injection X as <- <-.
    assert (X2 : run_call srv o (CZero length) (set_pos (c_back c) offset) = (Out (inl m) [], s2))
      by (cbn [run_call]; rewrite RI; auto).
    eapply durable_step in X2 as (I2 & D2); eauto. reflexivity.
  - destruct (cl_read_from _ _ _ _ _ _) as [[x b] c1] eqn:X. injection E as <- <-. cbn in R. subst x.
    unfold cl_read_from, at_offset in X. rewrite SV0 in X. cbn [seek snd Z.eqb] in X.
    destruct (read_from _ _ _ _ _ _) as [[z b1] s2] eqn:RI. destruct z as [m|e]; [|discriminate].
    injection X as <- <- <-.
    assert (X2 : run_call srv o (CReadFrom src length (c_buflen c)) (set_pos (c_back c) offset) = (Out (inl m) b1, s2))
      by (cbn [run_call]; rewrite RI; auto).
    eapply durable_step in X2 as (I2 & D2); eauto. reflexivity.
  - destruct (cl_write_to _ _ _ _ _) as [[x b] c1] eqn:X. injection E as <- <-. cbn in R. subst x.
    unfold cl_write_to, at_offset in X. rewrite SV0 in X. cbn [seek snd Z.eqb] in X.
    destruct (write_to _ _ _ _ _) as [[z b1] s2] eqn:RI. destruct z as [m|e]; [|discriminate].
    injection X as <- <- <-.
    assert (X2 : run_call srv o (CWriteTo length (c_buflen c)) (set_pos (c_back c) offset) = (Out (inl m) b1, s2))
      by (cbn [run_call]; rewrite RI; auto).
    eapply durable_step in X2 as (I2 & D2); eauto. reflexivity.
  - unfold cl_size in E. rewrite SV0 in E. destruct (size _ _) as [y s1] eqn:SZ. injection E as <- <-.
    cbn in R. subst y.
    assert (X1 : run_call srv o CSize (c_back c) = (Out (inl n) [], s1)) by (cbn [run_call]; rewrite SZ; auto).
    eapply durable_step in X1 as (I1 & D1); eauto. reflexivity.
  - unfold cl_flush in E. rewrite SV0 in E. destruct (flush _ _) as [y s1] eqn:F. injection E as <- <-.
    destruct y as [y|e]; [|discriminate].
    assert (X1 : run_call srv o CFlush (c_back c) = (Out (inl 0) [], s1)) by (cbn [run_call]; rewrite F; auto).
    eapply durable_step in X1 as (I1 & D1); eauto.
  - unfold cl_close in E. rewrite CL in E. destruct fails; injection E as <- <-; auto.
Qed.
End Durable.

Lemma closed_stays W (server : W -> message -> option response * W) o a c r c' :
  run_api server o a c = (r, c') -> c_closed c = true -> c_closed c' = true.
Proof.
  intros E C. destruct a; cbn [run_api] in E.
  - unfold cl_read, cl_size in E. destruct (size _ _) as [[y|e] s1]; [|injection E as <- <-; auto].
    destruct (y <? _); [injection E as <- <-; auto|]. destruct (readinto _ _ _ _) as [[z b] s2].
    injection E as <- <-. auto.
  - unfold cl_write, cl_size in E. destruct (size _ _) as [[y|e] s1]; [|injection E as <- <-; auto].
    destruct (y <? _); [injection E as <- <-; auto|]. destruct (write _ _ _ _) as [z s2].
    injection E as <- <-. auto.
  - unfold cl_zero in E. destruct (zero _ _ _ _). injection E as <- <-. auto.
  - unfold cl_read_from in E. destruct (read_from _ _ _ _ _ _) as [[z b] s2]. injection E as <- <-. auto.
  - unfold cl_write_to in E. destruct (write_to _ _ _ _ _) as [[z b] s2]. injection E as <- <-. auto.
  - unfold cl_size in E. destruct (size _ _). injection E as <- <-. auto.
  - unfold cl_flush in E. destruct (flush _ _). injection E as <- <-. auto.
  - unfold cl_close in E. rewrite C in E. injection E as <- <-. auto.
Qed.

(* If calls succeed and the last one is a flush of a client that is not closed,
   the server flushed its backend after every change. *)
Theorem client_flush_is_durable :
  forall id total envs, (forall i, usable id total (envs i)) ->
  forall nets l c rs c',
  fresh c -> zlen (img c) = total -> durable (iw_log (h_world (c_back c))) ->
  run_apis (imageio id envs) nets 0 (l ++ [AFlush]) c = (rs, c') ->
  (forall r, In r rs -> ok r) -> c_closed c' = false ->
  durable (iw_log (h_world (c_back c'))).
Proof.
  intros id total envs U nets l c rs c' F L D E OK CL.
  assert (I : Inv total (c_back c)) by (apply fresh_client_inv; auto).
  assert (D' : Durable (c_back c)) by (intros _; exact D). destruct F as (C0 & _). clear L D.
  revert c rs c' I D' C0 E OK CL. generalize O.
  induction l as [|a l IH]; intros k c rs c' I D C0 E OK CL; cbn [app run_apis] in E.
  - cbn [run_api] in E. unfold cl_flush, serve_of in E. rewrite C0 in E.
    destruct (flush _ _) as [y s1] eqn:F. injection E as <- <-.
    destruct (OK _ (or_introl eq_refl)) as (n & N). destruct y as [[]|e]; [|discriminate].
    cbn [c_back with_back]. destruct (h_can_flush (c_back c)) eqn:CF.
    + eapply flush_is_enough; eauto.
    + unfold flush in F. rewrite CF in F. injection F as <-. auto.
  - destruct (run_api _ _ _ _) as [r c1] eqn:R. destruct (run_apis _ _ _ _ _) as [rs1 c2] eqn:RS.
    injection E as <- <-.
    assert (C1 : c_closed c1 = false).
    { destruct (c_closed c1) eqn:X; auto. exfalso.
      assert (H : forall l k c rs c', run_apis (imageio id envs) nets k l c = (rs, c') ->
                c_closed c = true -> c_closed c' = true).
      { clear. induction l as [|a l IH]; intros k c rs c' E C; cbn [run_apis] in E.
        - injection E as <- <-. auto.
        - destruct (run_api _ _ _ _) as [r c1] eqn:R. destruct (run_apis _ _ _ _ _) as [rs1 c2] eqn:RS.
          injection E as <- <-. eauto using closed_stays. }
      rewrite (H _ _ _ _ _ RS X) in CL. discriminate. }
    assert (OKR : ok r) by (apply OK; left; auto).
    pose proof (api_durable _ _ _ U _ _ _ _ _ R OKR C0 I D) as D1.
    eapply api_imageio in R as (J & _); eauto.
    eapply IH in RS; eauto. intros x X. apply OK. right. auto.
Qed.
Print Assumptions client_flush_is_durable.

(* ---- close ---- *)

Lemma closed_call W (server : W -> message -> option response * W) o a c r c' :
  run_api server o a c = (r, c') -> c_closed c = true ->
  h_world (c_back c') = h_world (c_back c) /\ (does_io a = true -> ~ ok r).
Proof.
  intros E C.
  assert (SV : forall s, serve_of server (with_back c s) = no_server)
    by (intros s; unfold serve_of, with_back; cbn [c_closed]; rewrite C; auto).
  assert (SV0 : serve_of server c = no_server) by (unfold serve_of; rewrite C; auto).
  destruct a; cbn [run_api] in E.
  - destruct (cl_read _ _ _ _ _) as [[x b] c1] eqn:X. injection E as <- <-.
    pose proof X as X0. unfold cl_read, cl_size in X. rewrite SV0 in X. destruct (size _ _) as [y s1] eqn:SZ.
    apply dead_size in SZ as ((W1 & _) & _ & _).
    destruct y as [sz|e]; [|injection X as <- <- <-; split; [exact W1|intros _ (n & N); discriminate]].
    destruct (sz <? _); [injection X as <- <- <-; split; [exact W1|intros _ (n & N); discriminate]|].
    unfold at_offset in X. rewrite !SV in X. cbn [seek snd Z.eqb c_back with_back] in X.
    destruct (readinto _ _ _ _) as [[z b1] s2] eqn:RI. injection X as <- <- <-.
    assert (R : run_call no_server o (CReadinto buf) (set_pos s1 offset) = (Out z b1, s2))
      by (cbn [run_call]; rewrite RI; auto).
    apply dead_call in R as ((W2 & _) & _ & _ & [(e & Z)|(Z & _)]); cbn in Z; subst z.
    + split; [cbn in *; congruence|]. intros _ (n & N). discriminate.
    + split; [cbn in *; congruence|]. intros IO _. apply read_fills_the_buffer in X0 as (B & _).
      cbn in IO. rewrite <- B in IO. discriminate.
  - destruct (cl_write _ _ _ _ _) as [x c1] eqn:X. injection E as <- <-.
    unfold cl_write, cl_size in X. rewrite SV0 in X. destruct (size _ _) as [y s1] eqn:SZ.
    apply dead_size in SZ as ((W1 & _) & _ & _).
    destruct y as [sz|e]; [|injection X as <- <-; split; [exact W1|intros _ (n & N); discriminate]].
    destruct (sz <? _); [injection X as <- <-; split; [exact W1|intros _ (n & N); discriminate]|].
    unfold at_offset in X. rewrite !SV in X. cbn [seek snd Z.eqb c_back with_back] in X.
    destruct (write _ _ _ _) as [z s2] eqn:RI. injection X as <- <-.
    assert (R : run_call no_server o (CWrite buf) (set_pos s1 offset) = (Out z [], s2))
      by (cbn [run_call]; rewrite RI; auto).
    apply dead_call in R as ((W2 & _) & _ & e & Z); cbn in Z; subst z.
    split; [cbn in *; congruence|]. intros _ (n & N). discriminate.
  - destruct (cl_zero _ _ _ _ _) as [x c1] eqn:X. injection E as <- <-.
    unfold cl_zero, at_offset in X. rewrite SV0 in X. cbn [seek snd Z.eqb] in X.
    destruct (zero _ _ _ _) as [z s2] eqn:RI. injection X as <- <-.
    assert (R : run_call no_server o (CZero length) (set_pos (c_back c) offset) = (Out z [], s2))
      by (cbn [run_call]; rewrite RI; auto).
    apply dead_call in R as ((W2 & _) & _ & e & Z); cbn in Z; subst z.
    split; [exact W2|]. intros _ (n & N). discriminate.
  - destruct (cl_read_from _ _ _ _ _ _) as [[x b] c1] eqn:X. injection E as <- <-.
    unfold cl_read_from, at_offset in X. rewrite SV0 in X. cbn [seek snd Z.eqb] in X.
    destruct (read_from _ _ _ _ _ _) as [[z b1] s2] eqn:RI. injection X as <- <- <-.
    assert (R : run_call no_server o (CReadFrom src length (c_buflen c)) (set_pos (c_back c) offset) = (Out z b1, s2))
      by (cbn [run_call]; rewrite RI; auto).
    apply dead_call in R as ((W2 & _) & _ & e & Z); cbn in Z; subst z.
    split; [exact W2|]. intros _ (n & N). discriminate.
  - destruct (cl_write_to _ _ _ _ _) as [[x b] c1] eqn:X. injection E as <- <-.
    unfold cl_write_to, at_offset in X. rewrite SV0 in X. cbn [seek snd Z.eqb] in X.
    destruct (write_to _ _ _ _ _) as [[z b1] s2] eqn:RI. injection X as <- <- <-.
    assert (R : run_call no_server o (CWriteTo length (c_buflen c)) (set_pos (c_back c) offset) = (Out z b1, s2))
      by (cbn [run_call]; rewrite RI; auto).
    apply dead_call in R as ((W2 & _) & _ & e & Z); cbn in Z; subst z.
    split; [exact W2|]. intros _ (n & N). discriminate.
  - unfold cl_size in E. rewrite SV0 in E. destruct (size _ _) as [y s1] eqn:SZ. injection E as <- <-.
    apply dead_size in SZ as ((W1 & _) & _). split; [exact W1|discriminate].
  - unfold cl_flush in E. rewrite SV0 in E. destruct (flush _ _) as [y s1] eqn:F. injection E as <- <-.
    assert (R : run_call no_server o CFlush (c_back c) =
       (Out (match y with inl _ => inl 0 | inr e => inr e end) [], s1)) by (cbn [run_call]; rewrite F; auto).
    apply dead_call in R as ((W1 & _) & _). split; [exact W1|discriminate].
  - unfold cl_close in E. rewrite C in E. injection E as <- <-. split; [auto|discriminate].
Qed.

(* After close, whatever is called, the server gets nothing, and no call that
   moves data succeeds. *)
Theorem closed_client_does_nothing :
  forall W (server : W -> message -> option response * W) nets l k c rs c',
  c_closed c = true -> run_apis server nets k l c = (rs, c') ->
  h_world (c_back c') = h_world (c_back c) /\ c_closed c' = true /\
  Forall2 (fun a r => does_io a = true -> ~ ok r) l rs.
Proof.
  intros W server nets l. induction l as [|a l IH]; intros k c rs c' C E; cbn [run_apis] in E.
  - injection E as <- <-. auto.
  - destruct (run_api _ _ _ _) as [r c1] eqn:R. destruct (run_apis _ _ _ _ _) as [rs1 c2] eqn:RS.
    injection E as <- <-. pose proof (closed_stays _ _ _ _ _ _ _ R C) as C1.
    apply closed_call in R as (W1 & N); auto. apply IH in RS as (W2 & C2 & FA); auto.
    split; [congruence|]. split; auto.
Qed.
Print Assumptions closed_client_does_nothing.

(* Closing closes, and closing again does nothing. *)
Theorem close_closes :
  forall W (c : client W) f c', cl_close f c = (inl tt, c') ->
  c_closed c' = true /\ c_back c' = c_back c /\ forall g, cl_close g c' = (inl tt, c').
Proof.
  intros W c f c' E. unfold cl_close in *. destruct (c_closed c) eqn:C.
  - injection E as <-. rewrite C. auto.
  - destruct f; [discriminate|]. injection E as <-. auto.
Qed.
Print Assumptions close_closes.

(* The with statement: an error of the body is the one raised; an error of
   close is raised if there is no other; without errors of close the client is
   closed, however the body ended. *)
Theorem with_statement :
  forall W A (body : client W -> (A + cexc) * client W) f c r c' x c1,
  cl_with body f c = (r, c') -> body c = (x, c1) ->
  (forall e, x = inr e -> r = inr e) /\
  (forall v, x = inl v -> r = inl v \/ exists e, f = Some e /\ r = inr e /\ c_closed c1 = false) /\
  (forall v, x = inl v -> r = inl v -> c_closed c' = true) /\
  (f = None -> c_closed c' = true /\ r = x) /\ c_back c' = c_back c1.
Proof.
  intros W A body f c r c' x c1 E B. unfold cl_with in E. rewrite B in E. unfold cl_close in E.
  destruct (c_closed c1) eqn:C.
  - injection E as <- <-. repeat (split; auto).
  - destruct f as [e|].
    + destruct x as [v|e0]; injection E as <- <-.
      * split; [discriminate|]. split; [intros w [= <-]; right; eauto|]. split; [discriminate|].
        split; [discriminate|auto].
      * split; [auto|]. split; [discriminate|]. split; [discriminate|]. split; [discriminate|auto].
    + injection E as <- <-. cbn. repeat (split; auto).
Qed.
Print Assumptions with_statement.

(* ---- examples ---- *)

Definition client_ex : client iworld := Client back_ex 4 false.

Example fresh_ex : fresh client_ex /\ zlen (img client_ex) = 10.
Proof. repeat split. Qed.

(* Write and read it back, a read and a write over the end, one before the
   start, zero, copies, close, and calls after it. *)
Example client_calls_ex :
  exists c, run_apis srv_ex (fun _ => net_ex) 0
    [AWrite 3 [xa1; xa2; xa3]; ARead 2 [xff; xff; xff; xff; xff]; ARead 8 [xff; xff; xff];
     AWrite 10 [xb1]; ARead (-3) [xff; xff]; AZero 7 2; AZero 9 2; AReadFrom [xc1; xc2; xc3] 0 2;
     AReadFrom [xc1; xc2; xc3] 9 2; AWriteTo 0 6; AWriteTo 7 4; ASize; AFlush; AClose None;
     ASize; ARead 0 [xff]; AZero 0 1; AFlush; AClose (Some XConn)] client_ex =
    ([Out (inl 0) []; Out (inl 5) [x03; xa1; xa2; xa3; x07]; Out (inr XRuntime) [xff; xff; xff];
      Out (inr XRuntime) []; Out (inr (XHttp 416)) [xff; xff]; Out (inl 0) []; Out (inr (XHttp 416)) [];
      Out (inl 0) [xc3];
      Out (inr (XHttp 416)) [xc3]; Out (inl 0) [xc1; xc2; x03; xa1; xa2; xa3]; Out (inr (XHttp 416)) [];
      Out (inl 10) []; Out (inl 0) []; Out (inl 0) [];
      Out (inl 10) []; Out (inr XConn) [xff]; Out (inr XConn) []; Out (inr XConn) []; Out (inl 0) []], c) /\
    img c = [xc1; xc2; x03; xa1; xa2; xa3; x07; x00; x00; x0a] /\ c_closed c = true.
Proof. eexists. split; [vm_compute; reflexivity|]. repeat split. Qed.

(* A range inside of the image, the server told the size. *)
Example succeeds_ex :
  working net_ex /\ reachable (lit "id"%string) 10 (fun _ => senv_ex) client_ex /\ c_closed client_ex = false /\
  0 < c_buflen client_ex /\ range_of (AZero 7 2) = Some (7, 2) /\
  fst (cl_size srv_ex client_ex) = inl 10 /\ ok (fst (run_api srv_ex net_ex (AZero 7 2) client_ex)).
Proof.
  split.
  { split; [discriminate|]. split; [reflexivity|]. split; [|discriminate].
    intros i. exists 5. split; [reflexivity|lia]. }
  split. { exists client_ex, (fun _ => net_ex), [], []. repeat split. }
  repeat (split; [vm_compute; reflexivity|]). eexists. vm_compute. reflexivity.
Qed.

Example bounds_ex :
  exists c1, cl_size srv_ex client_ex = (inl 10, c1) /\ 10 < 8 + zlen [xff; xff; xff].
Proof. eexists. split; [vm_compute; reflexivity|]. reflexivity. Qed.

Example flush_ex :
  exists rs c, run_apis srv_ex (fun _ => net_ex) 0 ([AWrite 3 [xa1; xa2]; AZero 7 2] ++ [AFlush]) client_ex
    = (rs, c) /\ (forall r, In r rs -> ok r) /\ c_closed c = false /\
    durable (iw_log (h_world (c_back client_ex))) /\
    iw_log (h_world (c_back c)) = [EWrite 3 1; EWrite 4 1; EZero 7 2; EFlush].
Proof.
  eexists _, _. split; [vm_compute; reflexivity|]. split.
  { intros r [<-|[<-|[<-|[]]]]; eexists; reflexivity. }
  split; [reflexivity|]. split; [|reflexivity]. apply durable_nil.
Qed.

(* A body that writes and raises, and an error of close. *)
Example with_ex :
  let body := fun c => let (r, c) := cl_write srv_ex net_ex 9 [xa1; xa2] c in (r, c) in
  fst (cl_with body (Some XConn) client_ex) = inr XRuntime /\
  fst (cl_with (cl_size srv_ex) (Some XConn) client_ex) = inr XConn /\
  c_closed (snd (cl_with body None client_ex)) = true.
Proof. vm_compute. repeat split. Qed.
