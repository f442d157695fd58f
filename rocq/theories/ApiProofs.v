From Coq Require Import ZArith List Bool Lia.
From Verif Require Import BytesLib HttpModel OpsModel OpsProofs OpsTheorems ImagesModel ImagesSpec
  HttpBackendModel HttpBackendSpec HttpBackendProofs HttpBackendTheorems ApiModel ApiSpec.
Import ListNotations.
Open Scope Z_scope.

Lemma replaced_none img img' a f : replaced img img' a 0 f -> img' = img.
Proof.
  intros (_ & R & L). rewrite Z.eqb_refl in L. apply bytes_ext; auto. intros i _. apply R. lia.
Qed.

Lemma replaced_not_pos img img' a n f : 0 <= a -> n <= 0 -> a + n <= zlen img -> replaced img img' a n f -> img' = img.
Proof.
  intros A N B (_ & R & L). apply bytes_ext.
  - destruct (n =? 0); lia.
  - intros i _. apply R. lia.
Qed.

(* ---- a closed backend ---- *)

Section Dead.
Context {W : Type}.
Variable o : net.
Implicit Types s : hb W.

(* What no call changes without a server. *)
Definition dead s s' : Prop :=
  h_world s' = h_world s /\ h_zero s' = h_zero s /\ h_can_flush s' = h_can_flush s /\
  (forall n, h_size s' = Some n -> h_size s = Some n \/ exists l, h_zero s = Some l /\ jend l = inl n).

Lemma dead_size s r s' : size no_server s = (r, s') ->
  dead s s' /\ h_pos s' = h_pos s /\
  forall n, r = inl n -> h_size s = Some n \/ exists l, h_zero s = Some l /\ jend l = inl n.
Proof.
  unfold size. intros E. destruct (h_size s) as [n|] eqn:HS.
  { injection E as <- <-. repeat (split; auto). intros m [= <-]. auto. }
  destruct (h_can_extents s).
  - unfold cached_extents in E. destruct (h_zero s) as [l|] eqn:HZ.
    + cbn [cbind] in E. fold (jend l) in E. destruct (jend l) as [n|e] eqn:J; injection E as <- <-; cbn.
      * split; [|split; [auto|intros m [= <-]; eauto]]. split; [auto|]. cbn. split; [auto|]. split; [auto|].
        intros m [= <-]; eauto.
      * split; [|split; [auto|discriminate]]. split; [auto|]. split; [auto|]. split; [auto|]. congruence.
    + cbn in E. injection E as <- <-. split; [|split; [auto|discriminate]].
      split; [auto|]. cbn. split; [auto|]. split; [auto|]. congruence.
  - cbn in E. injection E as <- <-. split; [|split; [auto|discriminate]].
    split; [auto|]. cbn. split; [auto|]. split; [auto|]. congruence.
Qed.

Lemma dead_put length body s r s' : put_done no_server length body s r s' ->
  dead s s' /\ h_pos s' = h_pos s /\ exists e, r = inr e.
Proof.
  intros (si & p & w & S & D). injection S as <- <-.
  destruct D as [(_ & (x & X & _) & _)|(E & ->)]; [discriminate|]. split; [|auto].
  split; auto.
Qed.

Lemma dead_call c s r s' : run_call no_server o c s = (r, s') ->
  dead s s' /\
  match c with
  | CSeek n how =>
      (forall m, o_result r = inl m -> m = h_pos s' /\
         (how = 0 /\ m = n \/ how = 1 /\ m = h_pos s + n \/
          how = 2 /\ (exists sz, m = sz + n /\ (h_size s = Some sz \/ exists l, h_zero s = Some l /\ jend l = inl sz)) \/
          how <> 0 /\ how <> 1 /\ how <> 2 /\ m = h_pos s)) /\
      (forall e, o_result r = inr e -> h_pos s' = h_pos s)
  | _ => h_pos s' = h_pos s
  end /\
  match c with
  | CWrite _ | CZero _ | CReadFrom _ _ _ | CWriteTo _ _ => exists e, o_result r = inr e
  | CReadinto buf =>
      o_bytes r = buf /\ ((exists e, o_result r = inr e) \/
         o_result r = inl 0 /\ exists n, Z.min (zlen buf) (n - h_pos s) <= 0 /\
           (h_size s = Some n \/ exists l, h_zero s = Some l /\ jend l = inl n))
  | CFlush => o_result r = inl 0 -> h_can_flush s = false
  | CSize => forall n, o_result r = inl n -> h_size s = Some n \/ exists l, h_zero s = Some l /\ jend l = inl n
  | CTell => o_result r = inl (h_pos s)
  | _ => True
  end.
Proof.
  assert (RF : dead s s) by (split; auto).
  assert (TR : forall a b, dead s a -> h_world b = h_world a -> h_zero b = h_zero a ->
     h_can_flush b = h_can_flush a -> h_size b = h_size a -> dead s b).
  { intros a b (D1 & D2 & D3 & D4) A B C D. split; [congruence|]. split; [congruence|]. split; [congruence|].
    rewrite D. auto. }
  intros E. destruct c; cbn [run_call] in E.
  - destruct (readinto _ _ _ _) as [[x b] s1] eqn:R. injection E as <- <-.
    apply readinto_eq in R as (s2 & rs & SZ & R). apply dead_size in SZ as (D & P & SZ).
    destruct rs as [sz|e].
    + cbn zeta in R. destruct R as [(N & -> & -> & ->)|(N & p & w & ri & d & S & -> & D1 & DP & R)].
      * split; auto. split; auto. cbn. split; auto. right. split; auto. exists sz. split; [lia|auto].
      * injection S as <- <-. destruct DP as [->|(x1 & rest & X & _)]; [|discriminate].
        rewrite zlen_nil in *. rewrite drop_nonpos by lia. cbn [app o_bytes o_result].
        destruct R as [(_ & Z & _)|(E & ->)]; [lia|]. split; [|auto].
        eapply TR; eauto.
    + destruct R as (-> & -> & ->). split; auto. cbn. eauto.
  - destruct (write _ _ _ _) as [x s1] eqn:R. injection E as <- <-.
    apply write_done in R as (body & _ & D). apply dead_put in D as (D & P & e & ->). cbn. eauto.
  - destruct (zero _ _ _ _) as [x s1] eqn:R. injection E as <- <-. unfold zero in R.
    destruct (h_can_zero s); cbn [negb] in R.
    + cbn in R. injection R as <- <-. split; [|cbn; eauto]. split; auto.
    + destruct (Z.leb_spec 0 n).
      * apply emulate_zero_done in R as (k & _ & D & _); auto. apply dead_put in D as (D & P & e & ->). cbn. eauto.
      * apply emulate_zero_neg in R as (k & D); auto. apply dead_put in D as (D & P & e & ->). cbn. eauto.
  - destruct (flush _ _) as [x s1] eqn:R. injection E as <- <-. unfold flush in R.
    destruct (h_can_flush s) eqn:C.
    + cbn in R. injection R as <- <-. split; [|split; [auto|cbn; discriminate]]. split; auto.
    + injection R as <- <-. split; auto.
  - destruct (size _ _) as [x s1] eqn:R. injection E as <- <-. apply dead_size in R as (D & P & Z). auto.
  - injection E as <- <-. auto.
  - destruct (seek _ _ _ _) as [x s1] eqn:R. injection E as <- <-. unfold seek in R. cbn.
    destruct (Z.eqb_spec how 0).
    { injection R as <- <-. split; [eapply TR; eauto|]. split; auto. split; [|discriminate].
      intros m [= <-]. auto. }
    destruct (Z.eqb_spec how 1).
    { injection R as <- <-. split; [eapply TR; eauto|]. split; auto. split; [|discriminate].
      intros m [= <-]. auto. }
    destruct (Z.eqb_spec how 2).
    + destruct (size _ _) as [y s2] eqn:Z. apply dead_size in Z as (D & P & Z).
      destruct y as [sz|err]; injection R as <- <-.
      * split; [eapply TR; eauto|]. split; auto. split; [|discriminate].
        intros m [= <-]. split; auto. right. right. left. split; eauto.
      * split; auto. split; auto. split; [discriminate|auto].
    + injection R as <- <-. split; auto. split; auto. split; [|discriminate]. intros m [= <-].
      split; auto. right. right. right. auto.
  - destruct (read_from _ _ _ _ _ _) as [[x b] s1] eqn:R. injection E as <- <-.
    apply read_from_done in R as (body & t & k & _ & _ & _ & _ & _ & D & _).
    apply dead_put in D as (D & P & e & ->). cbn. eauto.
  - destruct (write_to _ _ _ _ _) as [[x b] s1] eqn:R. injection E as <- <-. unfold write_to in R.
    cbn in R. injection R as <- <- <-. split; [|cbn; eauto]. split; auto.
Qed.

End Dead.

(* ---- the backend of a client ---- *)

Lemma replaced_zero img a f : replaced img img a 0 f.
Proof. split; [lia|]. auto. Qed.

Section Calls.
Variables (id : HeaderModel.str) (total : Z) (envs : nat -> senv).
Hypothesis U : forall i, usable id total (envs i).
Notation srv := (imageio id envs).

(* A closed backend is an array as well, which raises. *)
Lemma dead_array o c s r s' :
  run_call no_server o c s = (r, s') -> Inv total s ->
  Inv total s' /\ array_call o c (h_pos s) (iw_img (h_world s)) r (h_pos s') (iw_img (h_world s')).
Proof.
  intros E (I1 & I2 & I3). apply dead_call in E as ((D1 & D2 & D3 & D4) & P & D).
  assert (K : forall n, h_size s = Some n \/ (exists l, h_zero s = Some l /\ jend l = inl n) -> n = total).
  { intros n [N|(l & L & J)]; [auto|]. apply I3 in L. congruence. }
  split.
  { split; [congruence|]. split; [auto|]. rewrite D2. auto. }
  rewrite D1. unfold array_call. rewrite I1. pose proof (fun f => replaced_zero (iw_img (h_world s)) (h_pos s) f).
  destruct c; cbn iota in *.
  - destruct D as (-> & [(e & ->)|(-> & n & N & SZ)]); [auto|]. apply K in SZ. subst n.
    split; [lia|]. split; [lia|]. split; [lia|]. split; auto. split; auto.
    rewrite take_nonpos by lia. split; [apply is_range_nil|auto].
  - destruct D as (e & ->). split; auto. exists 0. pose proof (zlen_nonneg buf). split; [lia|]. split; [lia|auto].
  - destruct D as (e & ->). split; auto. exists 0. split; [lia|]. split; [lia|auto].
  - destruct (o_result r); auto.
  - destruct (o_result r); auto.
  - rewrite D. auto.
  - destruct P as (P1 & P2). destruct (o_result r) as [m|e]; [|eauto].
    destruct (P1 m eq_refl) as (-> & Q). split; auto. split; auto.
    destruct Q as [(-> & Q)|[(-> & Q)|[(-> & sz & Q & SZ)|(A & B & C & Q)]]]; cbn; auto.
    + apply K in SZ. subst. auto.
    + destruct (Z.eqb_spec how 0), (Z.eqb_spec how 1), (Z.eqb_spec how 2); tauto || auto.
  - destruct D as (e & ->). split; auto. exists 0. pose proof (zlen_nonneg src).
    split; [lia|]. split; [lia|]. split; [lia|auto].
  - destruct D as (e & ->). auto.
Qed.

Definition serve_if (closed : bool) : iworld -> message -> option response * iworld :=
  if closed then no_server else srv.

Lemma any_call closed o c s r s' :
  run_call (serve_if closed) o c s = (r, s') -> Inv total s ->
  Inv total s' /\ array_call o c (h_pos s) (iw_img (h_world s)) r (h_pos s') (iw_img (h_world s')).
Proof.
  destruct closed; cbn [serve_if]; intros E I.
  - eapply dead_array; eauto.
  - eapply call_imageio in E as (J & _ & A); eauto.
Qed.

Definition img (c : client iworld) := iw_img (h_world (c_back c)).

Lemma back_eta (c : client iworld) s : c_back (with_back c s) = s.
Proof. reflexivity. Qed.

Lemma set_pos_inv s p : Inv total s -> Inv total (set_pos s p).
Proof. auto. Qed.

Lemma api_imageio o a c r c' :
  run_api srv o a c = (r, c') -> Inv total (c_back c) ->
  Inv total (c_back c') /\ api_call o a (img c) r (img c').
Proof.
  intros E I. pose proof I as (L & _).
  assert (SV : forall c, serve_of srv c = serve_if (c_closed c)) by reflexivity.
  destruct a; cbn [run_api] in E.
  - (* read *)
    destruct (cl_read _ _ _ _ _) as [[x b] c1] eqn:R. injection E as <- <-. unfold cl_read, cl_size in R.
    rewrite SV in R. destruct (size _ _) as [y s1] eqn:SZ.
    assert (X : run_call (serve_if (c_closed c)) o CSize (c_back c) = (Out y [], s1)) by (cbn [run_call]; rewrite SZ; auto).
    apply any_call in X as (J & A); auto. cbn in A.
    destruct y as [sz|e].
    + destruct A as (-> & _ & IM). rewrite SV in R. cbn [with_back c_closed] in R.
      destruct (Z.ltb_spec (zlen (iw_img (h_world (c_back c)))) (offset + zlen buf)).
      * injection R as <- <- <-. split; [exact J|]. split.
        -- split; [exact IM|]. intros (n & N). discriminate.
        -- intros offset' n [= <- <-] N B. split; [intros (m & M); discriminate|exact IM].
      * unfold at_offset in R. cbn [seek snd Z.eqb c_back with_back] in R.
        destruct (readinto _ _ _ _) as [[z b1] s2] eqn:RI. injection R as <- <- <-.
        assert (X : run_call (serve_if (c_closed c)) o (CReadinto buf) (set_pos s1 offset) = (Out z b1, s2))
          by (cbn [run_call]; rewrite RI; auto).
        apply any_call in X as (J2 & A2); auto. split; [exact J2|]. unfold img. cbn [c_back with_back].
        cbn [array_call h_pos set_pos h_world o_result o_bytes] in A2. rewrite IM in A2.
        destruct z as [n|e].
        -- destruct A2 as (N & P & _ & IM2 & ZB & RG & _).
           pose proof (zlen_nonneg buf).
           assert (NN : n = zlen buf) by lia. subst n. rewrite NN in *. rewrite take_all in RG by lia.
           split; [split; [auto|intros _; split; auto]|].
           intros offset' n [= <- <-] N0 B. lia.
        -- destruct A2 as (_ & IM2). split; [split; [auto|intros (n & N); discriminate]|].
           intros offset' n [= <- <-] N0 B. split; [intros (m & M); discriminate|auto].
    + injection R as <- <- <-. destruct A as (_ & IM). split; [exact J|].
      split; [split; [exact IM|intros (n & N); discriminate]|].
      intros offset' n [= <- <-] N0 B. split; [intros (m & M); discriminate|exact IM].
  - (* write *)
    destruct (cl_write _ _ _ _ _) as [x c1] eqn:R. injection E as <- <-. unfold cl_write, cl_size in R.
    rewrite SV in R. destruct (size _ _) as [y s1] eqn:SZ.
    assert (X : run_call (serve_if (c_closed c)) o CSize (c_back c) = (Out y [], s1)) by (cbn [run_call]; rewrite SZ; auto).
    apply any_call in X as (J & A); auto. cbn in A.
    assert (NONE : forall e i', i' = img c -> api_call o (AWrite offset buf) (img c) (Out (inr e) []) i').
    { intros e i' ->. split.
      - split; [exists 0; split; [pose proof (zlen_nonneg buf); lia|apply replaced_zero]|intros (n & N); discriminate].
      - intros offset' n [= <- <-] N0 B. split; [intros (m & M); discriminate|auto]. }
    destruct y as [sz|e].
    + destruct A as (-> & _ & IM). rewrite SV in R. cbn [with_back c_closed] in R.
      destruct (Z.ltb_spec (zlen (iw_img (h_world (c_back c)))) (offset + zlen buf)).
      * injection R as <- <-. split; [exact J|]. apply NONE. exact IM.
      * unfold at_offset in R. cbn [seek snd Z.eqb c_back with_back] in R.
        destruct (write _ _ _ _) as [z s2] eqn:RI. injection R as <- <-.
        assert (X : run_call (serve_if (c_closed c)) o (CWrite buf) (set_pos s1 offset) = (Out z [], s2))
          by (cbn [run_call]; rewrite RI; auto).
        apply any_call in X as (J2 & A2); auto. split; [exact J2|]. unfold img. cbn [c_back with_back].
        cbn [array_call h_pos set_pos h_world o_result o_bytes] in A2. rewrite IM in A2.
        destruct z as [n|e]; cbn [none].
        -- destruct A2 as (-> & _ & P1 & P2 & RP). split.
           ++ split; [exists (zlen buf); split; [pose proof (zlen_nonneg buf); lia|exact RP]|auto].
           ++ intros offset' n [= <- <-] N0 B. destruct B. auto.
        -- destruct A2 as (_ & k & K & IN & RP). split.
           ++ split; [exists k; split; [lia|exact RP]|intros (n & N); discriminate].
           ++ intros offset' n [= <- <-] N0 B. split; [intros (m & M); discriminate|].
              assert (k = 0) by (destruct (Z.eq_dec k 0); auto; destruct B; apply IN; lia). subst k.
              eapply replaced_none; eauto.
    + injection R as <- <-. destruct A as (_ & IM). split; [exact J|]. apply NONE. exact IM.
  - (* zero *)
    destruct (cl_zero _ _ _ _ _) as [x c1] eqn:R. injection E as <- <-. unfold cl_zero in R.
    unfold at_offset in R. cbn [seek snd Z.eqb] in R. rewrite SV in R.
    destruct (zero _ _ _ _) as [z s2] eqn:RI. injection R as <- <-.
    assert (X : run_call (serve_if (c_closed c)) o (CZero length) (set_pos (c_back c) offset) = (Out z [], s2))
      by (cbn [run_call]; rewrite RI; auto).
    apply any_call in X as (J2 & A2); auto. split; [exact J2|]. unfold img. cbn [c_back with_back].
    cbn [array_call h_pos set_pos h_world o_result o_bytes] in A2.
    destruct z as [n|e]; cbn [none].
    + destruct A2 as (-> & _ & P1 & P2 & RP). split.
      * split; [|auto]. destruct (Z.leb_spec 0 length).
        -- exists length. split; [lia|exact RP].
        -- exists 0. split; [lia|]. apply replaced_not_pos in RP; [|lia..]. rewrite RP. apply replaced_zero.
      * intros offset' n [= <- <-] N0 B. destruct B. auto.
    + destruct A2 as (_ & k & K & IN & RP). split.
      * split; [exists k; split; [lia|exact RP]|intros (n & N); discriminate].
      * intros offset' n [= <- <-] N0 B. split; [intros (m & M); discriminate|].
        assert (k = 0) by (destruct (Z.eq_dec k 0); auto; destruct B; apply IN; lia). subst k.
        eapply replaced_none; eauto.
  - (* read_from *)
    destruct (cl_read_from _ _ _ _ _ _) as [[x b] c1] eqn:R. injection E as <- <-. unfold cl_read_from in R.
    unfold at_offset in R. cbn [seek snd Z.eqb] in R. rewrite SV in R.
    destruct (read_from _ _ _ _ _ _) as [[z b1] s2] eqn:RI. injection R as <- <- <-.
    assert (X : run_call (serve_if (c_closed c)) o (CReadFrom src length (c_buflen c)) (set_pos (c_back c) offset)
       = (Out z b1, s2)) by (cbn [run_call]; rewrite RI; auto).
    apply any_call in X as (J2 & A2); auto. split; [exact J2|]. unfold img. cbn [c_back with_back].
    cbn [array_call h_pos set_pos h_world o_result o_bytes] in A2.
    destruct z as [n|e]; cbn [none].
    + destruct A2 as (-> & _ & P1 & P2 & P3 & P4 & RP). split.
      * split; [|auto]. destruct (Z.leb_spec 0 length).
        -- exists length. split; [lia|exact RP].
        -- exists 0. split; [lia|]. apply replaced_not_pos in RP; [|lia..]. rewrite RP. apply replaced_zero.
      * intros offset' n [= <- <-] N0 B. destruct B. auto.
    + destruct A2 as (_ & k & K & _ & IN & RP). split.
      * split; [exists k; split; [lia|exact RP]|intros (n & N); discriminate].
      * intros offset' n [= <- <-] N0 B. split; [intros (m & M); discriminate|].
        assert (k = 0) by (destruct (Z.eq_dec k 0); auto; destruct B; apply IN; lia). subst k.
        eapply replaced_none; eauto.
  - (* write_to *)
    destruct (cl_write_to _ _ _ _ _) as [[x b] c1] eqn:R. injection E as <- <-. unfold cl_write_to in R.
    unfold at_offset in R. cbn [seek snd Z.eqb] in R. rewrite SV in R.
    destruct (write_to _ _ _ _ _) as [[z b1] s2] eqn:RI. injection R as <- <- <-.
    assert (X : run_call (serve_if (c_closed c)) o (CWriteTo length (c_buflen c)) (set_pos (c_back c) offset)
       = (Out z b1, s2)) by (cbn [run_call]; rewrite RI; auto).
    apply any_call in X as (J2 & A2); auto. split; [exact J2|]. unfold img. cbn [c_back with_back].
    cbn [array_call h_pos set_pos h_world o_result o_bytes] in A2.
    destruct z as [n|e]; cbn [none].
    + destruct A2 as (-> & _ & IM & P1 & P2 & P3). split; [auto|].
      intros offset' n [= <- <-] N0 B. destruct B. auto.
    + destruct A2 as (_ & IM). split; [split; [auto|intros (n & N); discriminate]|].
      intros offset' n [= <- <-] N0 B. split; [intros (m & M); discriminate|auto].
  - (* size *)
    unfold cl_size in E. rewrite SV in E. destruct (size _ _) as [y s1] eqn:SZ. injection E as <- <-.
    assert (X : run_call (serve_if (c_closed c)) o CSize (c_back c) = (Out y [], s1)) by (cbn [run_call]; rewrite SZ; auto).
    apply any_call in X as (J & A); auto. split; [exact J|]. cbn in A.
    split; [|discriminate]. destruct y as [n|e].
    + destruct A as (-> & _ & IM). split; [exact IM|auto].
    + split; [apply A|]. intros (n & N). discriminate.
  - (* flush *)
    unfold cl_flush in E. rewrite SV in E. destruct (flush _ _) as [y s1] eqn:F. injection E as <- <-.
    assert (X : run_call (serve_if (c_closed c)) o CFlush (c_back c)
       = (Out (match y with inl _ => inl 0 | inr e => inr e end) [], s1)) by (cbn [run_call]; rewrite F; auto).
    apply any_call in X as (J & A); auto. split; [exact J|].
    split; [|discriminate]. destruct y; apply A.
  - (* close *)
    unfold cl_close in E. destruct (c_closed c), fails; injection E as <- <-; split; auto;
      split; try discriminate; reflexivity.
Qed.

End Calls.
