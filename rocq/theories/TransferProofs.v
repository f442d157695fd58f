(* Lemmas for the transfers of TransferModel: every execution is an execution
   of the copy of ClientIoModel with complete backend calls. *)
From Coq Require Import ZArith List Bool Lia.
From Coq.Strings Require Import Byte.
From Verif Require Import BytesLib HeaderModel HttpModel OpsModel OpsTheorems ImagesModel ExtentsModel
  ClientIoModel ClientIoSpec ClientIoProofs ClientIoSched ClientIoLive ClientIoTerm
  HttpBackendModel HttpBackendSpec HttpBackendProofs TransferModel TransferSpec.
From Verif Require Import ExtentsSpec.
From Verif Require HttpBackendTheorems ClientIoTheorems HttpBackendTheorems.
Import ListNotations.
Open Scope Z_scope.

(* ---- arrays ---- *)

Lemma replaced_splice img img' a k f d :
  replaced img img' a k f -> 0 <= a -> 0 <= k -> zlen d = k ->
  (forall i, 0 <= i < k -> getb d i = f i) ->
  img' = splice img a d.
Proof.
  intros (R1 & R2 & R3) A K D F. apply bytes_ext.
  - rewrite zlen_splice by auto. rewrite R3. destruct d as [|x d].
    + rewrite zlen_nil in D. subst k. auto.
    + pose proof (zlen_pos (x :: d) ltac:(discriminate)).
      destruct (Z.eqb_spec k 0); [lia|]. lia.
  - intros i I. rewrite getb_splice by auto. rewrite D.
    destruct (Z.leb_spec a i); cbn [andb].
    + destruct (Z.ltb_spec i (a + k)).
      * rewrite R1 by lia. symmetry. apply F. lia.
      * apply R2. lia.
    + apply R2. lia.
Qed.

Lemma replaced_within img img' a k f :
  replaced img img' a k f -> zlen img' = zlen img -> 0 < k -> a + k <= zlen img.
Proof. intros (_ & _ & R) L K. destruct (Z.eqb_spec k 0); lia. Qed.

(* ---- write_to also when it fails ---- *)

Lemma write_to_loop_prefix o : forall fuel i buflen todo rest out (s : hb iworld) r out' s',
  write_to_loop o fuel i buflen todo rest out s = (r, out', s') -> 0 <= todo ->
  (forall i, n_dst o i = None \/ exists c, n_dst o i = Some c /\ todo <= c) ->
  exists d rest', rest = d ++ rest' /\ zlen d <= todo /\ out' = out ++ d /\
    (r = inl tt -> zlen d = todo).
Proof.
  induction fuel as [|fuel IH]; intros i buflen todo rest out s r out' s' E T H.
  { injection E as <- <- <-. exists [], rest. rewrite app_nil_r, zlen_nil. repeat split; auto; discriminate. }
  cbn [write_to_loop] in E.
  assert (STOP : forall x, x <> inl tt -> r = x -> out' = out ->
    exists d rest', rest = d ++ rest' /\ zlen d <= todo /\ out' = out ++ d /\ (r = inl tt -> zlen d = todo)).
  { intros x X -> ->. exists [], rest. rewrite app_nil_r, zlen_nil. repeat split; auto; congruence. }
  destruct (Z.eqb_spec todo 0) as [->|NT].
  { injection E as <- <- <-. exists [], rest. rewrite app_nil_r. auto. }
  destruct (res_readinto _ _ _ _) as [x s1] eqn:R. apply res_readinto_eq in R as (-> & R).
  destruct x as [[d rest']|]; [|injection E as <- <- <-; eapply STOP; eauto; discriminate].
  destruct (R _ _ eq_refl) as (-> & D & _).
  destruct d as [|b d]; [injection E as <- <- <-; eapply STOP; eauto; discriminate|].
  assert (DT : zlen (b :: d) <= todo).
  { destruct (Z.ltb_spec buflen 0).
    - unfold py_stop in D. destruct (Z.min todo buflen <? 0) eqn:Q in D;
        pose proof (zlen_pos (b :: d) ltac:(discriminate)); lia.
    - rewrite py_stop_nonneg in D by lia. lia. }
  destruct (n_dst o i) as [c|] eqn:ND; [|injection E as <- <- <-; eapply STOP; eauto; discriminate].
  assert (C : todo <= c) by (destruct (H i) as [X|(c' & X & Y)]; congruence).
  apply IH in E; [|lia|].
  - destruct E as (d2 & r2 & -> & E1 & -> & E2).
    exists ((b :: d) ++ d2), r2. rewrite take_all by lia. rewrite zlen_app, !app_assoc.
    repeat split; auto; [lia|]. intros X. specialize (E2 X). lia.
  - intros j. destruct (H j) as [X|(c' & X & Y)]; [auto|]. right. exists c'. split; auto.
    pose proof (zlen_nonneg (b :: d)). lia.
Qed.

Section Transfer.

Variables (c : tconfig) (total : Z) (src : list byte) (N : nat) (F : bool).
Hypothesis U : forall i, usable (tc_id c) total (tc_envs c i).
Notation Inv := (HttpBackendProofs.Inv total).

Definition cc := Config src Own (tc_buffer c) (tc_plan c).

(* The image written, and the image read. *)
Definition content_of (img local : list byte) : list byte :=
  match tc_dir c with Up => img | Down => local end.
Definition source_of (img local : list byte) : list byte :=
  match tc_dir c with Up => local | Down => img end.
Definition content (s : tst) : list byte := content_of (iw_img (t_world s)) (t_local s).
Definition source (s : tst) : list byte := source_of (iw_img (t_world s)) (t_local s).

Lemma sub_as_drop a k (l : list byte) : sub a k l = take k (drop a l).
Proof. reflexivity. Qed.

Definition moved (start length : Z) (ok : bool) (b b' : hb iworld) (local local' : list byte)
  (data : Z -> list byte) : Prop :=
  Inv b' /\ h_can_flush b' = h_can_flush b /\
  source_of (iw_img (h_world b')) local' = source_of (iw_img (h_world b)) local /\
  (exists k, 0 <= k <= length /\ (ok = true -> k = length) /\
     content_of (iw_img (h_world b')) local' =
       splice (content_of (iw_img (h_world b)) local) start (data k)) /\
  exists log, iw_log (h_world b') = iw_log (h_world b) ++ log /\
     (ok = true -> h_can_flush b = false -> durable log) /\
     (ok = true -> tc_dir c = Up -> start + length <= total).

Lemma moved_nothing start length b local data :
  Inv b -> 0 <= length -> data 0 = [] -> moved start length false b b local local data.
Proof.
  intros I L D. split; auto. split; auto. split; auto. split.
  - exists 0. rewrite D. split; [lia|]. split; [discriminate|auto].
  - exists []. rewrite app_nil_r. split; auto. split; discriminate.
Qed.

Lemma seek0 n b : seek (serve c) n 0 b = (inl n, set_pos b n).
Proof. reflexivity. Qed.

Lemma inv_set_pos b n : Inv b -> Inv (set_pos b n).
Proof. intros (I1 & I2 & I3). split; auto. Qed.

Lemma handler_copy_moved a start length b local ok b' local' :
  handler_copy c a start length b local = (ok, b', local') -> Inv b ->
  source_of (iw_img (h_world b)) local = src -> 0 <= start -> 0 <= length ->
  moved start length ok b b' local local' (fun k => sub start k src).
Proof.
  unfold handler_copy, moved, source_of, content_of. rewrite seek0. intros E I S A L.
  apply (inv_set_pos _ start) in I. destruct (tc_dir c).
  - (* upload *)
    destruct (read_from _ _ _ _ _ _) as [[r rest] b1] eqn:R. injection E as <- <- <-.
    assert (RC : run_call (serve c) (ta_net a) (CReadFrom (drop start local) length (tc_buffer c))
                   (set_pos b start) = (Out r rest, b1)) by (unfold run_call; rewrite R; reflexivity).
    eapply (call_imageio (tc_id c) total (tc_envs c) U) in RC as (J & (CF & log & LG & Q) & AC); auto.
    cbn [array_call o_result h_pos set_pos h_world h_can_flush] in *.
    pose proof (zlen_drop start local) as ZD. pose proof (zlen_nonneg local).
    split; auto. split; auto. split; auto. destruct r as [n|e].
    + destruct AC as (-> & _ & P1 & P2 & P3 & _ & RP). split.
      * exists length. split; [lia|]. split; auto. subst src.
        eapply replaced_splice; eauto; try (rewrite ?zlen_sub; lia).
        intros i Hi. unfold sub. rewrite getb_take by lia. destruct (Z.ltb_spec i length); auto; lia.
      * exists log. split; auto. split; [|intros; destruct I as (I1 & _); cbn in I1; lia].
        intros _ X. specialize (Q _ eq_refl). rewrite X in Q. auto.
    + destruct AC as (_ & k & K1 & K2 & _ & RP). split.
      * exists k. split; [lia|]. split; [discriminate|]. subst src.
        eapply replaced_splice; eauto; try (rewrite ?zlen_sub; lia).
        intros i Hi. unfold sub. rewrite getb_take by lia. destruct (Z.ltb_spec i k); auto; lia.
      * exists log. split; auto. split; discriminate.
  - (* download *)
    destruct (write_to _ _ _ _ _) as [[r out] b1] eqn:R. injection E as <- <- <-.
    assert (RC : run_call (serve c) (nbd_writer length (ta_net a)) (CWriteTo length (tc_buffer c))
                   (set_pos b start) = (Out r out, b1)) by (unfold run_call; rewrite R; reflexivity).
    eapply (call_imageio (tc_id c) total (tc_envs c) U) in RC as (J & (CF & log & LG & Q) & AC); auto.
    cbn [array_call o_result h_pos set_pos h_world h_can_flush] in *.
    split; auto. split; auto.
    assert (IMG : iw_img (h_world b1) = iw_img (h_world b)) by (destruct r; tauto).
    split; auto. split; [|exists log; split; [auto|split; [|discriminate]]; intros X Y; destruct r;
      [|discriminate]; specialize (Q _ eq_refl); rewrite Y in Q; auto].
    clear AC Q. unfold write_to in R. destruct (get_range _ _ _) as [y s2] eqn:G.
    apply get_range_eq in G as (p & w & SV & -> & G). cbn [set_pos h_pos h_world] in *.
    assert (NIL : forall k, k = 0 -> sub start k src = []).
    { intros k ->. unfold sub. apply take_nonpos. lia. }
    destruct y as [y|e].
    2:{ injection R as <- <- <-. exists 0. split; [lia|]. split; [discriminate|].
        rewrite NIL by auto. reflexivity. }
    destruct (G y eq_refl) as (-> & PS & PL). clear G.
    eapply (srv_get (tc_id c) total (tc_envs c) U) in SV as (_ & _ & SV); [|exact (proj1 I)].
    destruct (SV y eq_refl PS) as (B1 & B2 & k & K & (G1 & G2)). clear SV.
    destruct (write_to_loop _ _ _ _ _ _ _ _) as [[rr out1] s3] eqn:X.
    apply write_to_loop_prefix in X; [|lia|].
    2:{ intros i. cbn. destruct (n_dst (ta_net a) i); [right|left; auto]. exists length. split; auto. lia. }
    destruct X as (d & rest & PB & D1 & D2 & D3). cbn [app] in D2. subst out1.
    pose proof (zlen_nonneg d). pose proof (zlen_nonneg rest).
    assert (SUB : d = sub start (zlen d) src).
    { rewrite PB, zlen_app in G1. destruct I as (I1 & _). cbn in I1.
      apply bytes_ext.
      - rewrite zlen_sub. subst src. lia.
      - intros i Hi. unfold sub. rewrite getb_take, getb_drop by lia.
        destruct (Z.ltb_spec i (zlen d)); [|lia].
        destruct (G2 i ltac:(lia)) as [_ G3]. rewrite PB, getb_app in G3 by lia.
        destruct (Z.ltb_spec i (zlen d)); [|lia]. rewrite G3, S. auto. }
    destruct rr as [[]|e]; injection R as <- <- <-.
    + exists length. split; [lia|]. split; auto. rewrite <- (D3 eq_refl), <- SUB. auto.
    + exists (zlen d). split; [lia|]. split; [discriminate|]. rewrite <- SUB. auto.
Qed.

Lemma handler_zero_moved a start length b local ok b' local' :
  handler_zero c a start length b local = (ok, b', local') -> Inv b ->
  0 <= start -> 0 <= length ->
  moved start length ok b b' local local' zeros.
Proof.
  unfold handler_zero, moved, source_of, content_of. rewrite seek0. intros E I A L.
  destruct (tc_dir c).
  - destruct (HttpBackendModel.zero _ _ _ _) as [r b1] eqn:R. injection E as <- <- <-.
    assert (RC : run_call (serve c) (ta_net a) (CZero length) (set_pos b start) = (Out r [], b1))
      by (unfold run_call; rewrite R; reflexivity).
    apply (inv_set_pos _ start) in I.
    eapply (call_imageio (tc_id c) total (tc_envs c) U) in RC as (J & (CF & log & LG & Q) & AC); auto.
    cbn [array_call o_result h_pos set_pos h_world h_can_flush] in *.
    split; auto. split; auto. split; auto. destruct r as [n|e].
    + destruct AC as (-> & _ & P1 & P2 & RP). split.
      * exists length. split; [lia|]. split; auto.
        eapply replaced_splice; eauto; try (rewrite ?zlen_zeros; lia). intros. apply getb_zeros.
      * exists log. split; auto. split; [|intros; destruct I as (I1 & _); cbn in I1; lia].
        intros _ X. specialize (Q _ eq_refl). rewrite X in Q. auto.
    + destruct AC as (_ & k & K1 & _ & RP). split.
      * exists k. split; [lia|]. split; [discriminate|].
        eapply replaced_splice; eauto; try (rewrite ?zlen_zeros; lia). intros. apply getb_zeros.
      * exists log. split; auto. split; discriminate.
  - injection E as <- <- <-. split; auto. split; auto. split; auto. split.
    + exists (done_of length (ta_zero a)). split; [|split; auto].
      * unfold done_of, clamp. destruct (ta_zero a); lia.
      * destruct (ta_zero a); [discriminate|]. unfold done_of. lia.
    + exists []. rewrite app_nil_r. split; auto. split; [|discriminate]. intros. apply durable_nil.
Qed.

Lemma handler_flush_moved b local ok b' local' :
  handler_flush c b local = (ok, b', local') -> Inv b ->
  Inv b' /\ h_can_flush b' = h_can_flush b /\ iw_img (h_world b') = iw_img (h_world b) /\ local' = local /\
  exists log, iw_log (h_world b') = iw_log (h_world b) ++ log /\
    (tc_dir c = Up -> ok = true -> if h_can_flush b then log = [EFlush] else durable log).
Proof.
  unfold handler_flush. intros E I. destruct (tc_dir c).
  - destruct (HttpBackendModel.flush _ _) as [r b1] eqn:R. injection E as <- <- <-.
    assert (RC : run_call (serve c) (Net (fun _ => None) (fun _ => SendOk) (fun _ => None) (fun _ => None)) CFlush b =
              (Out (match r with inl _ => inl 0 | inr e => inr e end) [], b1)) by (unfold run_call; rewrite R; reflexivity).
    eapply (call_imageio (tc_id c) total (tc_envs c) U) in RC as (J & (CF & log & LG & Q) & AC); auto.
    cbn [array_call o_result] in *. split; auto. split; auto. split; [destruct r; tauto|]. split; auto.
    exists log. split; auto. intros _ X. destruct r; [|discriminate].
    specialize (Q _ eq_refl). destruct (h_can_flush b); auto.
  - injection E as <- <- <-. do 4 (split; [auto|]). exists []. rewrite app_nil_r. split; auto. discriminate.
Qed.

(* ---- the invariant ---- *)

(* A request of the plan, or STOP. *)
Definition planned (r : ClientIoModel.request) : Prop :=
  In r (requests (tc_plan c)) /\ 0 <= r_start r /\ 0 <= r_length r.
Definition sane (r : ClientIoModel.request) : Prop := is_stop r = false -> planned r.

Definition sane_worker (w : worker) : Prop :=
  match w_state w with
  | WZero r => planned r
  | WCopy r sp dp todo => planned r /\ sp = r_start r /\ dp = r_start r /\ todo = r_length r
  | _ => True
  end.

Hypothesis plan_sane : forall r, In r (requests (tc_plan c)) -> sane r.

Record TI (s : tst) : Prop := {
  ti_size : zlen (iw_img (t_world s)) = total;
  ti_backends : Forall (fun b => (forall n, h_size b = Some n -> n = total) /\
                                 (forall l, h_zero b = Some l -> jend l = inl total) /\
                                 h_can_flush b = F) (t_backends s);
  ti_source : source s = src;
  ti_count : (length (workers (t_core s)) +
                match main (t_core s) with MStart k => k | _ => 0 end <= N)%nat /\
             length (t_backends s) = N;
  ti_main : match main (t_core s) with
            | MRun l => forall r, In r (requests l) -> sane r
            | _ => True
            end;
  ti_queue : Forall sane (q_items (q (t_core s)));
  ti_workers : Forall sane_worker (workers (t_core s));
  ti_done : tc_dir c = Up -> Forall (fun r => r_start r + r_length r <= total) (done (t_core s))
}.

Definition put_dst (s : ClientIoModel.st) (d : list byte) : ClientIoModel.st :=
  St (main s) (workers s) (q s) (errors s) d (done s) (progress s).
Definition abs (s : tst) : ClientIoModel.st := put_dst (t_core s) (content s).

Lemma main_step_abs k s s' d :
  main_step (core_config c) k s = Some s' -> main_step cc k (put_dst s d) = Some (put_dst s' d).
Proof.
  unfold main_step, put_dst. cbn [main workers q errors dst done progress f_buffer f_plan cc core_config].
  destruct (main s) as [[|n]|[|[r|n] l]|[|n]| |ab|b]; intros E; try (injection E as <-; reflexivity);
    try discriminate.
  - destruct (try_put _ _ _ _) as [q' a]. injection E as <-. reflexivity.
  - destruct (try_put _ _ _ _) as [q' a]. injection E as <-. reflexivity.
  - destruct (forallb _ _); [|discriminate]. injection E as <-. reflexivity.
Qed.

Lemma main_fail_abs s s' d :
  main_fail s = Some s' -> main_fail (put_dst s d) = Some (put_dst s' d).
Proof.
  unfold main_fail, put_dst. cbn [main workers q errors dst done progress].
  destruct (main s); intros E; try discriminate; injection E as <-; reflexivity.
Qed.

(* The queue keeps or adds requests. *)
Lemma try_put_items who k r (x : queue ClientIoModel.request) x' a :
  try_put who k r x = (x', a) -> Forall sane (q_items x) -> sane r -> Forall sane (q_items x').
Proof.
  unfold try_put. intros E H R. destruct (q_closed x); [injection E as <- <-; auto|].
  destruct (_ =? _)%nat; injection E as <- <-; auto. cbn. apply Forall_app; split; auto.
Qed.

Lemma try_get_items who k (x : queue ClientIoModel.request) x' a :
  try_get who k x = (x', a) -> Forall sane (q_items x) ->
  Forall sane (q_items x') /\ forall r, a = Got r -> sane r.
Proof.
  unfold try_get. intros E H. destruct (q_closed x); [injection E as <- <-; split; auto; discriminate|].
  destruct (q_items x) as [|y l]; injection E as <- <-; cbn; [split; auto; discriminate|].
  inversion H; subst. split; auto. intros r [= <-]. auto.
Qed.

Lemma main_step_ti k s s' :
  TI s -> main_step (core_config c) k (t_core s) = Some s' ->
  TI (TSt s' (t_backends s) (t_world s) (t_local s)).
Proof.
  intros [I1 I2 I3 I4 I5 I6 I7 I8]. unfold main_step. cbn [f_buffer f_plan core_config].
  destruct (main (t_core s)) as [[|n]|[|[r|n] l]|[|n]| |ab|b] eqn:M; intros E; try discriminate;
    try (injection E as <-; constructor; cbn in *; auto; lia).
  - injection E as <-. constructor; cbn in *; auto; [rewrite app_length; cbn; lia|].
    apply Forall_app. auto.
  - destruct (try_put _ _ _ _) as [q' a] eqn:P. injection E as <-.
    assert (R : sane r) by (apply I5; cbn; auto).
    constructor; cbn in *; auto.
    + destruct a; lia.
    + destruct a; cbn; auto.
    + eapply try_put_items; eauto.
  - destruct (try_put _ _ _ _) as [q' a] eqn:P. injection E as <-.
    constructor; cbn in *; auto.
    + destruct a; lia.
    + destruct a; cbn; auto.
    + eapply try_put_items; eauto. unfold sane. discriminate.
  - destruct (forallb _ _); [|discriminate].
    injection E as <-; constructor; cbn in *; auto; lia.
Qed.

Lemma main_fail_ti s s' :
  TI s -> main_fail (t_core s) = Some s' -> TI (TSt s' (t_backends s) (t_world s) (t_local s)).
Proof.
  intros [I1 I2 I3 I4 I5 I6 I7 I8]. unfold main_fail.
  destruct (main (t_core s)) eqn:M; intros E; try discriminate;
    injection E as <-; constructor; cbn in *; auto; lia.
Qed.

(* ---- the log of the server ---- *)

(* Everything is durable, or some worker will flush. *)
Definition J (s : tst) : Prop :=
  durable (iw_log (t_world s)) \/
  (F = true /\ exists i w, nth_error (workers (t_core s)) i = Some w /\ w_dirty w = true).

Lemma J_same s s' : J s -> t_world s' = t_world s ->
  (forall i w, nth_error (workers (t_core s)) i = Some w -> w_dirty w = true ->
     exists w', nth_error (workers (t_core s')) i = Some w' /\ w_dirty w' = true) ->
  J s'.
Proof.
  intros [D|(X & i & w & NE & D)] W H; [left; now rewrite W|].
  right. split; auto. exists i. eauto.
Qed.

Lemma set_nth_dirty i (w w' : worker) l : nth_error l i = Some w -> (w_dirty w = true -> w_dirty w' = true) ->
  forall j x, nth_error l j = Some x -> w_dirty x = true ->
  exists x', nth_error (set_nth i w' l) j = Some x' /\ w_dirty x' = true.
Proof.
  intros NE D j x NX DX. rewrite nth_set_nth. destruct (Nat.eqb_spec i j) as [->|].
  - rewrite NX. assert (w = x) by congruence. subst. eauto.
  - eauto.
Qed.

Lemma main_step_J k s s' : J s -> main_step (core_config c) k (t_core s) = Some s' ->
  J (TSt s' (t_backends s) (t_world s) (t_local s)).
Proof.
  intros H E. eapply J_same; [exact H|reflexivity|]. intros i w NE D. cbn. exists w. split; auto.
  unfold main_step in E. cbn [f_buffer f_plan core_config] in E.
  destruct (main (t_core s)) as [[|n]|[|[r|n] l]|[|n]| |ab|b]; try discriminate;
    try (injection E as <-; cbn; auto; fail).
  - injection E as <-. cbn. rewrite nth_error_app1; auto. apply nth_error_Some. congruence.
  - destruct (try_put _ _ _ _). injection E as <-. auto.
  - destruct (try_put _ _ _ _). injection E as <-. auto.
  - destruct (forallb _ _); [|discriminate]. injection E as <-. auto.
Qed.

(* ---- workers ---- *)

Lemma inv_of s b i : TI s -> nth_error (t_backends s) i = Some b ->
  Inv (put_world b (t_world s)) /\ h_can_flush b = F.
Proof.
  intros I NB. pose proof (Forall_nth_error _ _ _ _ (ti_backends _ I) NB) as (B1 & B2 & B3).
  split; auto. split; [exact (ti_size _ I)|]. auto.
Qed.

Lemma backends_ok s i b' : TI s -> Inv b' -> h_can_flush b' = F ->
  Forall (fun b => (forall n, h_size b = Some n -> n = total) /\
                   (forall l, h_zero b = Some l -> jend l = inl total) /\
                   h_can_flush b = F) (set_nth i b' (t_backends s)).
Proof.
  intros I (I1 & I2 & I3) X. apply Forall_set_nth; auto. apply (ti_backends _ I).
Qed.

(* What a step of a worker is in the copy. *)
Definition sim i k (s s' : tst) : Prop :=
  exists x, complete (LWorker i k x) /\
    worker_step cc i k x (abs s) = Some (abs s') /\ TI s' /\
    (tc_dir c = Up -> J s -> J s' \/ raises (LWorker i k x) (abs s)) /\
    (raised i s s' -> raises (LWorker i k x) (abs s)) /\
    (a_ok x = false -> raised i s s').

Lemma request_sim i k s w r b ok b' local' data st0 :
  TI s -> nth_error (workers (t_core s)) i = Some w -> nth_error (t_backends s) i = Some b ->
  w_state w = st0 -> uses_backend st0 ->
  moved (r_start r) (r_length r) ok (put_world b (t_world s)) b' (t_local s) local' data ->
  (forall n, 0 <= n <= r_length r -> (ok = true -> n = r_length r) ->
   forall d, exists x, complete (LWorker i k x) /\ a_ok x = ok /\
     worker_step cc i k x (put_dst (t_core s) d) =
       Some (put_dst (finish_request i w r ok (t_core s)) (splice d (r_start r) (data n)))) ->
  sim i k s (TSt (finish_request i w r ok (t_core s)) (set_nth i b' (t_backends s)) (h_world b') local').
Proof.
  intros I NW NB S0 UB (M1 & M2 & M3 & (n & K1 & K2 & M4) & log & LG & M5 & M6) ST.
  destruct (inv_of _ _ _ I NB) as [IB CF].
  destruct (ST n K1 K2 (content s)) as (x & CX & OX & X). exists x. split; auto. split.
  { unfold abs. cbn [t_core]. rewrite X. f_equal. unfold put_dst. f_equal.
    unfold content. cbn [t_world t_local]. symmetry. exact M4. }
  cbn [put_world h_can_flush h_world] in *.
  assert (FW : workers (finish_request i w r ok (t_core s)) =
     set_nth i (Wrk (if ok then WIdle else WError) (w_buf w) true) (workers (t_core s))).
  { unfold finish_request, set_worker. destruct ok; reflexivity. }
  assert (FM : main (finish_request i w r ok (t_core s)) = main (t_core s) /\
               q (finish_request i w r ok (t_core s)) = q (t_core s)).
  { unfold finish_request, set_worker. destruct ok; auto. }
  destruct FM as [FM FQ].
  pose proof I as [I1 I2 I3 I4 I5 I6 I7 I8]. split; [|split; [|split]].
  - constructor; cbn [t_world t_backends t_core t_local]; rewrite ?FW, ?FM, ?FQ; auto.
    + exact (proj1 M1).
    + apply backends_ok; auto. congruence.
    + unfold source in *. cbn [t_world t_local]. congruence.
    + rewrite !length_set_nth. auto.
    + apply Forall_set_nth; auto. destruct ok; exact Logic.I.
    + intros UP. unfold finish_request, set_worker. destruct ok; cbn [done]; auto.
      apply Forall_app. split; auto.
  - intros _ HJ. destruct ok.
    2:{ right. split; auto. exists w. rewrite S0. auto. }
    left. unfold J. cbn [t_world t_core]. rewrite FW.
    destruct F eqn:FF.
    + right. split; auto. exists i. eexists. rewrite nth_set_nth, Nat.eqb_refl, NW. split; reflexivity.
    + left. rewrite LG. destruct HJ as [HJ|[HJ _]]; [|congruence].
      apply durable_app; auto.
  - intros (w1 & w2 & R1 & R2 & R3 & R4). cbn [t_core] in R3.
    rewrite FW, nth_set_nth, Nat.eqb_refl, NW in R3. injection R3 as <-. cbn in R4.
    destruct ok; [discriminate|]. split; auto. exists w. rewrite S0. auto.
  - rewrite OX. intros ->. exists w. eexists. split; auto. rewrite S0. split; auto. cbn [t_core].
    rewrite FW, nth_set_nth, Nat.eqb_refl, NW. split; reflexivity.
Qed.

Lemma nth_backend s i w : TI s -> nth_error (workers (t_core s)) i = Some w ->
  exists b, nth_error (t_backends s) i = Some b.
Proof.
  intros I NW. destruct (nth_error (t_backends s) i) eqn:NB; eauto.
  apply nth_error_None in NB. destruct (ti_count _ I) as [C1 C2].
  assert (i < length (workers (t_core s)))%nat by (apply nth_error_Some; congruence). lia.
Qed.

Lemma tworker_sim i k a s s' : TI s -> tworker_step c i k a s = Some s' -> sim i k s s'.
Proof.
  intros I E. unfold tworker_step in E.
  destruct (nth_error (workers (t_core s)) i) as [w|] eqn:NW; [|discriminate].
  destruct (nth_error (t_backends s) i) as [b|] eqn:NB; [|discriminate].
  destruct (inv_of _ _ _ I NB) as [IB CF].
  pose proof (Forall_nth_error _ _ _ _ (ti_workers _ I) NW) as SW. unfold sane_worker in SW.
  assert (OTHER : (match w_state w with WZero _ | WCopy _ _ _ _ | WFlush => False | _ => True end) ->
    (match worker_step (core_config c) i k (Answer (ta_ok a) 0 None None) (t_core s) with
     | Some s' => Some (TSt s' (t_backends s) (t_world s) (t_local s))
     | None => None
     end) = Some s' -> sim i k s s').
  { intros S0 E0. destruct (worker_step _ _ _ _ _) as [s1|] eqn:W; [|discriminate]. injection E0 as <-.
    set (ok := match w_state w with WIdle | WError | WFailed => true | _ => ta_ok a end).
    exists (Answer ok 0 None None). cbn [a_ok]. split; [cbn; auto|].
    assert (X : worker_step cc i k (Answer ok 0 None None) (abs s) =
                Some (put_dst s1 (content s)) /\
                TI (TSt s1 (t_backends s) (t_world s) (t_local s)) /\
                (J s -> J (TSt s1 (t_backends s) (t_world s) (t_local s)))).
    { pose proof I as [I1 I2 I3 I4 I5 I6 I7 I8].
      assert (JJ : forall x s2, workers s2 = set_nth i (Wrk x (w_buf w) (w_dirty w)) (workers (t_core s)) ->
        J s -> J (TSt s2 (t_backends s) (t_world s) (t_local s))).
      { intros x s2 W2 HJ. eapply J_same; [exact HJ|reflexivity|]. cbn [t_core]. rewrite W2.
        eapply set_nth_dirty; eauto. }
      assert (TT : forall x s2, workers s2 = set_nth i (Wrk x (w_buf w) (w_dirty w)) (workers (t_core s)) ->
        main s2 = main (t_core s) -> Forall sane (q_items (q s2)) ->
        sane_worker (Wrk x (w_buf w) (w_dirty w)) -> done s2 = done (t_core s) -> TI (TSt s2 (t_backends s) (t_world s) (t_local s))).
      { intros x s2 W2 M2 Q2 S2 D2. constructor; cbn [t_core t_backends t_world t_local]; rewrite ?W2, ?M2, ?D2; auto.
        - rewrite length_set_nth. auto.
        - apply Forall_set_nth; auto. }
      unfold worker_step in *. unfold abs. cbn [put_dst workers main q errors dst done progress].
      rewrite NW in *. cbn [a_ok] in *. unfold ok.
      destruct (w_state w) as [| |r|r sp dp todo| | | | | |] eqn:WS; try contradiction; try discriminate.
      - injection W as <-. split; [reflexivity|]. split; [|eapply JJ; reflexivity].
        eapply TT; try reflexivity; auto; destruct (ta_ok a); exact Logic.I.
      - destruct (try_get _ _ _) as [q' r] eqn:G. injection W as <-. split; [reflexivity|].
        destruct (try_get_items _ _ _ _ _ G I6) as [Q1 Q2].
        split; [|eapply JJ; reflexivity]. eapply TT; try reflexivity; auto.
        destruct r as [| |r]; try exact Logic.I. specialize (Q2 r eq_refl).
        unfold sane, is_stop in Q2. unfold sane_worker. cbn [w_state].
        destruct (r_op r) eqn:OP; cbn; auto; specialize (Q2 eq_refl); tauto.
      - injection W as <-. split; [reflexivity|]. split; [|eapply JJ; reflexivity].
        eapply TT; try reflexivity; auto; destruct (ta_ok a); exact Logic.I.
      - injection W as <-. split; [reflexivity|]. split; [|eapply JJ; reflexivity].
        eapply TT; try reflexivity; auto; destruct (ta_ok a); exact Logic.I.
      - injection W as <-. split; [reflexivity|]. split; [|eapply JJ; reflexivity].
        eapply TT; try reflexivity; auto; exact Logic.I.
      - injection W as <-. split; [reflexivity|]. split; [|eapply JJ; reflexivity].
        eapply TT; try reflexivity; cbn; auto; exact Logic.I. }
    destruct X as (X1 & X2 & X3). split; [rewrite X1; reflexivity|]. split; auto. split; auto. split.
    - intros (w1 & w2 & R1 & R2 & R3 & R4). assert (w1 = w) by congruence. subst w1.
      split; [|exists w; auto]. cbn [a_ok t_core] in *. unfold ok.
      unfold worker_step in W. rewrite NW in W. cbn [a_ok] in W.
      destruct (w_state w) eqn:WS; try contradiction; injection W as <-;
        cbn [workers] in R3; rewrite nth_set_nth, Nat.eqb_refl, NW in R3; injection R3 as <-; cbn in R4;
        destruct (ta_ok a); auto; discriminate.
    - unfold ok. intros OK. exists w. eexists. split; auto. cbn [t_core].
      unfold worker_step in W. rewrite NW in W. cbn [a_ok] in W.
      destruct (w_state w) eqn:WS; try contradiction; try discriminate; rewrite OK in W; injection W as <-;
        (split; [exact Logic.I|]); cbn [workers]; rewrite nth_set_nth, Nat.eqb_refl, NW; split; reflexivity. }
  destruct (w_state w) as [| |r|r sp dp todo| | | | | |] eqn:WS; try (apply OTHER; auto; fail).
  - (* zero *)
    destruct SW as (S0 & S1 & S2).
    destruct (if ta_ok a then _ else _) as [[ok b'] local'] eqn:H. injection E as <-.
    eapply (request_sim i k s w r b ok b' local' zeros); eauto.
    + exact Logic.I.
    + destruct (ta_ok a); [eapply handler_zero_moved; eauto|].
      injection H as <- <- <-. apply moved_nothing; auto; lia.
    + intros n K1 K2 d. exists (Answer ok 0 None (if ok then None else Some n)).
      split; [cbn; split; auto; intros ->; auto|]. split; auto.
      unfold worker_step. cbn [put_dst workers main q errors dst done progress a_ok a_written].
      rewrite NW, WS. unfold finish_request, set_worker.
      assert (DN : done_of (r_length r) (if ok then None else Some n) = n).
      { unfold done_of, clamp. destruct ok; [rewrite K2; auto|]; lia. }
      rewrite DN. destruct ok; reflexivity.
  - (* copy *)
    destruct SW as ((S0 & S1 & S2) & -> & -> & ->).
    destruct (if ta_ok a then _ else _) as [[ok b'] local'] eqn:H. injection E as <-.
    eapply (request_sim i k s w r b ok b' local' (fun n => sub (r_start r) n src)); eauto.
    + exact Logic.I.
    + destruct (ta_ok a); [eapply handler_copy_moved; eauto; apply (ti_source _ I)|].
      injection H as <- <- <-. apply moved_nothing; auto; lia.
    + intros n K1 K2 d. exists (Answer ok (r_length r) None (if ok then None else Some n)).
      split; [cbn; split; auto; intros ->; auto|]. split; auto.
      unfold worker_step. cbn [put_dst workers main q errors dst done progress].
      rewrite NW, WS. unfold copy_chunk. cbn [cc f_mode f_src a_ok a_chunk a_written].
      assert (CL : clamp (Z.min 1 (r_length r)) (r_length r) (r_length r) = r_length r) by (unfold clamp; lia).
      rewrite CL. unfold finish_request, set_worker. destruct ok.
      * rewrite Z.sub_diag. cbn [Z.eqb]. rewrite (K2 eq_refl). reflexivity.
      * assert (DN : done_of (r_length r) (Some n) = n) by (unfold done_of, clamp; lia).
        rewrite DN. reflexivity.
  - (* flush *)
    destruct (if ta_ok a then _ else _) as [[ok b'] local'] eqn:H. injection E as <-.
    assert (M : Inv b' /\ h_can_flush b' = F /\ iw_img (h_world b') = iw_img (t_world s) /\ local' = t_local s /\
      exists log, iw_log (h_world b') = iw_log (t_world s) ++ log /\
        (tc_dir c = Up -> ok = true -> if F then log = [EFlush] else durable log)).
    { destruct (ta_ok a).
      - apply handler_flush_moved in H; auto. cbn [put_world h_can_flush h_world] in H. rewrite CF in H. auto.
      - injection H as <- <- <-. do 4 (split; [auto|]). exists []. rewrite app_nil_r. split; auto. discriminate. }
    destruct M as (M1 & M2 & M3 & -> & log & LG & M5).
    exists (Answer ok 0 None None). split; [cbn; auto|].
    remember (if ok then Wrk WClosing (w_buf w) false else Wrk WError (w_buf w) (w_dirty w)) as w'.
    assert (SM : sane_worker w') by (subst w'; destruct ok; exact Logic.I).
    pose proof I as [I1 I2 I3 I4 I5 I6 I7 I8]. split; [|split; [|split; [|split]]].
    + unfold worker_step, abs. cbn [put_dst workers main q errors dst done progress a_ok].
      rewrite NW, WS. unfold content. cbn [t_core t_world t_local]. rewrite M3.
      unfold put_dst, set_worker. cbn. subst w'. destruct ok; reflexivity.
    + constructor; cbn [t_core t_world t_local t_backends set_worker main workers q]; auto.
      * exact (proj1 M1).
      * apply backends_ok; auto.
      * unfold source in *. cbn [t_world t_local]. congruence.
      * rewrite !length_set_nth. auto.
      * apply Forall_set_nth; auto.
    + intros UP HJ. destruct ok; [left|right; split; auto; exists w; rewrite WS; split; auto; exact Logic.I].
      unfold J. cbn [t_world]. specialize (M5 UP eq_refl). rewrite LG. destruct F eqn:FF.
      * left. rewrite M5. apply durable_tail.
      * left. apply durable_app; auto. destruct HJ as [HJ|[HJ _]]; [auto|congruence].
    + intros (w1 & w2 & R1 & R2 & R3 & R4). cbn [t_core set_worker workers] in R3.
      rewrite nth_set_nth, Nat.eqb_refl, NW in R3. injection R3 as <-. subst w'.
      destruct ok; [discriminate|]. split; auto. exists w. rewrite WS. split; auto; exact Logic.I.
    + cbn [a_ok]. intros ->. exists w, w'. rewrite WS. split; auto. split; [exact Logic.I|].
      cbn [t_core set_worker workers]. rewrite nth_set_nth, Nat.eqb_refl, NW. split; auto. subst w'. auto.
Qed.

(* ---- executions ---- *)

Lemma tstep_sim l s s' : TI s -> tstep c l s = Some s' ->
  exists l', complete l' /\ ClientIoModel.step cc l' (abs s) = Some (abs s') /\ TI s' /\
    (tc_dir c = Up -> J s -> J s' \/ raises l' (abs s)) /\
    (texception l s s' -> raises l' (abs s)) /\
    (fine l' \/ texception l s s').
Proof.
  intros I E. destruct l as [k| |i k a]; cbn [tstep] in E.
  - destruct (blocked Main (q (t_core s))) eqn:B; [discriminate|]. unfold with_core in E.
    destruct (main_step _ _ _) as [s1|] eqn:M; [|discriminate]. injection E as <-.
    exists (LMain k). split; [exact Logic.I|]. split.
    { cbn [ClientIoModel.step]. unfold abs at 1. cbn [put_dst q]. rewrite B. apply main_step_abs. auto. }
    split; [eapply main_step_ti; eauto|]. split; [|split; [tauto|left; exact Logic.I]].
    intros _ HJ. left. eapply main_step_J; eauto.
  - destruct (blocked Main (q (t_core s))) eqn:B; [discriminate|]. unfold with_core in E.
    destruct (main_fail _) as [s1|] eqn:M; [|discriminate]. injection E as <-.
    exists LMainFail. split; [exact Logic.I|]. split.
    { cbn [ClientIoModel.step]. unfold abs at 1. cbn [put_dst q]. rewrite B. apply main_fail_abs. auto. }
    split; [eapply main_fail_ti; eauto|]. split; [|split; [exact (fun _ => Logic.I)|right; exact Logic.I]].
    intros _ _. right. exact Logic.I.
  - destruct (blocked (Worker i) (q (t_core s))) eqn:B; [discriminate|].
    apply tworker_sim in E as (x & X1 & X2 & X3 & X4 & X5 & X6); auto.
    exists (LWorker i k x). split; auto. split.
    { cbn [ClientIoModel.step]. unfold abs at 1. cbn [put_dst q]. rewrite B. auto. }
    do 3 (split; auto). cbn [fine texception]. destruct (a_ok x); auto.
Qed.

(* Executions, with the steps in which something raised. *)
Lemma texec_sim tr : forall s s', TI s -> texec c tr s = Some s' ->
  exists tr', Forall complete tr' /\ exec cc tr' (abs s) = Some (abs s') /\ TI s' /\
    length tr' = length tr /\
    (tc_dir c = Up -> J s -> J s' \/
       exists t1 l t2 x y, exec cc t1 (abs s) = Some x /\ raises l x /\ ClientIoModel.step cc l x = Some y /\
         exec cc t2 y = Some (abs s')) /\
    (Forall fine tr' \/
       exists t1 l t2 s1 s2, tr = t1 ++ l :: t2 /\ texec c t1 s = Some s1 /\ tstep c l s1 = Some s2 /\
         texception l s1 s2).
Proof.
  induction tr as [|l tr IH]; intros s s' I E; cbn [texec] in E.
  - injection E as <-. exists []. auto 10.
  - destruct (tstep c l s) as [s1|] eqn:T; [|discriminate].
    pose proof T as T0. apply tstep_sim in T as (l' & L1 & L2 & L3 & L4 & L5 & L6); auto.
    destruct (IH s1 s' L3 E) as (tr' & T1 & T2 & T3 & T4 & T5 & T6).
    exists (l' :: tr'). split; auto. split; [cbn; rewrite L2; auto|]. split; auto.
    split; [cbn; congruence|]. split.
    + intros UP HJ. destruct (L4 UP HJ) as [HJ1|R].
      * destruct (T5 UP HJ1) as [X|(t1 & l1 & t2 & x & y & X1 & X2 & X3 & X4)]; auto.
        right. exists (l' :: t1), l1, t2, x, y. split; auto. cbn. rewrite L2. auto.
      * right. exists [], l', tr', (abs s), (abs s1). auto.
    + destruct L6 as [L6|L6]; [|right; exists [], l, tr, s, s1; auto].
      destruct T6 as [T6|(t1 & l1 & t2 & x & y & X1 & X2 & X3 & X4)]; [left; auto|right].
      exists (l :: t1), l1, t2, x, y. split; [rewrite X1; auto|]. cbn. rewrite T0. auto.
Qed.

Lemma tstep_exec tr1 l s s1 s2 tr2 s3 :
  texec c tr1 s = Some s1 -> tstep c l s1 = Some s2 -> texec c tr2 s2 = Some s3 ->
  texec c (tr1 ++ l :: tr2) s = Some s3.
Proof.
  revert s. induction tr1 as [|x tr1 IH]; intros s E1 E2 E3; cbn in *.
  - injection E1 as <-. rewrite E2. auto.
  - destruct (tstep c x s); [|discriminate]. eauto.
Qed.

(* A worker that can run in the copy can run in the transfer, whatever happens. *)
Lemma tstep_enabled l s y : TI s -> ClientIoModel.step cc l (abs s) = Some y ->
  match l with
  | LMain k => tstep c (TMain k) s <> None
  | LMainFail => True
  | LWorker i _ _ => forall k a, tstep c (TWorker i k a) s <> None
  end.
Proof.
  intros I E. destruct l as [k| |i k a]; auto; cbn [ClientIoModel.step] in E; cbn [tstep].
  - unfold abs in E. cbn [put_dst q] in E. destruct (blocked Main (q (t_core s))); [discriminate|].
    unfold with_core. destruct (main_step (core_config c) k (t_core s)) eqn:M; [discriminate|].
    exfalso. unfold main_step in *. cbn [put_dst main workers q f_plan] in *.
    destruct (main (t_core s)) as [[|n]|[|[r|n] l]|[|n]| |ab|b]; try discriminate;
      try (destruct (try_put _ _ _ _); discriminate).
    destruct (forallb _ _); discriminate.
  - intros k' a'. unfold abs in E. cbn [put_dst q] in E.
    destruct (blocked (Worker i) (q (t_core s))); [discriminate|].
    unfold worker_step in E. cbn [put_dst workers] in E. unfold tworker_step.
    destruct (nth_error (workers (t_core s)) i) as [w|] eqn:NW; [|discriminate].
    destruct (nth_backend _ _ _ I NW) as (b & NB). rewrite NB.
    destruct (w_state w) eqn:WS; try discriminate.
    all: try (match goal with |- context [if ta_ok ?z then ?x else ?y] =>
           destruct (if ta_ok z then x else y) as [[? ?] ?]; discriminate end).
    all: unfold worker_step; rewrite NW, WS; try discriminate.
    destruct (try_get (Worker i) k' (q (t_core s))). discriminate.
Qed.

End Transfer.

(* ---- starts ---- *)

Lemma plan_is_sane c dirty zero hole src exts r :
  tc_plan c = plan dirty zero hole exts ->
  tiles 0 (zlen src) exts -> honest_extents dirty src exts ->
  In r (requests (tc_plan c)) -> sane c r.
Proof.
  intros P T H I _. split; auto. rewrite P in I. destruct (ClientIoTheorems.plan_in _ _ _ _ _ _ _ _ T H I) as (e & E & _ & _ & B1 & B2 & B3).
  split; auto. assert (M : forall a b l, tiles a b l -> In e l -> a <= start_of e); [|specialize (M _ _ _ T E); lia].
  clear. intros a b l T. induction T as [a|a b x l S L T IH]; intros I; [contradiction|].
  destruct I as [->|I]; [lia|]. specialize (IH I). lia.
Qed.

Lemma tinit_TI c total src F dir n b local :
  tc_dir c = dir -> HttpBackendProofs.Inv total b -> h_can_flush b = F ->
  (match dir with Up => local | Down => iw_img (h_world b) end) = src ->
  TI c total src (ClientIoTheorems.copy_workers n) F (tinit dir n b local).
Proof.
  intros D (I1 & I2 & I3) FF S. unfold tinit, ClientIoTheorems.copy_workers.
  constructor; cbn [t_world t_backends t_core t_local init main workers q q_items new_queue done length]; auto.
  - assert (C : (forall n, h_size (HttpBackendModel.clone b) = Some n -> n = total) /\
                (forall l, h_zero (HttpBackendModel.clone b) = Some l -> jend l = inl total) /\
                h_can_flush (HttpBackendModel.clone b) = F) by (cbn; auto).
    assert (R : forall k, Forall (fun b => (forall n, h_size b = Some n -> n = total) /\
                (forall l, h_zero b = Some l -> jend l = inl total) /\ h_can_flush b = F)
                (repeat (HttpBackendModel.clone b) k)).
    { intros k. apply Forall_forall. intros x X. apply repeat_spec in X. subst x. auto. }
    unfold backends_for. destruct dir; [|apply R]. constructor; auto.
  - unfold source, source_of. rewrite D. cbn. destruct dir; auto.
  - split; [lia|]. unfold backends_for. destruct dir; cbn [length]; rewrite repeat_length; lia.
Qed.

Lemma tinit_abs c dir n b local :
  abs c (tinit dir n b local) =
  init QUEUE_DEPTH n (content_of c (iw_img (h_world b)) local).
Proof. reflexivity. Qed.

(* ---- the start of a download ---- *)

Section Start.
Variables (id : str) (total : Z) (envs : nat -> senv).
Hypothesis U : forall i, usable id total (envs i).

Definition good_extents (dirty : bool) (img : list byte) (xs : list jext) (one : bool) : Prop :=
  exists l, Forall2 same_extent l xs /\ tiles 0 total l /\ honest_extents dirty img l /\
    exists i, se_ext (envs i) dirty img = Some l \/
              one = true /\ l = [ZeroExtent 0 total false false].

Lemma get_extents_good dirty b xs b1 :
  get_extents (imageio id envs) dirty b = (inl xs, b1) -> truthful dirty total envs ->
  zlen (iw_img (h_world b)) = total ->
  good_extents dirty (iw_img (h_world b)) xs false /\
  iw_img (h_world b1) = iw_img (h_world b) /\ h_can_flush b1 = h_can_flush b /\
  h_size b1 = h_size b /\ h_zero b1 = h_zero b /\ h_can_extents b1 = h_can_extents b /\
  h_dirty b1 = h_dirty b.
Proof.
  unfold get_extents. intros E T Z. destruct (HttpBackendModel.request _ _ _) as [x s1] eqn:R.
  apply request_eq in R as (p & w & S & -> & ->).
  apply srv_extents in S as (S1 & S2 & S3). injection E as E <-. split; [|cbn; auto 10].
  destruct p as [p|]; [|discriminate]. cbn [cbind] in E.
  destruct (p_status p =? 404); [discriminate|].
  destruct (Z.eqb_spec (p_status p) 200) as [PS|]; cbn [negb] in E; [|discriminate].
  destruct (S3 p eq_refl PS) as (l & L & JS). rewrite JS in E.
  destruct (T _ _ _ Z L) as [T1 T2].
  destruct (HttpBackendTheorems.map_exc_to_dict dirty l) as (ys & Y1 & Y2).
  { apply Forall_forall. intros e I. specialize (T2 e I). destruct e; destruct T2 as [-> _]; reflexivity. }
  exists l. assert (xs = ys) by congruence. subst. eauto 8.
Qed.

Lemma extents_of_good dirty img xs one :
  good_extents dirty img xs one -> exists l, extents_of_json dirty xs = Some l /\
    tiles 0 total l /\ honest_extents dirty img l /\
    exists i, se_ext (envs i) dirty img = Some l \/
              one = true /\ l = [ZeroExtent 0 total false false].
Proof.
  intros (l & FE & T & H & SE). exists l. split; [|auto]. clear T SE.
  revert H. induction FE as [|e x l xs X FE IH]; intros H; auto.
  cbn [extents_of_json]. rewrite IH by (intros y Y; apply H; right; auto).
  specialize (H e (or_introl eq_refl)).
  destruct e as [st n z h|st n d z]; destruct H as [-> _]; cbn in X; subst x; reflexivity.
Qed.

Lemma tiles_end_total a b l : tiles a b l -> a <= b.
Proof. intros T. induction T; lia. Qed.

Lemma download_start_ok qcow2 buf incremental bf b c b1 sz :
  download_start id envs qcow2 buf incremental bf b = Some (c, b1, sz) ->
  fresh total b -> 0 < total -> truthful incremental total envs ->
  (incremental = true -> qcow2 = true) /\ sz = total /\
  iw_img (h_world b1) = iw_img (h_world b) /\ HttpBackendProofs.Inv total b1 /\
  exists exts, c = TConfig id envs Down (Z.min buf MAX_BUFFER_SIZE)
      (plan incremental (match bf with Some _ => true | None => false end) false exts) /\
    tiles 0 total exts /\ honest_extents incremental (iw_img (h_world b)) exts /\
    (exists i, se_ext (envs i) incremental (iw_img (h_world b)) = Some exts \/
               h_can_extents b = false /\ exts = [ZeroExtent 0 total false false]).
Proof.
  unfold download_start. intros E (Z & N1 & N2 & N3) P T.
  assert (I : HttpBackendProofs.Inv total b) by (split; [auto|split; [rewrite N1|rewrite N2]; discriminate]).
  destruct (incremental && negb qcow2) eqn:Q; [discriminate|].
  destruct (HttpBackendModel.size _ _) as [[n|e] b2] eqn:S; [|discriminate].
  pose proof S as S0. eapply (size_imageio id total envs U) in S0 as (I2 & _ & _ & _ & IM & _ & NT); auto.
  specialize (NT n eq_refl). subst n. cbn [download_flags] in E.
  destruct (HttpBackendModel.extents _ _ _) as [[xs|e] b3] eqn:X; [|discriminate].
  assert (G : good_extents incremental (iw_img (h_world b)) xs (negb (h_can_extents b)) /\
              iw_img (h_world b3) = iw_img (h_world b) /\ HttpBackendProofs.Inv total b3).
  { unfold HttpBackendModel.size in S. rewrite N1 in S. unfold HttpBackendModel.extents in X.
    destruct (h_can_extents b) eqn:CE.
    - (* the size comes from the zero extents *)
      unfold cached_extents in S. rewrite N2 in S.
      destruct (get_extents (imageio id envs) false b) as [[ys|e] b4] eqn:GE; cbn [cbind] in S; [|discriminate].
      assert (K : h_can_extents b4 = true /\ h_dirty b4 = None /\ iw_img (h_world b4) = iw_img (h_world b)).
      { unfold get_extents in GE. destruct (HttpBackendModel.request _ _ _) as [x s1] eqn:R.
        apply request_eq in R as (p & w & SV & -> & ->). apply (srv_extents id envs _ _ _ false) in SV as (S1 & _).
        injection GE as _ <-. cbn. auto. }
      destruct K as (K1 & K2 & K3).
      destruct (match rev ys with [] => _ | _ :: _ => _ end) as [n|e]; [|discriminate].
      injection S as SN <-. cbn [set_size set_extents h_can_extents] in X. rewrite K1 in X. cbn [negb] in X.
      unfold cached_extents in X. cbn [set_size set_extents h_zero h_dirty] in X.
      destruct incremental.
      + rewrite K2 in X. destruct (get_extents _ _ _) as [[zs|e] b5] eqn:GE2; [|discriminate].
        injection X as <- <-. apply get_extents_good in GE2; auto;
          [|cbn; rewrite K3; auto].
        cbn [set_size set_extents h_world h_size h_zero h_can_flush] in GE2. rewrite K3 in GE2.
        destruct GE2 as (G1 & G2 & G3 & G4 & G5 & _). split; auto. split; auto.
        destruct I2 as (J1 & J2 & J3). split; [cbn; congruence|].
        split; cbn [set_extents h_size h_zero]; [intros; apply J2; cbn; congruence|].
        intros; apply J3; cbn; congruence.
      + injection X as <- <-. apply get_extents_good in GE; auto.
        destruct GE as (G1 & _). split; auto.
    - (* one extent *)
      unfold emulate_head in S. destruct (HttpBackendModel.request _ _ _) as [x s1] eqn:R.
      apply request_eq in R as (p & w & SV & -> & ->).
      destruct (cbind _ _) as [n|e]; [|discriminate]. injection S as SN <-.
      cbn [set_size h_can_extents upd] in X. rewrite CE in X. cbn [negb] in X.
      destruct incremental; [discriminate|]. cbn in X. injection X as <- <-. split; [|split; auto].
      exists [ZeroExtent 0 total false false]. split; [constructor; auto; rewrite SN; reflexivity|]. split.
      + apply tiles_one; auto. cbn. apply tiles_end.
      + split; [|exists O; auto]. intros e [<-|[]]. split; auto. discriminate. }
  destruct G as (G & IM3 & I3).
  destruct (extents_of_good _ _ _ _ G) as (l & L & L1 & L2 & i & L3). rewrite L in E. injection E as <- <- <-.
  split; [intros ->; destruct qcow2; auto; discriminate|]. split; auto. split; auto. split; auto.
  exists l. do 3 (split; [auto|]). exists i. destruct L3 as [L3|[L3 L4]]; auto.
  right. split; auto. now destruct (h_can_extents b).
Qed.

End Start.

(* ---- nothing fails ---- *)

Lemma split_loop_pos op step : 0 < step -> forall fuel start length r,
  0 < length -> In r (split_loop fuel op start length step) -> 0 < r_length r.
Proof.
  intros S. induction fuel as [|fuel IH]; intros start length r L; cbn [split_loop].
  - intros [<-|[]]. auto.
  - destruct (Z.ltb_spec step length); intros [<-|I]; auto; [|contradiction].
    eapply IH; [|exact I]. lia.
Qed.

Lemma plan_pos dirty zero hole exts a b r :
  tiles a b exts -> In r (requests (plan dirty zero hole exts)) -> 0 < r_length r.
Proof.
  intros T. induction T as [a|a b e l S L T IH]; intros I.
  - unfold plan in I. destruct dirty; contradiction.
  - rewrite ClientIoTheorems.plan_single, ClientIoProofs.requests_app in I. apply in_app_iff in I.
    destruct I as [I|I]; auto.
    assert (P : forall op s n, 0 < n -> In r (requests (submit (Request op s n))) -> 0 < r_length r).
    { intros op s n N. rewrite ClientIoProofs.requests_submit. unfold split_request. apply split_loop_pos; auto.
      cbn. destruct op; unfold MAX_ZERO_SIZE, MAX_COPY_SIZE; lia. }
    unfold plan in I. destruct dirty, e as [s n z h|s n d z]; cbn -[submit] in *; rewrite ?app_nil_r in I;
      try contradiction.
    + destruct d, z; cbn -[submit] in *; try contradiction; eapply P; eauto.
    + destruct z; cbn -[submit] in *; [destruct (zero && (negb h || hole)); cbn -[submit] in *|];
        try contradiction; eapply P; eauto.
Qed.

Section Calm.

Variables (c : tconfig) (total : Z) (src : list byte) (N : nat) (F : bool).
Hypothesis ID : tc_id c <> [].
Hypothesis Wi : forall i, willing (tc_id c) total (tc_envs c i).
Hypothesis Pa : forall i, patient total (tc_envs c i).
Hypothesis B : 0 < tc_buffer c.
Hypothesis fits : forall r, In r (requests (tc_plan c)) ->
  0 < r_length r /\ 0 <= r_start r /\ r_start r + r_length r <= total /\ r_start r + r_length r <= zlen src.

Lemma calm_ok i k a s s' : TI c total src N F s -> calm (TWorker i k a) ->
  tworker_step c i k a s = Some s' -> ~ raised i s s'.
Proof.
  intros I (CA & CZ & CR & CS & CC & CD) E (w1 & w2 & R1 & R2 & R3 & R4).
  unfold tworker_step in E. rewrite R1 in E. remember w1 as w. clear Heqw w1.
  destruct (nth_error (t_backends s) i) as [b|] eqn:NB; [|discriminate].
  assert (U : forall i, usable (tc_id c) total (tc_envs c i)) by (intros j; apply (Wi j)).
  pose proof (inv_of c total src N F _ _ _ I NB) as [IB CF].
  pose proof (Forall_nth_error _ _ _ _ (ti_workers _ _ _ _ _ _ I) R1) as SW. unfold sane_worker in SW.
  assert (OTHER : (match w_state w with WZero _ | WCopy _ _ _ _ | WFlush => False | _ => True end) ->
    (match worker_step (core_config c) i k (Answer (ta_ok a) 0 None None) (t_core s) with
     | Some s' => Some (TSt s' (t_backends s) (t_world s) (t_local s))
     | None => None
     end) = Some s' -> False).
  { intros S0 E0. destruct (worker_step _ _ _ _ _) as [s1|] eqn:W; [|discriminate]. injection E0 as <-.
    cbn [t_core] in *. unfold worker_step in W. rewrite R1 in W. cbn [a_ok] in W. rewrite CA in W.
    destruct (w_state w) eqn:WS; try contradiction; injection W as <-;
      cbn [workers] in R3; rewrite ClientIoProofs.nth_set_nth, Nat.eqb_refl, R1 in R3; injection R3 as <-;
      discriminate R4. }
  assert (DONE : forall r ok b' local', ok = true ->
    s' = TSt (finish_request i w r ok (t_core s)) (set_nth i b' (t_backends s)) (h_world b') local' -> False).
  { intros r ok b' local' -> ->. cbn [t_core finish_request workers] in R3.
    rewrite ClientIoProofs.nth_set_nth, Nat.eqb_refl, R1 in R3. injection R3 as <-. discriminate R4. }
  rewrite CA in E, OTHER.
  assert (IMG : zlen (iw_img (t_world s)) = total) by apply (ti_size _ _ _ _ _ _ I).
  pose proof (ti_source _ _ _ _ _ _ I) as SRC. unfold source, source_of in SRC.
  destruct (w_state w) as [| |r|r sp dp todo| | | | | |] eqn:WS; try (exact (OTHER Logic.I E)).
  - destruct SW as (S0 & _). destruct (fits r S0) as (L1 & L2 & L3 & L4).
    destruct (handler_zero _ _ _ _ _ _) as [[ok b'] local'] eqn:H. injection E as <-.
    eapply DONE; [|reflexivity]. unfold handler_zero in H. destruct (tc_dir c).
    + rewrite seek0 in H.
      destruct (h_can_zero b) eqn:CZ0.
      * destruct (HttpBackendTheorems.zero_over_http_succeeds (tc_id c) total (tc_envs c) (ta_net a) (r_length r)
          (set_pos (put_world b (t_world s)) (r_start r)) ID Wi Pa) as (s1 & X); auto; try (cbn; lia).
        unfold serve in H. rewrite X in H. injection H as <- _ _. reflexivity.
      * destruct (HttpBackendTheorems.emulated_zero_succeeds (tc_id c) total (tc_envs c) (ta_net a) (r_length r)
          (set_pos (put_world b (t_world s)) (r_start r)) ID Wi Pa) as (s1 & X); auto; try (cbn; lia).
        unfold serve in H. rewrite X in H. injection H as <- _ _. reflexivity.
    + rewrite CZ in H. injection H as <- _ _. reflexivity.
  - destruct SW as ((S0 & _) & _). destruct (fits r S0) as (L1 & L2 & L3 & L4).
    destruct (handler_copy _ _ _ _ _ _) as [[ok b'] local'] eqn:H. injection E as <-.
    eapply DONE; [|reflexivity]. unfold handler_copy in H. rewrite seek0 in H. destruct (tc_dir c).
    + destruct (HttpBackendTheorems.read_from_over_http_succeeds (tc_id c) total (tc_envs c) (ta_net a)
        (drop (r_start r) (t_local s)) (r_length r) (tc_buffer c)
        (set_pos (put_world b (t_world s)) (r_start r)) ID Wi Pa) as (lf & s1 & X); auto; try (cbn; lia).
      { rewrite zlen_drop, SRC. lia. }
      unfold serve in H. rewrite X in H. injection H as <- _ _. reflexivity.
    + destruct (HttpBackendTheorems.write_to_over_http_succeeds (tc_id c) total (tc_envs c)
        (nbd_writer (r_length r) (ta_net a)) (r_length r) (tc_buffer c)
        (set_pos (put_world b (t_world s)) (r_start r)) ID Wi Pa) as (lf & s1 & X); auto; try (cbn; lia).
      { intros j. cbn. specialize (CD j). destruct (n_dst (ta_net a) j); congruence. }
      unfold serve in H. rewrite X in H. injection H as <- _ _. reflexivity.
  - destruct (handler_flush _ _ _) as [[ok b'] local'] eqn:H. injection E as <-.
    cbn [t_core set_worker workers] in R3.
    rewrite ClientIoProofs.nth_set_nth, Nat.eqb_refl, R1 in R3.
    assert (ok = true) as ->.
    { unfold handler_flush in H. destruct (tc_dir c); [|injection H as <- _ _; reflexivity].
      destruct (HttpBackendTheorems.flush_over_http_succeeds (tc_id c) total (tc_envs c)
        (put_world b (t_world s)) ID Wi) as (s1 & X).
      unfold serve in H. rewrite X in H. injection H as <- _ _. reflexivity. }
    injection R3 as <-. discriminate R4.
Qed.

Lemma calm_no_exception l s s' : TI c total src N F s -> calm l -> tstep c l s = Some s' ->
  ~ texception l s s'.
Proof.
  intros I C E X. destruct l as [k| |i k a]; cbn [tstep] in E; [exact X|exact C|].
  destruct (blocked _ _); [discriminate|]. exact (calm_ok i k a s s' I C E X).
Qed.

End Calm.
