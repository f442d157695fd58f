From Coq Require Import ZArith List Bool Ascii String Lia.
From Verif Require Import BytesLib HeaderModel HeaderProofs HttpModel HttpSpec.
Import ListNotations.
Open Scope Z_scope.

Section Body.
Variables (v : env) (h : head) (inp : list byte).

Let CL := content_length (e_limit v) (h_length h).
Definition cl_value : Z := match CL with inl (Some n) => n | _ => 0 end.

Definition cl_ok (s : st) : Prop :=
  match s_cl s with
  | Unknown => s_len s = Unknown
  | Known o => match CL with inl o' => o = o' | inr _ => o = None end
  end
  /\ match s_len s with
     | Known (Some _) => exists n, CL = inl (Some n)
     | Known None => CL = inl None \/ exists e, CL = inr e
     | Unknown => True
     end.

(* No read failed so far. *)
Definition good (s : st) (c : list byte) : Prop :=
  inp = c ++ s_in s /\ cl_ok s /\
  match s_len s with
  | Known (Some n) => 0 <= n /\ zlen c + n = cl_value
  | _ => c = []
  end.

(* A read failed. *)
Definition bad (s : st) (c : list byte) : Prop :=
  inp = c ++ s_in s /\ cl_ok s /\ zlen c <= cl_value /\
  exists n, s_len s = Known (Some n) /\ 0 < n.

Definition inv (s : st) : Prop := exists c, good s c \/ bad s c.

(* Fields of the request that sending does not change. *)
Definition same_req (s s' : st) : Prop :=
  s_in s' = s_in s /\ s_cl s' = s_cl s /\ s_len s' = s_len s /\ s_ri s' = s_ri s.

Lemma same_refl s : same_req s s.
Proof. repeat split. Qed.

Lemma same_trans s1 s2 s3 : same_req s1 s2 -> same_req s2 s3 -> same_req s1 s3.
Proof. unfold same_req; intuition congruence. Qed.

Lemma wfile_same ev s s' r : wfile_write v ev s = (s', r) -> same_req s s'.
Proof.
  unfold wfile_write. destruct (e_write v (s_wi s)); intros [= <- <-]; repeat split.
Qed.

Lemma resp_write_same d s s' r : resp_write v d s = (s', r) -> same_req s s'.
Proof.
  unfold resp_write. destruct (s_raw s).
  - apply wfile_same.
  - destruct (zlen d <? 4096).
    + destruct (wfile_write _ _ _) as [s1 [u|e]] eqn:E; intros [= <- <-];
        apply wfile_same in E; auto.
    + destruct (wfile_write v [Head _ _ _] _) as [s1 [u|e]] eqn:E;
        apply wfile_same in E.
      * destruct (wfile_write v [Data d] s1) as [s2 [u'|e]] eqn:E';
          apply wfile_same in E'; intros [= <- <-];
          eapply same_trans; eauto.
      * intros [= <- <-]; auto.
Qed.

Lemma same_good s s' c : same_req s s' -> good s c -> good s' c.
Proof.
  intros (A & B & C & D) (E & F & G). unfold good, cl_ok in *.
  rewrite A, B, C. auto.
Qed.

Lemma same_bad s s' c : same_req s s' -> bad s c -> bad s' c.
Proof.
  intros (A & B & C & D) (E & F & G & H). unfold bad, cl_ok in *.
  rewrite A, B, C. auto.
Qed.

Lemma cl_value_nonneg : 0 <= cl_value.
Proof.
  unfold cl_value. destruct CL as [[n|]|] eqn:E; try lia.
  eapply content_length_nonneg; exact E.
Qed.

Lemma rcl_cases s s' r :
  req_content_length v h s = (s', r) ->
  (s' = s /\ exists o, s_cl s = Known o /\ r = inl o)
  \/ (s_cl s = Unknown /\ exists o, CL = inl o /\ s' = set_cl (Known o) s /\ r = inl o)
  \/ (s_cl s = Unknown /\ exists e, CL = inr e /\ s' = set_cl (Known None) s
      /\ r = inr (EHttp 400)).
Proof.
  unfold req_content_length. destruct (s_cl s) as [|o].
  - fold CL. destruct CL as [o|e]; intros [= <- <-]; [right; left|right; right];
      split; auto; eexists; auto.
  - intros [= <- <-]. left. eauto.
Qed.

Lemma rcl_inv s s' r c :
  req_content_length v h s = (s', r) ->
  (good s c -> good s' c) /\ (bad s c -> bad s' c).
Proof.
  intros E. apply rcl_cases in E as [(-> & _)|[(U & o & EC & -> & ->)|(U & e & EC & -> & ->)]];
    [tauto| |].
  - split.
    + intros (A & (B1 & B2) & C). unfold good, cl_ok. cbn. rewrite U in B1.
      rewrite B1 in *. rewrite EC. auto.
    + intros (A & (B1 & B2) & C & n & D & _). rewrite U in B1. congruence.
  - split.
    + intros (A & (B1 & B2) & C). unfold good, cl_ok. cbn. rewrite U in B1.
      rewrite B1 in *. rewrite EC. auto.
    + intros (A & (B1 & B2) & C & n & D & _). rewrite U in B1. congruence.
Qed.

Lemma rl_inv s s' r c :
  req_length v h s = (s', r) -> good s c ->
  good s' c /\ s_ri s' = s_ri s /\ s_in s' = s_in s /\
  ((exists o, r = inl o /\ s_len s' = Known o)
   \/ (exists e, r = inr e /\ s_len s' = Unknown /\ exists x, CL = inr x)).
Proof.
  unfold req_length. intros E G.
  destruct (s_len s) as [|o] eqn:L.
  - destruct (req_content_length v h s) as [s1 r1] eqn:E1.
    pose proof (rcl_inv _ _ _ c E1) as [G1 _]. specialize (G1 G).
    destruct (rcl_cases _ _ _ E1) as [(-> & o & U & ->)|[(U & o & EC & -> & ->)|(U & e & EC & -> & ->)]];
      injection E as <- <-.
    + destruct G as (A & (B1 & B2) & C). rewrite L in *. subst c.
      rewrite U in B1. split; [|split; [reflexivity|split; [reflexivity|left; eauto]]].
      unfold good, cl_ok. cbn. rewrite U.
      unfold cl_value. destruct CL as [o'|e] eqn:EC; subst o.
      * destruct o' as [n|]; (split; [exact A|]); (split; [split; eauto|]); auto.
        split; [eapply content_length_nonneg; exact EC|]. cbn; lia.
      * split; [exact A|]. split; [split; eauto|]. reflexivity.
    + destruct G as (A & (B1 & B2) & C). rewrite L in *. subst c.
      split; [|split; [reflexivity|split; [reflexivity|left; eauto]]].
      unfold good, cl_ok, cl_value. cbn. rewrite EC.
      destruct o as [n|]; (split; [exact A|]); (split; [split; eauto|]); auto.
      split; [eapply content_length_nonneg; exact EC|]. cbn; lia.
    + split; auto. split; [reflexivity|]. split; [reflexivity|].
      right. eauto 6.
  - injection E as <- <-. split; auto. split; auto. split; auto. left; eauto.
Qed.

Lemma rl_bad s s' r c :
  req_length v h s = (s', r) -> bad s c ->
  s' = s /\ exists n, 0 < n /\ r = inl (Some n).
Proof.
  unfold req_length. intros E (A & B & C & n & D & F). rewrite D in E.
  injection E as <- <-. eauto.
Qed.

Lemma sock_read_cases n s s' r :
  sock_read v n s = (s', r) ->
  exists k, 0 <= k /\ k <= zlen (s_in s) /\ (0 <= n -> k <= n)
    /\ s' = set_in (drop k (s_in s)) (next_read s)
    /\ (r = inl (take k (s_in s)) \/ exists e, r = inr e).
Proof.
  unfold sock_read, available. intros E.
  pose proof (zlen_nonneg (s_in s)).
  assert (B : forall k, let k' := clampz 0 (if n <? 0 then zlen (s_in s)
                  else Z.min n (zlen (s_in s))) k in
                0 <= k' /\ k' <= zlen (s_in s) /\ (0 <= n -> k' <= n)).
  { intros k. cbv zeta. unfold clampz. destruct (Z.ltb_spec n 0); lia. }
  destruct (e_read v (s_ri s)) as [k|k e]; injection E as <- <-; cbn [s_in next_read].
  - destruct (B k) as (B1 & B2 & B3). eexists. repeat split; eauto.
  - destruct (B k) as (B1 & B2 & B3). eexists. repeat split; eauto.
Qed.

(* One read of at most len bytes from a good state. *)
Lemma read_step n len s s' r c :
  good s c -> s_len s = Known (Some len) -> len <> 0 -> 0 <= n -> n <= len ->
  sock_read v n s = (s', r) ->
  (exists d, r = inl d /\ good (set_len (Known (Some (len - zlen d))) s') (c ++ d))
  \/ (exists e l, r = inr e /\ bad s' (c ++ l)).
Proof.
  intros (A & (B1 & B2) & C) L N0 N1 N2 E.
  rewrite L in *. destruct C as [C1 C2].
  apply sock_read_cases in E as (k & K1 & K2 & K3 & -> & R). specialize (K3 N1).
  assert (T : zlen (take k (s_in s)) = k) by (rewrite zlen_take; lia).
  assert (I : inp = (c ++ take k (s_in s)) ++ drop k (s_in s)).
  { rewrite <- app_assoc. unfold take, drop. rewrite firstn_skipn. exact A. }
  assert (Z : zlen (c ++ take k (s_in s)) = zlen c + k) by (rewrite zlen_app; lia).
  destruct R as [->|[e ->]].
  - left. eexists; split; [reflexivity|]. unfold good, cl_ok. cbn.
    rewrite T, Z. destruct (s_cl s); [discriminate|].
    split; [exact I|]. split; [split; auto|]. lia.
  - right. exists e, (take k (s_in s)). split; auto.
    unfold bad, cl_ok. cbn. rewrite L, Z. split; [exact I|].
    split; [split; auto|]. split; [lia|]. exists len. split; auto. lia.
Qed.

Definition step_ok (s' : st) (c : list byte) (r : list byte + exc) : Prop :=
  (exists d, r = inl d /\ good s' (c ++ d))
  \/ (exists e l, r = inr e /\ bad s' (c ++ l))
  \/ (exists e, r = inr e /\ good s' c /\ s_len s' = Unknown).

Lemma req_read_inv n s s' r c :
  (forall m, n = Some m -> 0 <= m) -> good s c ->
  req_read v h n s = (s', r) -> step_ok s' c r.
Proof.
  intros N G. unfold req_read.
  destruct (req_length v h s) as [s1 r1] eqn:E1.
  apply (rl_inv _ _ _ c) in E1 as (G1 & _ & _ & [(o & -> & L)|(e & -> & L & _)]); auto.
  - destruct o as [len|].
    + destruct (len =? 0) eqn:Z0.
      * intros [= <- <-]. left. exists []. rewrite app_nil_r. auto.
      * apply Z.eqb_neq in Z0.
        assert (0 <= len).
        { destruct G1 as (_ & _ & X). rewrite L in X. lia. }
        match goal with |- context [sock_read v ?x s1] =>
          assert (X : 0 <= x <= len) end.
        { destruct n as [m|]; [|lia]. specialize (N m eq_refl).
          destruct (Z.ltb_spec len m); lia. }
        destruct (sock_read v _ s1) as [s2 [d|e]] eqn:E2; intros [= <- <-];
          (eapply read_step in E2; [|exact G1|exact L|exact Z0|lia|lia]);
          destruct E2 as [(d' & Y & Z)|(e' & c' & Y & Z)]; try discriminate.
        -- injection Y as <-. left. eauto.
        -- injection Y as <-. right; left. eauto.
    + intros [= <- <-]. left. exists []. rewrite app_nil_r. auto.
  - intros [= <- <-]. right; right. eauto.
Qed.

Lemma req_readinto_inv n s s' r c :
  good s c -> req_readinto v h n s = (s', r) -> step_ok s' c r.
Proof.
  intros G. unfold req_readinto.
  destruct (req_length v h s) as [s1 r1] eqn:E1.
  apply (rl_inv _ _ _ c) in E1 as (G1 & _ & _ & [(o & -> & L)|(e & -> & L & _)]); auto.
  - destruct o as [len|].
    + destruct (len =? 0) eqn:Z0.
      * intros [= <- <-]. left. exists []. rewrite app_nil_r. auto.
      * apply Z.eqb_neq in Z0.
        assert (0 <= len).
        { destruct G1 as (_ & _ & X). rewrite L in X. lia. }
        destruct (sock_read v _ s1) as [s2 [d|e]] eqn:E2; intros [= <- <-];
          (eapply read_step in E2; [|exact G1|exact L|exact Z0|lia|lia]);
          destruct E2 as [(d' & Y & Z)|(e' & c' & Y & Z)]; try discriminate.
        -- injection Y as <-. left. eauto.
        -- injection Y as <-. right; left. eauto.
    + intros [= <- <-]. left. exists []. rewrite app_nil_r. auto.
  - intros [= <- <-]. right; right. eauto.
Qed.

(* Calls other than reads. *)
Definition is_read (a : act) : bool :=
  match a with ARead _ | AReadInto _ => true | _ => false end.

Lemma other_act a s s' r c :
  is_read a = false -> run_act v h a s = (s', r) ->
  (good s c -> good s' c) /\ (bad s c -> bad s' c).
Proof.
  intros R E.
  assert (S : same_req s s' \/ exists x, req_content_length v h s = (s', x)).
  { destruct a; try discriminate R; cbn in E.
    - right. unfold res in E. destruct (req_content_length v h s) as [s1 [x|x]];
        injection E as <- <-; eauto.
    - left. unfold res in E. destruct (resp_write v d s) as [s1 [x|x]] eqn:W;
        injection E as <- <-; eapply resp_write_same; eauto.
    - left. unfold res, send_json in E. destruct (s_started s).
      + injection E as <- <-. apply same_refl.
      + destruct (resp_write v body _) as [s1 [x|x]] eqn:W; injection E as <- <-;
          apply resp_write_same in W; exact W.
    - injection E as <- <-. left. repeat split.
    - injection E as <- <-. left. repeat split.
    - injection E as <- <-. left. repeat split. }
  destruct S as [S|[x X]].
  - split; intros; [eapply same_good|eapply same_bad]; eauto.
  - split; intros; eapply rcl_inv in X; [apply (proj1 X)|apply (proj2 X)]; eauto.
Qed.

Lemma run_no_reads p : forall s s' r,
  no_reads p -> run v h p s = (s', r) ->
  forall c, (good s c -> good s' c) /\ (bad s c -> bad s' c).
Proof.
  induction p as [|e|a k IH]; intros s s' r N E c.
  - injection E as <- <-. tauto.
  - injection E as <- <-. tauto.
  - cbn [run] in E. destruct (run_act v h a s) as [s1 x] eqn:E1.
    assert (R : is_read a = false) by (destruct a; cbn in N; tauto).
    assert (N' : no_reads (k x)) by (destruct a; cbn in N; try tauto; apply N).
    specialize (IH _ _ _ _ N' E c).
    pose proof (other_act _ _ _ _ c R E1). tauto.
Qed.

Lemma no_reads_delivered p : forall s, no_reads p -> delivered v h p s = [].
Proof.
  induction p as [|e|a k IH]; intros s N; [reflexivity|reflexivity|].
  cbn [delivered]. destruct (run_act v h a s) as [s1 x].
  assert (N' : no_reads (k x)) by (destruct a; cbn in N; try tauto; apply N).
  rewrite IH by auto. destruct a; cbn in N; tauto.
Qed.

Lemma run_careful p : forall s s' r c,
  careful p -> good s c -> run v h p s = (s', r) ->
  good s' (c ++ delivered v h p s)
  \/ exists c', bad s' (c ++ delivered v h p s ++ c').
Proof.
  induction p as [|e|a k IH]; intros s s' r c W G E.
  - injection E as <- <-. cbn. rewrite app_nil_r. auto.
  - injection E as <- <-. cbn. rewrite app_nil_r. auto.
  - cbn [run delivered] in *. destruct (run_act v h a s) as [s1 x] eqn:E1.
    destruct (is_read a) eqn:R.
    + assert (C : (forall y, careful (k (inl y))) /\ (forall e, no_reads (k (inr e)))
                  /\ exists y, step_ok s1 c y /\ x = match y with
                                                     | inl d => inl (VBytes d)
                                                     | inr e => inr e
                                                     end).
      { destruct a; try discriminate R; cbn in W, E1; unfold res in E1.
        - destruct W as (W1 & W2 & W3). repeat split; auto.
          destruct (req_read v h n s) as [s2 [d|e]] eqn:Q; injection E1 as <- <-;
            eapply req_read_inv in Q; eauto.
        - destruct W as (W2 & W3). repeat split; auto.
          destruct (req_readinto v h size s) as [s2 [d|e]] eqn:Q; injection E1 as <- <-;
            eapply req_readinto_inv in Q; eauto. }
      destruct C as (C1 & C2 & y & [(d & -> & G1)|[(e & c' & -> & B1)|(e & -> & G1 & _)]] & ->).
      * specialize (IH _ _ _ _ _ (C1 _) G1 E).
        destruct a; try discriminate R; rewrite !app_assoc in *;
          (destruct IH as [IH|[c' IH]]; [left|right; exists c']; rewrite ?app_assoc in *; auto).
      * rewrite no_reads_delivered by auto.
        right. exists c'.
        assert (B2 : bad s' (c ++ c')) by (eapply run_no_reads in E; [apply (proj2 E); eauto|auto]).
        destruct a; try discriminate R; cbn; exact B2.
      * rewrite no_reads_delivered by auto.
        left. destruct a; try discriminate R; cbn; rewrite app_nil_r;
          (eapply run_no_reads in E; [apply (proj1 E); eauto|auto]).
    + assert (C : careful (k x)) by (destruct a; try discriminate R; cbn in W; apply W).
      pose proof (proj1 (other_act _ _ _ _ c R E1) G) as G1.
      specialize (IH _ _ _ _ _ C G1 E).
      destruct a; try discriminate R; exact IH.
Qed.

End Body.

(* ---- responses ---- *)

(* Nothing is sent before the response is started. *)
Definition quiet (s : st) : Prop :=
  s_started s = false -> s_out s = [] /\ s_raw s = false.

Lemma wfile_write_spec v ev s s' r :
  wfile_write v ev s = (s', r) ->
  s_close s' = s_close s /\ s_started s' = s_started s /\ s_raw s' = s_raw s
  /\ s_status s' = s_status s /\ s_rlen s' = s_rlen s /\ s_rclose s' = s_rclose s
  /\ (r = inl tt /\ s_out s' = s_out s ++ ev
      \/ exists e, r = inr e /\ s_out s' = s_out s ++ [Broken]).
Proof.
  unfold wfile_write. destruct (e_write v (s_wi s)) as [e|]; intros [= <- <-];
    repeat split; eauto.
Qed.

Lemma resp_write_spec v d s s' r :
  resp_write v d s = (s', r) ->
  (s_raw s = true -> s_started s = true) ->
  s_close s' = s_close s /\ s_started s' = true
  /\ (s_raw s = false -> r = inl tt ->
      s_raw s' = true /\
      s_out s' = s_out s ++ [Head (s_status s) (s_rlen s) (s_rclose s); Data d])
  /\ (s_raw s = true -> r = inl tt -> s_raw s' = true /\ s_out s' = s_out s ++ [Data d])
  /\ (forall e, r = inr e ->
      s_raw s' = s_raw s /\ exists l, s_out s' = s_out s ++ l ++ [Broken] /\
        (l = [] \/ s_raw s = false /\ l = [Head (s_status s) (s_rlen s) (s_rclose s)])).
Proof.
  unfold resp_write. intros E R. destruct (s_raw s) eqn:W.
  - apply wfile_write_spec in E as (A & B & C & _ & _ & _ & [(-> & D)|(e & -> & D)]).
    + rewrite A, B, C, D. specialize (R eq_refl).
      repeat split; auto; try discriminate.
    + rewrite A, B, C, D. specialize (R eq_refl).
      repeat split; auto; try discriminate. exists []. auto.
  - destruct (zlen d <? 4096).
    + destruct (wfile_write v _ (set_started s)) as [s1 r1] eqn:E1.
      apply wfile_write_spec in E1 as (A & B & C & _ & _ & _ & [(-> & D)|(e & -> & D)]);
        injection E as <- <-; cbn in *.
      * rewrite D. repeat split; auto; try discriminate.
      * rewrite D. repeat split; auto; try discriminate; try congruence.
        exists []. auto.
    + destruct (wfile_write v _ (set_started s)) as [s1 r1] eqn:E1.
      apply wfile_write_spec in E1 as (A & B & C & _ & _ & _ & [(-> & D)|(e & -> & D)]).
      * destruct (wfile_write v _ s1) as [s2 r2] eqn:E2.
        apply wfile_write_spec in E2 as (A' & B' & C' & _ & _ & _ & [(-> & D')|(e & -> & D')]);
          injection E as <- <-; cbn in *; rewrite D', D.
        -- rewrite <- app_assoc. repeat split; auto; try discriminate; congruence.
        -- repeat split; auto; try discriminate; try congruence.
           eexists; split; [rewrite <- app_assoc; reflexivity|]. auto.
      * injection E as <- <-; cbn in *; rewrite D.
        repeat split; auto; try discriminate; try congruence. exists []; auto.
Qed.

Definition raw_ok (s : st) : Prop := s_raw s = true -> s_started s = true.

(* One status line until a failure: while the write method is not replaced,
   nothing was sent or a write failed. *)
Definition heads_ok (s : st) : Prop :=
  (status_lines (s_out s) <= 1)%nat /\
  (s_raw s = false -> s_out s = [] \/ In Broken (s_out s)).

Lemma status_lines_broken l m : In Broken l -> status_lines (l ++ m) = status_lines l.
Proof.
  induction l as [|e l IH]; intros H; [destruct H|].
  destruct H as [->|H]; [reflexivity|].
  destruct e; cbn; rewrite ?IH; auto.
Qed.

Lemma status_lines_app l m : ~ In Broken l ->
  status_lines (l ++ m) = (status_lines l + status_lines m)%nat.
Proof.
  induction l as [|e l IH]; intros H; [reflexivity|].
  assert (~ In Broken l) by (intros X; apply H; right; auto).
  destruct e; cbn; rewrite ?IH; auto. exfalso; apply H; left; auto.
Qed.

Lemma in_broken_dec l : In Broken l \/ ~ In Broken l.
Proof.
  induction l as [|e l [H|H]]; [tauto|left; right; auto|].
  destruct e; try (right; intros [X|X]; [discriminate|tauto]). left; left; auto.
Qed.

Lemma resp_write_heads v d s s' r :
  resp_write v d s = (s', r) -> raw_ok s -> heads_ok s -> raw_ok s' /\ heads_ok s'.
Proof.
  intros E R (H1 & H2).
  apply resp_write_spec in E as (_ & S & A & B & C); auto.
  split; [intros _; exact S|].
  destruct (in_broken_dec (s_out s)) as [K|K].
  - (* failed before *)
    assert (P : exists m, s_out s' = s_out s ++ m).
    { destruct r as [[]|e].
      - destruct (s_raw s); [destruct B as [_ B]; auto|destruct A as [_ A]; auto]; eauto.
      - destruct (C e eq_refl) as (_ & l & L & _). eauto. }
    destruct P as [m P]. unfold heads_ok. rewrite P, status_lines_broken by auto.
    split; auto. intros _. right. apply in_or_app; auto.
  - destruct (s_raw s) eqn:W.
    + destruct r as [[]|e].
      * destruct B as [B1 B2]; auto. unfold heads_ok. rewrite B1, B2, status_lines_app by auto.
        cbn. split; [lia|discriminate].
      * destruct (C e eq_refl) as (C1 & l & L & [->|[X _]]); [|discriminate].
        unfold heads_ok. rewrite C1, L, status_lines_app by auto. cbn.
        split; [lia|discriminate].
    + destruct (H2 eq_refl) as [Z|Z]; [|tauto]. rewrite Z in *.
      destruct r as [[]|e].
      * destruct A as [B1 B2]; auto. unfold heads_ok. rewrite B1, B2.
        cbn. split; [lia|discriminate].
      * destruct (C e eq_refl) as (C1 & l & L & [->|[X ->]]);
        unfold heads_ok; rewrite C1, L; cbn; (split; [lia|]); intros _; right; auto.
Qed.

(* The response part of the state. *)
Definition same_resp (s s' : st) : Prop :=
  s_out s' = s_out s /\ s_close s' = s_close s /\ s_started s' = s_started s
  /\ s_raw s' = s_raw s /\ s_rlen s' = s_rlen s /\ s_status s' = s_status s
  /\ s_rclose s' = s_rclose s.

Lemma rcl_resp v h s s' r : req_content_length v h s = (s', r) -> same_resp s s'.
Proof.
  unfold req_content_length. destruct (s_cl s); [|intros [= <- <-]; repeat split].
  destruct (content_length _ _); intros [= <- <-]; repeat split.
Qed.

Lemma rl_resp v h s s' r : req_length v h s = (s', r) -> same_resp s s'.
Proof.
  unfold req_length. destruct (s_len s); [|intros [= <- <-]; repeat split].
  destruct (req_content_length v h s) as [s1 [o|e]] eqn:E; apply rcl_resp in E;
    intros [= <- <-]; exact E.
Qed.

Lemma sock_read_resp v n s s' r : sock_read v n s = (s', r) -> same_resp s s'.
Proof.
  unfold sock_read. destruct (e_read v (s_ri s)); intros [= <- <-]; repeat split.
Qed.

Lemma same_resp_trans a b c : same_resp a b -> same_resp b c -> same_resp a c.
Proof. unfold same_resp; intuition congruence. Qed.

Lemma req_read_resp v h n s s' r : req_read v h n s = (s', r) -> same_resp s s'.
Proof.
  unfold req_read. destruct (req_length v h s) as [s1 [[len|]|e]] eqn:E;
    apply rl_resp in E; try (intros [= <- <-]; exact E).
  destruct (len =? 0); [intros [= <- <-]; exact E|].
  destruct (sock_read v _ s1) as [s2 [d|e]] eqn:E2; apply sock_read_resp in E2;
    intros [= <- <-]; eapply same_resp_trans; eauto.
Qed.

Lemma req_readinto_resp v h n s s' r : req_readinto v h n s = (s', r) -> same_resp s s'.
Proof.
  unfold req_readinto. destruct (req_length v h s) as [s1 [[len|]|e]] eqn:E;
    apply rl_resp in E; try (intros [= <- <-]; exact E).
  destruct (len =? 0); [intros [= <- <-]; exact E|].
  destruct (sock_read v _ s1) as [s2 [d|e]] eqn:E2; apply sock_read_resp in E2;
    intros [= <- <-]; eapply same_resp_trans; eauto.
Qed.

Lemma send_json_inv v b s s' r :
  send_json v b s = (s', r) ->
  raw_ok s -> heads_ok s -> quiet s -> raw_ok s' /\ heads_ok s' /\ quiet s'.
Proof.
  unfold send_json. destruct (s_started s) eqn:S.
  - intros [= <- <-]. auto.
  - intros E R H Q. pose proof E as E'.
    apply resp_write_heads in E'; [|exact R|exact H].
    apply resp_write_spec in E; [|exact R]. destruct E as (_ & X & _).
    split; [tauto|]. split; [tauto|]. intros Y. congruence.
Qed.

Lemma run_act_inv v h a s s' r :
  run_act v h a s = (s', r) ->
  raw_ok s -> heads_ok s -> quiet s -> raw_ok s' /\ heads_ok s' /\ quiet s'.
Proof.
  intros E R H Q.
  assert (X : same_resp s s' -> raw_ok s' /\ heads_ok s' /\ quiet s').
  { intros (A & B & C & D & F & G & I). unfold raw_ok, heads_ok, quiet in *.
    rewrite A, C, D. auto. }
  destruct a; cbn in E; unfold res in E.
  - destruct (req_read v h n s) as [s1 [x|x]] eqn:W; injection E as <- <-;
      apply req_read_resp in W; auto.
  - destruct (req_readinto v h size s) as [s1 [x|x]] eqn:W; injection E as <- <-;
      apply req_readinto_resp in W; auto.
  - destruct (req_content_length v h s) as [s1 [x|x]] eqn:W; injection E as <- <-;
      apply rcl_resp in W; auto.
  - destruct (resp_write v d s) as [s1 x] eqn:W.
    assert (s' = s1) by (destruct x; injection E as <- _; auto). subst s1.
    pose proof W as W'. apply resp_write_heads in W'; auto.
    apply resp_write_spec in W; auto. destruct W as (_ & Y & _).
    split; [tauto|]. split; [tauto|]. intros Z. congruence.
  - destruct (send_json v body s) as [s1 x] eqn:W.
    assert (s' = s1) by (destruct x; injection E as <- _; auto). subst s1.
    eapply send_json_inv; eauto.
  - injection E as <- <-. auto.
  - injection E as <- <-. auto.
  - injection E as <- <-. auto.
Qed.

Lemma run_inv v h p : forall s s' r,
  run v h p s = (s', r) ->
  raw_ok s -> heads_ok s -> quiet s -> raw_ok s' /\ heads_ok s' /\ quiet s'.
Proof.
  induction p as [|e|a k IH]; intros s s' r E R H Q.
  - injection E as <- <-; auto.
  - injection E as <- <-; auto.
  - cbn [run] in E. destruct (run_act v h a s) as [s1 x] eqn:E1.
    apply run_act_inv in E1; auto. destruct E1 as (R1 & H1 & Q1). eauto.
Qed.

Lemma start_inv k h rest :
  raw_ok (start k h rest) /\ heads_ok (start k h rest) /\ quiet (start k h rest).
Proof.
  unfold raw_ok, heads_ok, quiet, start; cbn. repeat split; auto; discriminate.
Qed.

Lemma start_good v h k inp : good v h inp (start k h inp) [].
Proof. unfold good, cl_ok; cbn. auto. Qed.

(* ---- Router ---- *)

Lemma on_error_started v h e s s' r :
  on_error v h e s = (s', r) -> s_started s = true ->
  r = inl tt /\ s_close s' = true /\ s_out s' = s_out s /\ s_in s' = s_in s.
Proof.
  unfold on_error. intros E S. destruct (is_socket_error e).
  - destruct (e_lost v (s_li s)); cbn [s_started next_lost] in E.
    + injection E as <- <-. repeat split.
    + rewrite S in E. injection E as <- <-. repeat split.
  - rewrite S in E. injection E as <- <-. repeat split.
Qed.

(* Error response when nothing was sent yet. *)
Lemma on_error_fresh v h e s s' r :
  on_error v h e s = (s', r) -> s_started s = false -> s_out s = [] -> s_raw s = false ->
  (* client gone *)
  (r = inl tt /\ s_close s' = true /\ s_out s' = [] /\ is_socket_error e = true)
  \/ (exists s1 len,
        (s1 = s \/ s1 = next_lost s) /\
        req_length v h s1 = (fst (req_length v h s1), inl len) /\
        s_in s' = s_in (fst (req_length v h s1)) /\
        s_close s' = (s_close s || match len with Some n => 0 <? n | None => false end) /\
        ((r = inl tt /\ exists cl,
            s_out s' = [Head (match e with EHttp c => c | _ => 500 end)
                          (zlen (error_body e)) cl; Data (error_body e)])
         \/ (exists x, r = inr x) /\ In Broken (s_out s')))
  \/ (exists x, r = inr x /\ s_out s' = [] /\ exists s1,
        (s1 = s \/ s1 = next_lost s) /\ req_length v h s1 = (s', inr x)).
Proof.
  unfold on_error. intros E S O W.
  assert (X : exists s1 lost, (s1 = s \/ s1 = next_lost s) /\
             (if is_socket_error e then (next_lost s, e_lost v (s_li s)) else (s, false))
             = (s1, lost) /\ (lost = true -> is_socket_error e = true)).
  { destruct (is_socket_error e).
    - exists (next_lost s), (e_lost v (s_li s)). auto.
    - exists s, false. repeat split; auto. }
  destruct X as (s1 & lost & D & X & L). rewrite X in E.
  assert (F : s_started s1 = false /\ s_out s1 = [] /\ s_raw s1 = false
              /\ s_close s1 = s_close s).
  { destruct D as [->| ->]; cbn; auto. }
  destruct F as (F1 & F2 & F3 & F4).
  destruct lost.
  { injection E as <- <-. left. cbn. rewrite F2. auto. }
  rewrite F1 in E. right.
  destruct (req_length v h s1) as [s2 [len|x]] eqn:E2.
  2:{ injection E as <- <-. right. exists x. split; auto.
      pose proof (rl_resp _ _ _ _ _ E2) as (A & _). split; [congruence|].
      exists s1. auto. }
  left. exists s1, len. rewrite E2. cbn [fst]. split; auto. split; auto.
  pose proof (rl_resp _ _ _ _ _ E2) as (A & B & C & G & _).
  set (s3 := match len with
             | Some n => if 0 <? n then close_connection s2 else s2
             | None => s2
             end) in *.
  assert (K : s_started s3 = false /\ s_out s3 = [] /\ s_raw s3 = false /\ s_in s3 = s_in s2
              /\ s_close s3 = (s_close s || match len with Some n => 0 <? n | None => false end)).
  { unfold s3. destruct len as [n|]; [destruct (0 <? n)|]; cbn;
      repeat split; try congruence; rewrite ?B, ?F4;
      rewrite ?orb_true_r, ?orb_false_r; reflexivity. }
  destruct K as (K1 & K2 & K3 & K4 & K5). clearbody s3.
  unfold send_error in E. rewrite K1 in E.
  pose proof (resp_write_same v h _ _ _ _ E) as (M & _).
  apply resp_write_spec in E; [|cbn; congruence].
  destruct E as (N1 & N2 & N3 & N4 & N5). cbn in M, N1, N3, N5.
  split; [congruence|]. split; [congruence|].
  destruct r as [[]|x].
  - left. split; auto. destruct N3 as [_ N3]; auto. rewrite K2 in N3. eexists. exact N3.
  - right. split; eauto. destruct (N5 x eq_refl) as (_ & l & -> & _).
    rewrite K2. cbn. apply in_or_app; right; left; auto.
Qed.

(* ---- one request ---- *)

Lemma declares_cl v h n :
  declares (e_limit v) (h_length h) n ->
  cl_value v h = n /\
  (content_length (e_limit v) (h_length h) = inl None -> n = 0) /\
  (forall e, content_length (e_limit v) (h_length h) <> inr e).
Proof.
  unfold cl_value. intros D. inversion D as [X|x m E X].
  - cbn. repeat split; auto; discriminate.
  - rewrite E. repeat split; auto; discriminate.
Qed.

Lemma app_len_eq {A} (a b c d : list A) :
  a ++ b = c ++ d -> zlen a = zlen c -> a = c /\ b = d.
Proof.
  revert c; induction a as [|x a IH]; intros c E L.
  - symmetry in L. apply zlen_0 in L. subst. auto.
  - destruct c as [|y c]; [rewrite zlen_nil, zlen_cons in L; pose proof (zlen_nonneg a); lia|].
    injection E as <- E. rewrite !zlen_cons in L.
    destruct (IH c E); [lia|]. subst. auto.
Qed.

Lemma good_all_read v h n body rest s c :
  declares (e_limit v) (h_length h) n -> zlen body = n ->
  good v h (body ++ rest) s c -> all_read n s -> s_in s = rest.
Proof.
  intros D B (A & _ & C) R. apply declares_cl in D as (D & _ & _).
  unfold all_read in R. rewrite D in C.
  assert (zlen c = n).
  { destruct (s_len s) as [|[m|]]; [subst c; rewrite zlen_nil; lia|lia|subst c; rewrite zlen_nil; lia]. }
  apply app_len_eq in A as [_ A]; [congruence|lia].
Qed.

Lemma on_error_heads v h e s s' r :
  on_error v h e s = (s', r) -> raw_ok s -> heads_ok s -> raw_ok s' /\ heads_ok s'.
Proof.
  unfold on_error. intros E R H.
  assert (X : exists s1 lost,
             (if is_socket_error e then (next_lost s, e_lost v (s_li s)) else (s, false))
             = (s1, lost) /\ raw_ok s1 /\ heads_ok s1).
  { destruct (is_socket_error e); do 2 eexists; (split; [reflexivity|]); split; auto. }
  destruct X as (s1 & lost & X & R1 & H1). rewrite X in E. clear X.
  destruct lost; [injection E as <- <-; split; auto|].
  destruct (s_started s1) eqn:S; [injection E as <- <-; split; auto|].
  destruct (req_length v h s1) as [s2 [len|x]] eqn:E2;
    pose proof (rl_resp _ _ _ _ _ E2) as (A & B & C & G & _);
    (assert (R2 : raw_ok s2) by (unfold raw_ok in *; rewrite C, G; auto));
    (assert (H2 : heads_ok s2) by (unfold heads_ok in *; rewrite A, G; auto)).
  - unfold send_error in E.
    match type of E with (if s_started ?x then _ else _) = _ =>
      remember x as s3 eqn:E3 end.
    assert (R3 : raw_ok s3 /\ heads_ok s3).
    { subst s3. destruct len as [n|]; [destruct (0 <? n)|]; split; auto. }
    destruct (s_started s3); [injection E as <- <-; tauto|].
    apply resp_write_heads in E; [tauto|apply R3|apply R3].
  - injection E as <- <-. auto.
Qed.

Lemma router_heads v h p k rest s r :
  router v h p (start k h rest) = (s, r) -> (status_lines (s_out s) <= 1)%nat.
Proof.
  unfold router. destruct (run v h p (start k h rest)) as [s1 r1] eqn:E1.
  destruct (start_inv k h rest) as (R0 & H0 & Q0).
  destruct (run_inv _ _ _ _ _ _ E1 R0 H0 Q0) as (R1 & H1 & Q1).
  destruct r1 as [u|e].
  - destruct (s_started s1); [intros [= <- <-]; apply H1|].
    destruct (resp_write v [] s1) as [s2 [u'|e]] eqn:E2;
      apply resp_write_heads in E2 as (R2 & H2); auto.
    + intros [= <- <-]. apply H2.
    + intros E. apply on_error_heads in E; auto. apply E.
  - intros E. apply on_error_heads in E; auto. apply E.
Qed.

Lemma handle_one_sync_on v parse app k h body rest n k' x :
  parse (k_in k) = PRequest h (body ++ rest) ->
  declares (e_limit v) (h_length h) n -> zlen body = n ->
  careful (app h) ->
  (forall s, run v h (app h) (start k h (body ++ rest)) = (s, inl tt) ->
     all_read n s /\ (if s_started s then one_response (s_out s) else s_rlen s = 0)) ->
  handle_one v parse app k = (k', x) ->
  exists evs, x = Some (h, evs) /\
    (k_closed k' = false -> k_in k' = rest /\ one_response evs) /\
    (status_lines evs <= 1)%nat.
Proof.
  intros P D B W Q E. unfold handle_one in E. rewrite P in E.
  destruct (router v h (app h) (start k h (body ++ rest))) as [s r] eqn:ER.
  injection E as <- <-. exists (s_out s). split; auto. cbn [k_in k_closed].
  split; [|eapply router_heads; eauto].
  pose proof (declares_cl _ _ _ D) as (D1 & D2 & D3).
  unfold router in ER.
  destruct (run v h (app h) (start k h (body ++ rest))) as [s1 r1] eqn:E1.
  destruct (start_inv k h (body ++ rest)) as (R0 & H0 & Q0).
  destruct (run_inv _ _ _ _ _ _ E1 R0 H0 Q0) as (R1 & H1 & Q1).
  assert (G1 : exists c, good v h (body ++ rest) s1 c \/ bad v h (body ++ rest) s1 c).
  { pose proof (run_careful v h (body ++ rest) _ _ _ _ [] W (start_good _ _ _ _) E1) as G1.
    destruct G1 as [G1|[c' G1]]; eauto. }
  destruct G1 as [c G1].
  destruct r1 as [[]|e].
  - (* the handler returned *)
    destruct (Q s1 eq_refl) as [AR SR].
    assert (I1 : s_in s1 = rest).
    { destruct G1 as [G1|(_ & _ & _ & m & M & M')].
      - eapply good_all_read; eauto.
      - unfold all_read in AR. rewrite M in AR. lia. }
    destruct (s_started s1) eqn:S1.
    + injection ER as <- <-. auto.
    + destruct (Q1 S1) as [O1 W1].
      destruct (resp_write v [] s1) as [s2 [[]|e]] eqn:E2;
        pose proof (resp_write_same v h _ _ _ _ E2) as (I2 & _);
        apply resp_write_spec in E2 as (C2 & S2 & A2 & _); auto.
      * injection ER as <- <-. intros _. split; [congruence|].
        destruct A2 as [_ A2]; auto. rewrite A2, O1, SR. cbn.
        do 4 eexists. split; [reflexivity|]. split; [repeat constructor|]. reflexivity.
      * apply on_error_started in ER as (-> & C & _); auto. rewrite C. discriminate.
  - destruct (s_started s1) eqn:S1.
    + apply on_error_started in ER as (-> & C & _); auto. rewrite C. discriminate.
    + destruct (Q1 S1) as [O1 W1].
      apply on_error_fresh in ER; auto.
      destruct ER as [(-> & C & _)|[(s2 & len & S2 & E2 & I2 & C2 & F)|(y & -> & _)]];
        [rewrite C; discriminate| |discriminate].
      destruct F as [(-> & cl & O')|((y & ->) & _)]; [|discriminate].
      intros C. rewrite C2 in C. apply orb_false_elim in C as [_ Z].
      destruct (req_length v h s2) as [s3 r3] eqn:E3. cbn [fst] in *. injection E2 as ->.
      split.
      * rewrite I2.
        assert (G' : good v h (body ++ rest) s2 c \/ bad v h (body ++ rest) s2 c).
        { destruct S2 as [->| ->]; [exact G1|].
          destruct G1 as [G|G]; [left|right]; exact G. }
        destruct G' as [G'|G'].
        -- eapply rl_inv in E3 as (G3 & _ & _ & [(o & [= <-] & L)|(z & Y & _)]); eauto;
             [|discriminate].
           eapply good_all_read; [exact D|exact B|exact G3|].
           unfold all_read. rewrite L. destruct len as [m|].
           ++ destruct G3 as (_ & _ & G3). rewrite L in G3. apply Z.ltb_ge in Z. lia.
           ++ destruct G3 as (_ & (_ & G3) & _). rewrite L in G3.
              destruct G3 as [G3|[z G3]]; [auto|]. exfalso. eapply D3; eauto.
        -- eapply rl_bad in E3 as (-> & m & M & [= ->]); eauto.
           apply Z.ltb_ge in Z. lia.
      * rewrite O'. do 4 eexists. split; [reflexivity|]. split; [repeat constructor|].
        cbn. reflexivity.
Qed.

Lemma handle_one_sync v parse app k h body rest n k' x :
  parse (k_in k) = PRequest h (body ++ rest) ->
  declares (e_limit v) (h_length h) n -> zlen body = n ->
  does_its_part v h n (app h) ->
  handle_one v parse app k = (k', x) ->
  exists evs, x = Some (h, evs) /\
    (k_closed k' = false -> k_in k' = rest /\ one_response evs) /\
    (status_lines evs <= 1)%nat.
Proof.
  intros P D B (W & Q) E. eapply handle_one_sync_on; eauto.
  intros s R. eapply Q; [|exact R]. rewrite zlen_app. pose proof (zlen_nonneg rest). lia.
Qed.

(* ---- the connection ---- *)

Lemma serve_sync v parse app reqs : forall tail n k k' out,
  (forall q, In q reqs -> parses parse q /\ declares (e_limit v) (h_length (q_head q)) (zlen (q_body q))
     /\ does_its_part v (q_head q) (zlen (q_body q)) (app (q_head q))) ->
  (n <= List.length reqs)%nat ->
  k_in k = stream reqs ++ tail -> k_closed k = false ->
  serve n v parse app k = (k', out) ->
  map fst out = map q_head (firstn (List.length out) reqs) /\
  Forall (fun x => (status_lines (snd x) <= 1)%nat) out /\
  (forall i x, nth_error out i = Some x -> (S i < List.length out)%nat \/ k_closed k' = false ->
               one_response (snd x)) /\
  (k_closed k' = false -> List.length out = n /\ k_in k' = stream (skipn n reqs) ++ tail).
Proof.
  induction reqs as [|q reqs IH]; intros tail n k k' out HQ N KI KC E.
  - assert (n = O) by (cbn in N; lia). subst n. injection E as <- <-.
    repeat split; auto. intros i x X; destruct i; discriminate.
  - destruct n as [|n].
    { injection E as <- <-. repeat split; auto. intros i x X; destruct i; discriminate. }
    cbn [serve] in E. rewrite KC in E.
    destruct (HQ q (or_introl eq_refl)) as (P & D & W).
    assert (P' : parse (k_in k) = PRequest (q_head q) (q_body q ++ stream reqs ++ tail)).
    { rewrite KI. cbn [stream flat_map]. rewrite <- !app_assoc. apply P. }
    destruct (handle_one v parse app k) as [k1 x] eqn:E1.
    destruct (handle_one_sync _ _ _ _ _ _ _ _ _ _ P' D eq_refl W E1)
      as (evs & -> & SY & HD).
    destruct (serve n v parse app k1) as [k2 l] eqn:E2. injection E as <- <-.
    destruct (k_closed k1) eqn:C1.
    + assert (X : k2 = k1 /\ l = []).
      { destruct n; cbn in E2; [|rewrite C1 in E2]; injection E2 as <- <-; auto. }
      destruct X as [-> ->]. split; [reflexivity|].
      split; [constructor; auto|]. split; [|rewrite C1; discriminate].
      intros i x X [Y|Y]; [cbn in Y; lia|congruence].
    + destruct (SY eq_refl) as [I1 O1].
      destruct (IH tail n k1 k2 l) as (A1 & A2 & A3 & A4); auto.
      { intros q' Hq. apply HQ. right; auto. }
      { cbn in N; lia. }
      split; [cbn; f_equal; exact A1|]. split; [constructor; auto|].
      split; [|intros C2; cbn [List.length skipn]; destruct (A4 C2) as [<- ->]; auto].
      * intros i x X Y. destruct i as [|i].
        -- injection X as <-. exact O1.
        -- apply (A3 i x X). destruct Y as [Y|Y]; [left; cbn in Y; lia|auto].
Qed.

(* ---- routing ---- *)

Lemma str_eqb_eq a b : str_eqb a b = true <-> a = b.
Proof.
  revert b; induction a as [|c a IH]; intros [|d b]; cbn; try (split; congruence).
  rewrite andb_true_iff, IH. destruct (Ascii.eqb_spec c d).
  - subst. split; [intros [_ ->]; reflexivity|intros [= ->]; auto].
  - split; [intros [X _]; discriminate|intros [= X _]; tauto].
Qed.

Lemma existsb_str x l : existsb (str_eqb x) l = true <-> In x l.
Proof.
  rewrite existsb_exists. split.
  - intros (y & H & E). apply str_eqb_eq in E. subst; auto.
  - intros H. exists x. split; auto. apply str_eqb_eq; auto.
Qed.

Lemma existsb_str_false x l : existsb (str_eqb x) l = false <-> ~ In x l.
Proof.
  rewrite <- existsb_str. destruct (existsb _ _); split; congruence || tauto.
Qed.

Lemma dispatch_routes_first l code h :
  dispatch_routes (service_routes l code) h =
  match first_route l (h_path h) with
  | None => Raise (EHttp 404)
  | Some (x, g) =>
      if existsb (str_eqb (lower (h_method h))) (methods x)
      then code x (lower (h_method h)) g else Raise (EHttp 405)
  end.
Proof.
  induction l as [|[p x] l IH]; [reflexivity|].
  cbn [service_routes map dispatch_routes first_route rt_match rt_method fst snd].
  destruct (pat_match p (h_path h)).
  - destruct (existsb _ _); reflexivity.
  - exact IH.
Qed.

Lemma group_then_plain suf id u :
  plain id ->
  group_then ("/"%char :: suf) (id ++ u) =
  match group_then ("/"%char :: suf) u with Some g => Some (id ++ g) | None => None end.
Proof.
  induction 1 as [|c id [C1 C2] H IH]; cbn [app].
  - destruct (group_then _ u); reflexivity.
  - cbn [group_then]. destruct (Ascii.eqb_spec c newline) as [->|_]; [tauto|].
    rewrite IH. destruct (group_then _ u); [reflexivity|].
    cbn [skip_prefix]. destruct (Ascii.eqb_spec "/"%char c) as [<-|_]; [tauto|]. reflexivity.
Qed.

Lemma group_then_all s :
  Forall (fun c => c <> newline) s -> group_then [] s = Some s.
Proof.
  induction 1 as [|c s C H IH]; [reflexivity|].
  cbn [group_then]. destruct (Ascii.eqb_spec c newline) as [->|_]; [tauto|].
  rewrite IH. reflexivity.
Qed.

Lemma skip_prefix_app p s : skip_prefix p (p ++ s) = Some s.
Proof. apply skip_prefix_spec. reflexivity. Qed.

Lemma plain_group suf id u :
  plain id ->
  pat_match (PGroup (lits "/images/") ("/"%char :: suf)) (lits "/images/" ++ id ++ u) =
  match group_then ("/"%char :: suf) u with Some g => Some [id ++ g] | None => None end.
Proof.
  intros H. cbn [pat_match]. rewrite skip_prefix_app, group_then_plain by auto.
  destruct (group_then _ u); reflexivity.
Qed.

Lemma plain_images id :
  plain id -> pat_match (PGroup (lits "/images/") []) (lits "/images/" ++ id) = Some [id].
Proof.
  intros H. cbn [pat_match]. rewrite skip_prefix_app, group_then_all; [reflexivity|].
  eapply Forall_impl; [|exact H]. intros c [_ C]; exact C.
Qed.

Definition image_routes (l : list (pattern * service_handler)) : Prop :=
  exists m, l = local_routes ++ m.

Lemma route_image l id : image_routes l -> plain id ->
  first_route l (lits "/images/" ++ id) = Some (HImages, [id]).
Proof.
  intros [m ->] H. cbn [local_routes app first_route].
  pose proof (plain_images id H) as I.
  pose proof (fun suf => plain_group suf id [] H) as P.
  rewrite app_nil_r in P.
  change (lits "/extents") with ("/"%char :: lits "extents").
  change (lits "/checksum/algorithms") with ("/"%char :: lits "checksum/algorithms").
  change (lits "/checksum") with ("/"%char :: lits "checksum").
  rewrite !P, I. reflexivity.
Qed.

Lemma route_sub l id u x : image_routes l -> plain id ->
  first_route l (lits "/images/" ++ u) = Some (x, [[]]) ->
  u = lits "/extents" \/ u = lits "/checksum" \/ u = lits "/checksum/algorithms" ->
  first_route l (lits "/images/" ++ id ++ u) = Some (x, [id]).
Proof.
  intros [m ->] H E U. cbn [local_routes app first_route] in *.
  pose proof (fun suf => plain_group suf id u H) as P.
  change (lits "/extents") with ("/"%char :: lits "extents") in *.
  change (lits "/checksum/algorithms") with ("/"%char :: lits "checksum/algorithms") in *.
  change (lits "/checksum") with ("/"%char :: lits "checksum") in *.
  rewrite !P. clear P.
  destruct U as [->|[->| ->]]; vm_compute in E; injection E as <-; cbn;
    rewrite app_nil_r; reflexivity.
Qed.

(* ---- delivery without failed reads ---- *)

Lemma sock_read_got v n s s' r :
  (forall i, exists m, e_read v i = RGot m) -> sock_read v n s = (s', r) ->
  exists d, r = inl d /\ s_in s = d ++ s_in s'.
Proof.
  intros F. unfold sock_read. destruct (F (s_ri s)) as [m ->].
  intros [= <- <-]. eexists. split; [reflexivity|]. cbn.
  unfold take, drop. rewrite firstn_skipn. reflexivity.
Qed.

Lemma rl_in v h s s' r : req_length v h s = (s', r) -> s_in s' = s_in s.
Proof.
  unfold req_length, req_content_length. destruct (s_len s); [|intros [= <- <-]; auto].
  destruct (s_cl s); [|intros [= <- <-]; auto].
  destruct (content_length _ _); intros [= <- <-]; auto.
Qed.

Lemma run_act_delivered v h a s s' r :
  (forall i, exists m, e_read v i = RGot m) -> run_act v h a s = (s', r) ->
  s_in s = match a, r with
           | ARead _, inl (VBytes d) | AReadInto _, inl (VBytes d) => d
           | _, _ => []
           end ++ s_in s'.
Proof.
  intros F E. destruct a; cbn in E; unfold res in E.
  - unfold req_read in E. destruct (req_length v h s) as [s1 [[len|]|e]] eqn:E1;
      apply rl_in in E1; try (injection E as <- <-; auto; fail).
    destruct (len =? 0); [injection E as <- <-; auto|].
    destruct (sock_read v _ s1) as [s2 [d|e]] eqn:E2;
      apply sock_read_got in E2 as (d' & X & Y); auto; try discriminate.
    injection X as <-. injection E as <- <-. cbn. congruence.
  - unfold req_readinto in E. destruct (req_length v h s) as [s1 [[len|]|e]] eqn:E1;
      apply rl_in in E1; try (injection E as <- <-; auto; fail).
    destruct (len =? 0); [injection E as <- <-; auto|].
    destruct (sock_read v _ s1) as [s2 [d|e]] eqn:E2;
      apply sock_read_got in E2 as (d' & X & Y); auto; try discriminate.
    injection X as <-. injection E as <- <-. cbn. congruence.
  - unfold req_content_length in E.
    destruct (s_cl s); [destruct (content_length _ _)|]; injection E as <- <-; auto.
  - destruct (resp_write v d s) as [s1 [x|x]] eqn:W; injection E as <- <-;
      apply (resp_write_same v h) in W as [-> _]; auto.
  - unfold send_json in E. destruct (s_started s); [injection E as <- <-; auto|].
    destruct (resp_write v body _) as [s1 [x|x]] eqn:W; injection E as <- <-;
      apply (resp_write_same v h) in W as [-> _]; auto.
  - injection E as <- <-; auto.
  - injection E as <- <-; auto.
  - injection E as <- <-; auto.
Qed.

Lemma run_delivered v h p : forall s s' r,
  (forall i, exists m, e_read v i = RGot m) -> run v h p s = (s', r) ->
  s_in s = delivered v h p s ++ s_in s'.
Proof.
  induction p as [|e|a k IH]; intros s s' r F E.
  - injection E as <- <-; auto.
  - injection E as <- <-; auto.
  - cbn [run delivered] in *. destruct (run_act v h a s) as [s1 x] eqn:E1.
    apply run_act_delivered in E1; auto. rewrite <- app_assoc, <- (IH _ _ _ _ F E).
    exact E1.
Qed.

(* ---- handlers ---- *)

Lemma rl_known v h s s' r n :
  req_length v h s = (s', r) ->
  s_len s = Known (Some n) \/ s_len s = Unknown /\ s_cl s = Known (Some n) ->
  r = inl (Some n) /\ s_len s' = Known (Some n) /\ s_cl s' = s_cl s.
Proof.
  unfold req_length, req_content_length. intros E [L|[L C]]; rewrite L in E.
  - injection E as <- <-. auto.
  - rewrite C in E. injection E as <- <-. cbn. auto.
Qed.

Lemma put_body_ok v h : forall fuel buflen todo s s' r,
  0 <= todo ->
  s_len s = Known (Some todo) \/ s_len s = Unknown /\ s_cl s = Known (Some todo) ->
  run v h (put_body fuel buflen todo) s = (s', r) ->
  same_resp s s' /\
  (r = inl tt -> s_len s' = Known (Some 0) \/ todo = 0 /\ s' = s).
Proof.
  induction fuel as [|fuel IH]; intros buflen todo s s' r T L E.
  - injection E as <- <-. split; [repeat split|discriminate].
  - cbn [put_body] in E. destruct (Z.eqb_spec todo 0) as [->|N].
    + injection E as <- <-. split; [repeat split|]. intros _. tauto.
    + cbn [run run_act] in E. unfold res in E.
      destruct (req_readinto v h (Z.min todo buflen) s) as [s1 r1] eqn:E1.
      pose proof (req_readinto_resp _ _ _ _ _ _ E1) as S1.
      unfold req_readinto in E1.
      destruct (req_length v h s) as [s0 r0] eqn:E0.
      apply (rl_known _ _ _ _ _ todo) in E0 as (-> & L0 & C0); auto.
      rewrite (proj2 (Z.eqb_neq todo 0)) in E1 by auto.
      destruct (sock_read v _ s0) as [s2 [d|e]] eqn:E2; injection E1 as <- <-.
      * destruct (zlen d =? 0) eqn:Zd.
        { injection E as <- <-. split; auto. discriminate. }
        assert (D : zlen d <= todo).
        { unfold sock_read, available, clampz in E2.
          destruct (e_read v (s_ri s0)) as [q|q x]; [|discriminate].
          injection E2 as <- <-. rewrite zlen_take. cbn [s_in next_read].
          pose proof (zlen_nonneg (s_in s0)).
          destruct (Z.ltb_spec (Z.max 0 (Z.min (Z.min todo buflen) todo)) 0); lia. }
        eapply IH in E as (S2 & X); [|lia|left; reflexivity].
        split; [eapply same_resp_trans; eauto|].
        intros R. destruct (X R) as [Y|[Y ->]]; auto.
        left. cbn. rewrite Y. reflexivity.
      * injection E as <- <-. split; auto. discriminate.
Qed.

Lemma careful_put_body fuel : forall buflen todo, careful (put_body fuel buflen todo).
Proof.
  induction fuel as [|fuel IH]; intros; cbn; auto.
  destruct (todo =? 0); cbn; auto. split.
  - intros [|d|o]; cbn; auto. destruct (zlen d =? 0); cbn; auto.
  - intros e. exact I.
Qed.

Lemma put_request_part v h n fuel buflen :
  declares (e_limit v) (h_length h) n -> does_its_part v h n (put_request fuel buflen).
Proof.
  intros D. split.
  { cbn. intros [[|d|[m|]]|e]; cbn; auto. apply careful_put_body. }
  intros k rest s _ E. unfold put_request in E. cbn [run run_act] in E. unfold res in E.
  destruct (req_content_length v h (start k h rest)) as [s1 [o|e]] eqn:E1; [|discriminate].
  destruct o as [m|]; [|discriminate].
  unfold req_content_length in E1. cbn [s_cl start] in E1.
  destruct (content_length _ _) as [o|x] eqn:C; [|discriminate].
  injection E1 as <- ->.
  assert (M : m = n).
  { apply declares_cl in D as (D & _). unfold cl_value in D. rewrite C in D. auto. }
  subst m.
  assert (0 <= n) by (eapply content_length_nonneg; exact C).
  apply put_body_ok in E as ((O & _ & S & _ & R & _) & X); auto.
  split.
  - unfold all_read. destruct (X eq_refl) as [->|[-> ->]]; reflexivity.
  - rewrite S, R. reflexivity.
Qed.

(* Handlers not reading the body do their part only when there is none. *)
Lemma json_answer_part v h b : zlen b < 4096 -> does_its_part v h 0 (json_answer b).
Proof.
  intros L. split.
  { cbn. intros [x|e]; exact I. }
  intros k rest s _ E. unfold json_answer in E. cbn [run run_act] in E. unfold res in E.
  destruct (send_json v b (start k h rest)) as [s1 [u|e]] eqn:E1; [|discriminate].
  injection E as <-. unfold send_json in E1. cbn [s_started start] in E1.
  pose proof (resp_write_same v h _ _ _ _ E1) as (_ & _ & Y & _).
  apply resp_write_spec in E1 as (_ & S & A & _); [|discriminate].
  destruct A as [_ A]; [reflexivity|destruct u; reflexivity|].
  split.
  - unfold all_read. rewrite Y. reflexivity.
  - rewrite S, A. cbn. do 4 eexists. split; [reflexivity|].
    split; [repeat constructor|]. cbn. rewrite app_nil_r. reflexivity.
Qed.

Lemma delete_part v h : does_its_part v h 0 delete_answer.
Proof.
  split; [cbn; intros [x|e]; exact I|].
  intros k rest s _ E. injection E as <-. split; reflexivity.
Qed.

Lemma get_answer_part v h d : does_its_part v h 0 (get_answer d).
Proof.
  split.
  { cbn. intros [x|e]; cbn; auto. intros [y|e]; exact I. }
  intros k rest s _ E. unfold get_answer in E. cbn [run run_act rethrow] in E. unfold res in E.
  match type of E with context [resp_write v d ?x] =>
    destruct (resp_write v d x) as [s1 [u|e]] eqn:E1; [|discriminate] end.
  injection E as <-.
  pose proof (resp_write_same v h _ _ _ _ E1) as (_ & _ & Y & _).
  apply resp_write_spec in E1 as (_ & S & A & _); [|discriminate].
  destruct A as [_ A]; [reflexivity|destruct u; reflexivity|].
  split.
  - unfold all_read. rewrite Y. reflexivity.
  - rewrite S, A. cbn. do 4 eexists. split; [reflexivity|].
    split; [repeat constructor|]. cbn. rewrite app_nil_r. reflexivity.
Qed.

Lemma json_request_part v h n check :
  declares (e_limit v) (h_length h) n ->
  (forall i m, e_read v i = RGot m -> n <= m) ->
  does_its_part v h n (json_request check).
Proof.
  intros D F. split.
  { cbn. split; [discriminate|]. split; [|auto].
    intros [|d|o]; cbn; auto. destruct (check d); exact I. }
  intros k rest s N E. unfold json_request in E. cbn [run run_act] in E. unfold res in E.
  destruct (req_read v h None (start k h rest)) as [s1 [d|e]] eqn:E1; [|discriminate].
  assert (s = s1) by (destruct (check d); [discriminate|injection E as <-; reflexivity]).
  subst s1. clear E.
  pose proof (req_read_resp _ _ _ _ _ _ E1) as (O & _ & S & _ & R & _).
  rewrite S, R. split; [|reflexivity].
  unfold req_read, req_length, req_content_length in E1. cbn [s_len s_cl start] in E1.
  unfold all_read.
  inversion D as [X|x m C X]; subst.
  - rewrite <- X in E1. cbn in E1. injection E1 as <- <-. reflexivity.
  - rewrite <- X, C in E1. cbn iota in E1.
    destruct (Z.eqb_spec n 0) as [->|NZ].
    + injection E1 as <- <-. reflexivity.
    + unfold sock_read in E1. cbn [s_ri set_len set_cl start] in E1.
      destruct (e_read v (k_ri k)) as [q|q z] eqn:Q; [|discriminate].
      apply F in Q.
      pose proof (content_length_nonneg _ _ _ C).
      injection E1 as <- <-. cbn. f_equal.
      rewrite zlen_take. unfold clampz, available.
      destruct (Z.ltb_spec n 0); lia.
Qed.
