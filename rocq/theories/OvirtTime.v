(* The polling loops end. *)
From Coq Require Import ZArith List Bool Lia String.
From Verif Require Import BytesLib UrlModel OvirtModel OvirtSpec OvirtProofs.
Import ListNotations.
Open Scope Z_scope.

Section oracle.
Variable o : oracle.

Lemma pass_time k w : w_time w + k <= w_time (pass o k w).
Proof. unfold pass. cbn. lia. Qed.
Lemma second_pos : 0 < SECOND.
Proof. reflexivity. Qed.

(* ---- number of iterations ---- *)

Lemma wait_disk_fuel n : forall d w f f', d < w_time w + Z.of_nat n * SECOND -> (n < f)%nat -> (n < f')%nat ->
  wait_disk_loop o f d w = wait_disk_loop o f' d w.
Proof.
  induction n as [|n IH]; intros d w [|f] [|f'] T F F'; try lia; cbn [wait_disk_loop]; unfold bind, sleep, now;
    pose proof (pass_time SECOND w) as P1; pose proof (pass_time 0 (pass o SECOND w)) as P2;
    pose proof second_pos as SP; set (w2 := pass o 0 (pass o SECOND w)) in *.
  - replace (w_time w2 >? d) with true; [reflexivity|]. symmetry. rewrite Z.gtb_lt. lia.
  - destruct (w_time w2 >? d); [reflexivity|]. unfold ask.
    pose proof (pass_time 0 w2) as P3.
    destruct (o_status o (w_i w2)) as [[]|]; auto.
    rewrite (IH d (pass o 0 w2) f f') by lia. reflexivity.
Qed.

Lemma create_fuel n : forall d w f f', d < w_time w + Z.of_nat n * SECOND -> (n < f)%nat -> (n < f')%nat ->
  create_loop o f d w = create_loop o f' d w.
Proof.
  induction n as [|n IH]; intros d w [|f] [|f'] T F F'; try lia; cbn [create_loop];
    unfold try_, transfer_get, ask; pose proof (pass_time 0 w) as P1; set (w1 := pass o 0 w) in *;
    (destruct (o_phase o (w_i w)) as [p|x]; [|destruct x; reflexivity]);
    destruct p; cbn [is_phase negb]; try reflexivity; unfold bind, now, sleep;
    pose proof (pass_time 0 w1) as P2; set (w2 := pass o 0 w1) in *.
  - replace (w_time w2 >? d) with true; [reflexivity|]. symmetry. rewrite Z.gtb_lt. lia.
  - destruct (w_time w2 >? d); [reflexivity|].
    pose proof (pass_time SECOND w2) as P3.
    rewrite (IH d (pass o SECOND w2) f f') by lia. reflexivity.
Qed.

Lemma finalize_fuel n : forall d w f f', d < w_time w + Z.of_nat n * SECOND -> (n < f)%nat -> (n < f')%nat ->
  finalize_loop o f d w = finalize_loop o f' d w.
Proof.
  induction n as [|n IH]; intros d w [|f] [|f'] T F F'; try lia; cbn [finalize_loop];
    unfold bind, sleep; pose proof (pass_time SECOND w) as P0; set (w0 := pass o SECOND w) in *;
    unfold try_, transfer_get, ask; pose proof (pass_time 0 w0) as P1; set (w1 := pass o 0 w0) in *;
    pose proof second_pos as SP;
    (destruct (o_phase o (w_i w0)) as [p|x]; [|destruct x; reflexivity]);
    destruct p; cbn [is_phase]; try reflexivity; unfold now;
    pose proof (pass_time 0 w1) as P2; set (w2 := pass o 0 w1) in *;
    try (replace (w_time w2 >? d) with true; [reflexivity|symmetry; rewrite Z.gtb_lt; lia]);
    destruct (w_time w2 >? d); try reflexivity; rewrite (IH d w2 f f') by lia; reflexivity.
Qed.

Definition same {A} (m m' : M A) : Prop := forall w, m w = m' w.
Lemma same_refl {A} (m : M A) : same m m.
Proof. intros w. reflexivity. Qed.
Lemma same_bind {A B} (m m' : M A) (f f' : A -> M B) :
  same m m' -> (forall a, same (f a) (f' a)) -> same (bind m f) (bind m' f').
Proof.
  intros H F w. unfold bind. rewrite H. destruct (m' w) as [[w1 t] [a|x]]; auto. rewrite F. reflexivity.
Qed.
Lemma same_try {A B} (m m' : M A) (f f' : A + exc -> M B) :
  same m m' -> (forall r, same (f r) (f' r)) -> same (try_ m f) (try_ m' f').
Proof. intros H F w. unfold try_. rewrite H. destruct (m' w) as [[w1 t] r]. rewrite F. reflexivity. Qed.
Lemma same_finally {A} (m m' : M A) f f' : same m m' -> same f f' -> same (finally m f) (finally m' f').
Proof.
  intros H F. apply same_try; auto. intros r. apply same_bind; auto. intros a. apply same_refl.
Qed.

Lemma steps_lt t : 0 < Z.of_nat (Z.to_nat (t + 1)) * SECOND - t * SECOND.
Proof.
  pose proof second_pos as SP. destruct (Z.leb_spec 0 (t + 1)).
  - rewrite Z2Nat.id by lia. nia.
  - rewrite Z2Nat.inj_neg || idtac. replace (Z.to_nat (t + 1)) with O by lia. nia.
Qed.

Lemma wait_for_disk_same t f f' : (Z.to_nat (t + 1) < f)%nat -> (Z.to_nat (t + 1) < f')%nat ->
  same (wait_for_disk o f t) (wait_for_disk o f' t).
Proof.
  intros F F' w. unfold wait_for_disk, bind, now. pose proof (steps_lt t) as S.
  erewrite wait_disk_fuel with (f' := f'); [reflexivity| |exact F|exact F']. lia.
Qed.
Lemma create_same d t f f' : (Z.to_nat (t + 1) < f)%nat -> (Z.to_nat (t + 1) < f')%nat ->
  same (create_transfer o f d t) (create_transfer o f' d t).
Proof.
  intros F F' w. unfold create_transfer, bind, now, ask_unit, ask. pose proof (steps_lt t) as S.
  set (w1 := pass o 0 w). destruct (match o_unit o (w_i w1) with None => _ | Some x => _ end); auto.
  pose proof (pass_time 0 w1) as P.
  erewrite create_fuel with (f' := f'); [reflexivity| |exact F|exact F']. lia.
Qed.
Lemma finalize_same t f f' : (Z.to_nat (t + 1) < f)%nat -> (Z.to_nat (t + 1) < f')%nat ->
  same (finalize_transfer o f t) (finalize_transfer o f' t).
Proof.
  intros F F' w. unfold finalize_transfer, bind, now, ask_unit, ask. pose proof (steps_lt t) as S.
  set (w1 := pass o 0 w). destruct (match o_unit o (w_i w1) with None => _ | Some x => _ end); auto.
  pose proof (pass_time 0 w1) as P.
  erewrite finalize_fuel with (f' := f'); [reflexivity| |exact F|exact F']. lia.
Qed.

Lemma enough_lt T f t : enough T f -> t <= Z.max 300 T -> (Z.to_nat (t + 1) < f)%nat.
Proof. unfold enough. lia. Qed.

Lemma upload_same a f f' : enough (a_disk_timeout a) f -> enough (a_disk_timeout a) f' ->
  same (upload_disk o f a) (upload_disk o f' a).
Proof.
  intros E E'. unfold upload_disk, with_progress. apply same_bind; [apply same_refl|]. intros _.
  apply same_try; [|intros r; apply same_refl]. apply same_bind; [apply same_refl|]. intros d.
  apply same_bind; [apply same_refl|]. intros _. apply same_bind; [|intros _; apply same_refl].
  apply same_finally; [|apply same_refl]. apply same_bind; [apply same_refl|]. intros _.
  apply same_bind.
  { apply same_bind; [apply same_refl|]. intros _. apply wait_for_disk_same; eapply enough_lt; eauto; lia. }
  intros _. apply same_bind; [apply same_refl|]. intros _. apply same_bind; [apply same_refl|]. intros _.
  apply same_bind; [apply create_same; eapply enough_lt; eauto; unfold CREATE_TIMEOUT; lia|]. intros _.
  apply same_bind; [apply same_refl|]. intros _. apply same_bind; [apply same_refl|]. intros _.
  apply finalize_same; eapply enough_lt; eauto; unfold FINALIZE_TIMEOUT; lia.
Qed.

Lemma download_same f f' : enough 0 f -> enough 0 f' -> same (download_disk o f) (download_disk o f').
Proof.
  intros E E'. unfold download_disk, with_progress. apply same_bind; [apply same_refl|]. intros _.
  apply same_try; [|intros r; apply same_refl]. apply same_bind; [apply same_refl|]. intros _.
  apply same_bind; [|intros _; apply same_refl].
  apply same_finally; [|apply same_refl]. apply same_bind; [apply same_refl|]. intros _.
  apply same_bind; [apply same_refl|]. intros _. apply same_bind; [apply same_refl|]. intros _.
  apply same_bind; [apply create_same; eapply enough_lt; eauto; unfold CREATE_TIMEOUT; lia|]. intros _.
  apply same_finally; [apply same_refl|]. apply same_bind; [apply same_refl|]. intros _.
  apply finalize_same; eapply enough_lt; eauto; unfold FINALIZE_TIMEOUT; lia.
Qed.

(* ---- number of polls ---- *)

Definition cost (p : event -> bool) {A} (m : M A) (n : Z) : Prop :=
  forall w, count p (snd (fst (m w))) <= n.

Lemma cost_mono p {A} (m : M A) n n' : cost p m n -> n <= n' -> cost p m n'.
Proof. intros H L w. specialize (H w). lia. Qed.
Lemma cost_ret p {A} (a : A) : cost p (ret a) 0.
Proof. intros w. cbn. lia. Qed.
Lemma cost_raise p {A} x : cost p (@raise A x) 0.
Proof. intros w. cbn. lia. Qed.
Lemma cost_bind p {A B} (m : M A) (f : A -> M B) n k :
  0 <= k -> cost p m n -> (forall a, cost p (f a) k) -> cost p (bind m f) (n + k).
Proof.
  intros K H F w. specialize (H w). unfold bind. destruct (m w) as [[w1 t] [a|x]]; cbn [fst snd] in *; [|lia].
  specialize (F a w1). destruct (f a w1) as [[w2 u] r]; cbn [fst snd] in *. rewrite count_app. lia.
Qed.
Lemma cost_try p {A B} (m : M A) (f : A + exc -> M B) n k :
  cost p m n -> (forall a, cost p (f a) k) -> cost p (try_ m f) (n + k).
Proof.
  intros H F w. specialize (H w). unfold try_. destruct (m w) as [[w1 t] a]; cbn [fst snd] in *.
  specialize (F a w1). destruct (f a w1) as [[w2 u] r]; cbn [fst snd] in *. rewrite count_app. lia.
Qed.
Lemma cost_finally p {A} (m : M A) f n k : cost p m n -> cost p f k -> cost p (finally m f) (n + k).
Proof.
  intros H F. apply cost_try; auto. intros r. replace k with (k + 0) by lia. apply cost_bind; auto; [lia|].
  intros _. destruct r; [apply cost_ret|apply cost_raise].
Qed.
Lemma cost_ask p {A} c f (say : A -> answer) : cost p (ask o c f say) 1.
Proof. intros w. unfold ask. cbn. rewrite count_cons, count_nil. destruct (p _); lia. Qed.
Lemma cost_ask0 p {A} c f (say : A -> answer) : (forall a, p (Ev c a) = false) -> cost p (ask o c f say) 0.
Proof. intros H w. unfold ask. cbn. rewrite count_cons, count_nil, H. lia. Qed.
Lemma cost_show p s : (forall s, p (Shown s) = false) -> cost p (show s) 0.
Proof. intros H w. unfold show. cbn. rewrite count_cons, count_nil, H. lia. Qed.

Lemma wait_disk_polls n : forall d w f, d < w_time w + Z.of_nat n * SECOND ->
  count is_disk_poll (snd (fst (wait_disk_loop o f d w))) <= Z.max 0 (Z.of_nat n - 1).
Proof.
  induction n as [|n IH]; intros d w [|f] T; try (cbn; lia); cbn [wait_disk_loop]; unfold bind, sleep, now;
    pose proof (pass_time SECOND w) as P1; pose proof (pass_time 0 (pass o SECOND w)) as P2;
    pose proof second_pos as SP; set (w2 := pass o 0 (pass o SECOND w)) in *.
  - replace (w_time w2 >? d) with true; [cbn; lia|]. symmetry. rewrite Z.gtb_lt. lia.
  - destruct (w_time w2 >? d) eqn:X; [cbn; lia|].
    assert (n <> O). { intros ->. rewrite Z.gtb_ltb in X. apply Z.ltb_ge in X. lia. }
    unfold ask. pose proof (pass_time 0 w2) as P3.
    destruct (o_status o (w_i w2)) as [[]|]; unfold ret, raise;
      try (cbn [fst snd app]; rewrite count_cons, count_nil; cbn [is_disk_poll]; lia).
    specialize (IH d (pass o 0 w2) f ltac:(lia)).
    destruct (wait_disk_loop o f d (pass o 0 w2)) as [[w3 u] r]. cbn [fst snd app] in *.
    rewrite count_cons. cbn [is_disk_poll]. lia.
Qed.

Lemma create_polls n : forall d w f, d < w_time w + Z.of_nat n * SECOND ->
  count is_poll (snd (fst (create_loop o f d w))) <= Z.of_nat n + 1.
Proof.
  induction n as [|n IH]; intros d w [|f] T; try (cbn; lia); cbn [create_loop];
    unfold try_, transfer_get, ask_unit, ask; pose proof (pass_time 0 w) as P1; set (w1 := pass o 0 w) in *;
    (destruct (o_phase o (w_i w)) as [p|x]; [|destruct x; cbn [raise fst snd app]; rewrite count_cons, count_nil; cbn [is_poll]; lia]);
    destruct p; cbn [is_phase negb]; unfold bind, now, sleep, raise, ret;
    try (cbn [fst snd app]; rewrite count_cons, count_nil; cbn [is_poll]; lia);
    try (destruct (o_unit o (w_i w1)); cbn [fst snd app]; rewrite !count_cons, count_nil; cbn [is_poll]; lia);
    pose proof (pass_time 0 w1) as P2; set (w2 := pass o 0 w1) in *.
  - replace (w_time w2 >? d) with true by (symmetry; rewrite Z.gtb_lt; lia).
    destruct (o_unit o (w_i w2)); cbn [fst snd app]; rewrite !count_cons, count_nil; cbn [is_poll]; lia.
  - destruct (w_time w2 >? d).
    { destruct (o_unit o (w_i w2)); cbn [fst snd app]; rewrite !count_cons, count_nil; cbn [is_poll]; lia. }
    pose proof (pass_time SECOND w2) as P3.
    specialize (IH d (pass o SECOND w2) f ltac:(lia)).
    destruct (create_loop o f d (pass o SECOND w2)) as [[w3 u] r]. cbn [fst snd app] in *.
    rewrite count_cons. cbn [is_poll]. lia.
Qed.

Lemma finalize_polls n : forall d w f, d < w_time w + Z.of_nat n * SECOND ->
  count is_poll (snd (fst (finalize_loop o f d w))) <= Z.max 1 (Z.of_nat n).
Proof.
  induction n as [|n IH]; intros d w [|f] T; try (cbn; lia); cbn [finalize_loop];
    unfold bind, sleep; pose proof (pass_time SECOND w) as P0; set (w0 := pass o SECOND w) in *;
    unfold try_, transfer_get, ask; pose proof (pass_time 0 w0) as P1; set (w1 := pass o 0 w0) in *;
    pose proof second_pos as SP;
    (destruct (o_phase o (w_i w0)) as [p|x];
     [|destruct x; try (destruct (o_status o (w_i w1)) as [[]|[]]); cbn [raise ret fst snd app];
       rewrite !count_cons, count_nil; cbn [is_poll]; lia]);
    destruct p; cbn [is_phase]; unfold now, raise, ret;
    try (cbn [fst snd app]; rewrite count_cons, count_nil; cbn [is_poll]; lia);
    pose proof (pass_time 0 w1) as P2; set (w2 := pass o 0 w1) in *;
    destruct (w_time w2 >? d) eqn:X;
    try (cbn [fst snd app]; rewrite count_cons, count_nil; cbn [is_poll]; lia);
    rewrite Z.gtb_ltb in X; apply Z.ltb_ge in X; try lia;
    assert (n <> O) by (intros ->; lia);
    specialize (IH d w2 f ltac:(lia));
    destruct (finalize_loop o f d w2) as [[w3 u] r]; cbn [fst snd app] in *;
    rewrite count_cons; cbn [is_poll]; lia.
Qed.

Lemma finalize_disk_polls f : forall d, cost is_disk_poll (finalize_loop o f d) 1.
Proof.
  induction f as [|f IH]; intros d; cbn [finalize_loop]; [eapply cost_mono; [apply cost_raise|lia]|].
  change 1 with (0 + 1). apply cost_bind; [lia|intros w; cbn; lia|]. intros _.
  change 1 with (0 + 1). apply cost_try; [apply cost_ask0; reflexivity|]. intros [p|x].
  - assert (N : cost is_disk_poll (let! t <- now o; if t >? d then raise XRuntime else finalize_loop o f d) 1).
    { change 1 with (0 + 1). apply cost_bind; [lia|intros w; cbn; lia|]. intros t.
      destruct (t >? d); auto. eapply cost_mono; [apply cost_raise|lia]. }
    destruct p; cbn [is_phase]; auto; eapply cost_mono; try apply cost_raise; try apply cost_ret; lia.
  - destruct x; try (eapply cost_mono; [apply cost_raise|lia]).
    change 1 with (1 + 0). apply cost_try; [apply cost_ask|]. intros [[]|[]]; try apply cost_raise; apply cost_ret.
Qed.

Lemma create_cost d f t : 0 <= t -> cost is_poll (create_transfer o f d t) (t + 2).
Proof.
  intros T w. unfold create_transfer. unfold bind at 1, now at 1.
  change (snd (fst ?x)) with (snd (fst x)).
  set (w1 := pass o 0 w). pose proof (steps_lt t) as S.
  assert (G : cost is_poll (let! _ <- ask_unit o (CAdd d); let! _ <- create_loop o f (w_time w1 + t * SECOND); ask_unit o CFollow) (t + 2) \/ True) by auto. clear G.
  unfold bind at 1, ask_unit at 1, ask at 1. pose proof (pass_time 0 w1) as P.
  destruct (match o_unit o (w_i w1) with None => _ | Some x => _ end) as [[]|x].
  2: { cbn [fst snd app]. rewrite count_cons, count_nil. cbn [is_poll]. lia. }
  pose proof (create_polls (Z.to_nat (t + 1)) (w_time w1 + t * SECOND) (pass o 0 w1) f ltac:(lia)) as C.
  unfold bind. destruct (create_loop o f (w_time w1 + t * SECOND) (pass o 0 w1)) as [[w2 u] [[]|x]]; cbn [fst snd app] in *.
  - unfold ask_unit, ask. cbn [fst snd app]. rewrite count_cons, count_app, count_cons, count_nil. cbn [is_poll]. lia.
  - rewrite count_cons. cbn [is_poll]. lia.
Qed.

Lemma finalize_cost f t : 0 <= t -> cost is_poll (finalize_transfer o f t) (t + 1).
Proof.
  intros T w. unfold finalize_transfer. unfold bind at 1, now at 1.
  set (w1 := pass o 0 w). pose proof (steps_lt t) as S.
  unfold bind at 1, ask_unit at 1, ask at 1. pose proof (pass_time 0 w1) as P.
  destruct (match o_unit o (w_i w1) with None => _ | Some x => _ end) as [[]|x].
  2: { cbn [fst snd app]. rewrite count_cons, count_nil. cbn [is_poll]. lia. }
  pose proof (finalize_polls (Z.to_nat (t + 1)) (w_time w1 + t * SECOND) (pass o 0 w1) f ltac:(lia)) as C.
  destruct (finalize_loop o f (w_time w1 + t * SECOND) (pass o 0 w1)) as [[w2 u] r]; cbn [fst snd app] in *.
  rewrite count_cons. cbn [is_poll]. lia.
Qed.

Lemma wait_for_disk_cost f t : cost is_disk_poll (wait_for_disk o f t) (Z.max 0 t).
Proof.
  intros w. unfold wait_for_disk, bind, now. set (w1 := pass o 0 w). pose proof (steps_lt t) as S.
  pose proof (wait_disk_polls (Z.to_nat (t + 1)) (w_time w1 + t * SECOND) w1 f ltac:(lia)) as C.
  destruct (wait_disk_loop o f (w_time w1 + t * SECOND) w1) as [[w2 u] r]; cbn [fst snd app] in *. lia.
Qed.

(* a part that does not poll *)
Lemma cost_find_host p : (forall a, p (Ev CVdsmId a) = false) -> (forall a, p (Ev CDataCenters a) = false) ->
  (forall a, p (Ev CHosts a) = false) -> cost p (find_host o) 0.
Proof.
  intros H1 H2 H3. unfold find_host. change 0 with (0 + 0).
  apply cost_bind; [lia|apply cost_ask0; auto|]. intros []; try apply cost_ret.
  change 0 with (0 + 0). apply cost_bind; [lia|apply cost_ask0; auto|]. intros [|n]; [apply cost_raise|].
  change 0 with (0 + 0). apply cost_bind; [lia|apply cost_ask0; auto|]. intros [|n']; apply cost_ret.
Qed.
Lemma cost_prepare p a : (forall x, p (Ev CInfo x) = false) -> (forall x, p (Ev CRead x) = false) ->
  (forall x, p (Ev CMeasure x) = false) -> cost p (prepare o a) 0.
Proof.
  intros H1 H2 H3. unfold prepare. change 0 with (0 + 0).
  apply cost_bind; [lia|apply cost_ask0; auto|]. intros i.
  assert (I : forall f, cost p (is_iso o f) 0).
  { intros []; try apply cost_ret. cbn [is_iso]. change 0 with (0 + 0).
    apply cost_bind; [lia|apply cost_ask0; auto|]. intros; apply cost_ret. }
  destruct (i_format i); try apply cost_raise; change 0 with (0 + 0); (apply cost_bind; [lia|apply I|]); intros iso;
    destruct (if iso then (Iso, Raw, false) else (Data, a_format a, a_sparse a)) as [[c f] s];
    change 0 with (0 + 0); (apply cost_bind; [lia| |intros; apply cost_ret]);
    (destruct (is_qcow2 f && s); [|apply cost_ret]);
    change 0 with (0 + 0); (apply cost_bind; [lia|apply cost_ask0; auto|intros; apply cost_ret]).
Qed.

Lemma wait_disk_no_poll f : forall d, cost is_poll (wait_disk_loop o f d) 0.
Proof.
  induction f as [|f IH]; intros d; cbn [wait_disk_loop]; [apply cost_raise|].
  change 0 with (0 + 0). apply cost_bind; [lia|intros w; cbn; lia|]. intros _.
  change 0 with (0 + 0). apply cost_bind; [lia|intros w; cbn; lia|]. intros t.
  destruct (t >? d); [apply cost_raise|]. change 0 with (0 + 0).
  apply cost_bind; [lia|apply cost_ask0; auto|]. intros []; auto; try apply cost_ret; apply cost_raise.
Qed.
Lemma create_no_disk_poll f : forall d, cost is_disk_poll (create_loop o f d) 0.
Proof.
  induction f as [|f IH]; intros d; cbn [create_loop]; [apply cost_raise|].
  change 0 with (0 + 0). apply cost_try; [apply cost_ask0; auto|].
  assert (C : cost is_disk_poll (let! _ <- ask_unit o CCancel; @raise unit XRuntime) 0).
  { change 0 with (0 + 0). apply cost_bind; [lia|apply cost_ask0; auto|intros; apply cost_raise]. }
  intros [p|x]; [|destruct x; apply cost_raise].
  destruct p; cbn [is_phase negb]; auto; try apply cost_raise; try apply cost_ret.
  change 0 with (0 + 0). apply cost_bind; [lia|intros w; cbn; lia|]. intros t. destruct (t >? d); auto.
  change 0 with (0 + 0). apply cost_bind; [lia|intros w; cbn; lia|]. auto.
Qed.

(* One step of a command: its polls, and those of the rest. *)
Ltac cb a b := apply (cost_mono _ _ (a + b)); [apply cost_bind; [lia| |intros ?]|lia].
Ltac cf a b := apply (cost_mono _ _ (a + b)); [apply cost_finally|lia].
Ltac ct a b := apply (cost_mono _ _ (a + b)); [apply cost_try|lia].
Ltac quiet := first [apply cost_ret | apply cost_raise | apply cost_show; reflexivity | apply cost_ask0; reflexivity].

Lemma upload_polls f a : cost is_poll (upload_disk o f a) 363.
Proof.
  unfold upload_disk, with_progress. cb 0 363; [quiet|]. ct 363 0.
  2: { intros [?|x]; [quiet|]. cb 0 0; quiet. }
  cb 0 363; [apply cost_prepare; reflexivity|]. cb 0 363; [quiet|]. cb 363 0; [|quiet]. cf 363 0; [|quiet].
  cb 0 363; [quiet|]. cb 0 363. { unfold add_disk. cb 0 0; [quiet|]. cb 0 0; [intros w; cbn; lia|]. apply wait_disk_no_poll. }
  cb 0 363; [quiet|]. cb 0 363; [apply cost_find_host; reflexivity|].
  cb 62 301; [apply (create_cost Upload f CREATE_TIMEOUT); unfold CREATE_TIMEOUT; lia|].
  cb 0 301. { ct 0 0; [cb 0 0; quiet|]. intros [?|x]; [quiet|]. destruct (is_exception x); [|quiet].
              cb 0 0; [quiet|]. cb 0 0; quiet. }
  cb 0 301; [quiet|]. apply (finalize_cost f FINALIZE_TIMEOUT). unfold FINALIZE_TIMEOUT; lia.
Qed.

Lemma download_polls f : cost is_poll (download_disk o f) 363.
Proof.
  unfold download_disk, with_progress. cb 0 363; [quiet|]. ct 363 0.
  2: { intros [?|x]; [quiet|]. cb 0 0; quiet. }
  cb 0 363; [quiet|]. cb 363 0; [|quiet]. cf 363 0; [|quiet].
  cb 0 363; [quiet|]. cb 0 363; [quiet|]. cb 0 363; [apply cost_find_host; reflexivity|].
  cb 62 301; [apply (create_cost Download f CREATE_TIMEOUT); unfold CREATE_TIMEOUT; lia|].
  cf 0 301; [cb 0 0; quiet|].
  cb 0 301; [quiet|]. apply (finalize_cost f FINALIZE_TIMEOUT). unfold FINALIZE_TIMEOUT; lia.
Qed.

Lemma finalize_transfer_disk f t : cost is_disk_poll (finalize_transfer o f t) 1.
Proof.
  unfold finalize_transfer. cb 0 1; [intros w; cbn; lia|]. cb 0 1; [quiet|]. apply finalize_disk_polls.
Qed.
Lemma create_transfer_disk d f t : cost is_disk_poll (create_transfer o f d t) 0.
Proof.
  unfold create_transfer. cb 0 0; [intros w; cbn; lia|]. cb 0 0; [quiet|]. cb 0 0; [apply create_no_disk_poll|]. quiet.
Qed.

Lemma upload_disk_polls f a : cost is_disk_poll (upload_disk o f a) (Z.max 0 (a_disk_timeout a) + 1).
Proof.
  remember (Z.max 0 (a_disk_timeout a)) as T eqn:ET. assert (0 <= T) by lia.
  unfold upload_disk, with_progress. cb 0 (T + 1); [quiet|]. ct (T + 1) 0.
  2: { intros [?|x]; [quiet|]. cb 0 0; quiet. }
  cb 0 (T + 1); [apply cost_prepare; reflexivity|]. cb 0 (T + 1); [quiet|]. cb (T + 1) 0; [|quiet]. cf (T + 1) 0; [|quiet].
  cb 0 (T + 1); [quiet|]. cb T 1. { unfold add_disk. cb 0 T; [quiet|]. subst T. apply wait_for_disk_cost. }
  cb 0 1; [quiet|]. cb 0 1; [apply cost_find_host; reflexivity|].
  cb 0 1; [apply create_transfer_disk|].
  cb 0 1. { ct 0 0; [cb 0 0; quiet|]. intros [?|x]; [quiet|]. destruct (is_exception x); [|quiet].
              cb 0 0; [quiet|]. cb 0 0; quiet. }
  cb 0 1; [quiet|]. apply finalize_transfer_disk.
Qed.
End oracle.
