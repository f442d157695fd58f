(* C61, C62: requests of several connections on one image, their system calls
   in any order. *)
From Coq Require Import ZArith List Bool Lia.
From Verif Require Import BytesLib FileModel FileSpec FileProofs OpsModel OpsProofs StorageModel
  StorageSpec StorageProofs StorageSolo StorageCut.
Import ListNotations.
Open Scope Z_scope.

Lemma nth_error_ext_ {A} (l m : list A) : length l = length m ->
  (forall i, nth_error l i = nth_error m i) -> l = m.
Proof.
  revert m. induction l as [|x l IH]; intros [|y m] L H; cbn in *; try discriminate; auto.
  f_equal; [specialize (H O); cbn in H; congruence|]. apply IH; [lia|]. intros i. apply (H (S i)).
Qed.

(* ---- C61 ---- *)

(* Requests that have no block in common, or that only read, at any time of any
   execution: the image keeps its size; every request that ended with success
   did what it must do, whatever the others did and still do; and no byte
   changed that is not in the range of a request that writes. *)
Theorem parallel_requests : forall d ks sched d' ts,
  (forall k, In k ks -> valid (zlen d) k) -> all_apart ks ->
  execute sched d (map start ks) = Some (d', ts) ->
  zlen d' = zlen d /\
  (forall i k t rep, nth_error ks i = Some k -> nth_error ts i = Some t ->
     result t = Some (inl rep) -> p_outcome rep = Success ->
     served (k_request k) d d' (p_sent rep)) /\
  (forall x, (forall k, In k ks -> reads_only (k_request k) \/ ~ in_range (k_request k) x) ->
     getb d' x = getb d x).
Proof.
  intros d ks sched d' ts V A E. pose proof (jobs_inv d ks V A _ _ _ E) as G.
  split; [apply G|]. split.
  - intros i k t rep N NT R S. eapply jobs_served; eauto.
  - intros x X. eapply jobs_frame; eauto.
Qed.
Print Assumptions parallel_requests.

(* The order of the system calls does not matter: all executions to the end
   give the same replies and the same content.  One of them serves the requests
   one after the other. *)
Theorem parallel_requests_order : forall d ks sched1 d1 ts1 sched2 d2 ts2,
  (forall k, In k ks -> valid (zlen d) k) -> all_apart ks ->
  execute sched1 d (map start ks) = Some (d1, ts1) -> all_done ts1 ->
  execute sched2 d (map start ks) = Some (d2, ts2) -> all_done ts2 ->
  map result ts1 = map result ts2 /\ d1 = d2.
Proof.
  intros d ks sched1 d1 ts1 sched2 d2 ts2 V A E1 D1 E2 D2.
  pose proof (jobs_inv d ks V A _ _ _ E1) as G1. pose proof (jobs_inv d ks V A _ _ _ E2) as G2.
  assert (L1 : length ts1 = length ks) by (destruct G1 as (X & _); now rewrite map_length in X).
  assert (L2 : length ts2 = length ks) by (destruct G2 as (X & _); now rewrite map_length in X).
  assert (R : forall i k, nth_error ks i = Some k -> exists t1 t2 r fs,
            nth_error ts1 i = Some t1 /\ nth_error ts2 i = Some t2 /\
            result t1 = Some r /\ result t2 = Some r /\
            (forall x, job_lo k <= x < job_hi k -> getb d1 x = getb (f_data fs) x) /\
            (forall x, job_lo k <= x < job_hi k -> getb d2 x = getb (f_data fs) x)).
  { intros i k N.
    assert (I : (i < length ks)%nat) by (apply nth_error_Some; congruence).
    destruct (nth_error ts1 i) as [t1|] eqn:N1; [|apply nth_error_None in N1; lia].
    destruct (nth_error ts2 i) as [t2|] eqn:N2; [|apply nth_error_None in N2; lia].
    destruct (result t1) as [r1|] eqn:R1.
    2:{ exfalso. unfold all_done in D1. rewrite Forall_forall in D1. eapply D1; [eapply nth_error_In; eauto|auto]. }
    destruct (result t2) as [r2|] eqn:R2.
    2:{ exfalso. unfold all_done in D2. rewrite Forall_forall in D2. eapply D2; [eapply nth_error_In; eauto|auto]. }
    destruct (jobs_result d ks _ _ _ _ _ _ G1 N N1 R1) as (fs1 & F1 & H1).
    destruct (jobs_result d ks _ _ _ _ _ _ G2 N N2 R2) as (fs2 & F2 & H2).
    rewrite F1 in F2. injection F2 as <- <-. exists t1, t2, r1, fs1. auto 10. }
  split.
  - apply nth_error_ext_.
    + now rewrite !map_length, L1, L2.
    + intros i. rewrite !nth_error_map. destruct (nth_error ks i) as [k|] eqn:N.
      * destruct (R _ _ N) as (t1 & t2 & r & _ & -> & -> & R1 & R2 & _). cbn. congruence.
      * apply nth_error_None in N. rewrite (proj2 (nth_error_None ts1 i)) by lia.
        rewrite (proj2 (nth_error_None ts2 i)) by lia. reflexivity.
  - destruct G1 as (_ & Z1 & _ & F1), G2 as (_ & Z2 & _ & F2).
    apply bytes_ext; [congruence|]. intros x _.
    destruct (Exists_dec (fun k => job_lo k <= x < job_hi k) ks) as [X|X].
    { intros k. destruct (Z_le_dec (job_lo k) x), (Z_lt_dec x (job_hi k)); [left; auto|right; lia..]. }
    + apply Exists_exists in X as (k & I & X). apply In_nth_error in I as (i & N).
      destruct (R _ _ N) as (_ & _ & _ & fs & _ & _ & _ & _ & H1 & H2). rewrite H1, H2; auto.
    + assert (Y : forall J, In J (map (job_of d) ks) -> j_ro J = true \/ ~ j_lo J <= x < j_hi J).
      { intros J IJ. apply in_map_iff in IJ as (k & <- & I). right. intros H. apply X.
        apply Exists_exists. eauto. }
      rewrite F1, F2; auto.
Qed.
Print Assumptions parallel_requests_order.

(* The requests can always go on to their end. *)
Theorem parallel_requests_end : forall d ts, exists sched d' ts',
  execute sched d ts = Some (d', ts') /\ all_done ts'.
Proof. intros d ts. apply (finish_all ts [] d). constructor. Qed.
Print Assumptions parallel_requests_end.

(* If nothing goes wrong all requests succeed. *)
Theorem parallel_requests_succeed : forall d ks sched d' ts i k t,
  (forall k, In k ks -> valid (zlen d) k /\ calm (zlen d) k) -> all_apart ks ->
  execute sched d (map start ks) = Some (d', ts) -> all_done ts ->
  nth_error ks i = Some k -> nth_error ts i = Some t ->
  exists rep, result t = Some (inl rep) /\ p_outcome rep = Success.
Proof.
  intros d ks sched d' ts i k t VC A E D N NT.
  assert (V : forall k, In k ks -> valid (zlen d) k) by (intros; now apply VC).
  pose proof (jobs_inv d ks V A _ _ _ E) as G.
  destruct (result t) as [r|] eqn:R.
  2:{ exfalso. unfold all_done in D. rewrite Forall_forall in D. eapply D; [eapply nth_error_In; eauto|auto]. }
  destruct (jobs_result d ks _ _ _ _ _ _ G N NT R) as (fs & F & _).
  destruct (VC k) as (VK & CK); [eapply nth_error_In; eauto|].
  apply (handle_solo (zlen d) k d) in F; auto. destruct F as (_ & _ & _ & C).
  destruct (C CK) as (rep & -> & S). eauto.
Qed.
Print Assumptions parallel_requests_succeed.

(* With enough fuel, more than the size of the request, no request is lost for
   the lack of it. *)
Theorem parallel_requests_fuel : forall d ks sched d' ts i k t,
  (forall k, In k ks -> valid (zlen d) k) -> all_apart ks ->
  execute sched d (map start ks) = Some (d', ts) ->
  nth_error ks i = Some k -> nth_error ts i = Some t ->
  size_of (k_request k) < Z.of_nat (k_fuel k) -> result t <> Some (inr NoFuel).
Proof.
  intros d ks sched d' ts i k t V A E N NT F R.
  pose proof (jobs_inv d ks V A _ _ _ E) as G.
  destruct (jobs_result d ks _ _ _ _ _ _ G N NT R) as (fs & H & _).
  apply (handle_solo (zlen d) k d) in H; auto; [|apply V; eapply nth_error_In; eauto].
  destruct H as (_ & _ & H & _). apply H; auto.
Qed.
Print Assumptions parallel_requests_fuel.

(* ---- examples ---- *)

(* A schedule in which the threads take turns, for examples. *)
Fixpoint turns (fuel : nat) (next : nat) (d : list byte) (ts : list thread) : list nat :=
  match fuel with
  | O => []
  | S fuel =>
      let next := if (next <? length ts)%nat then next else O in
      match nth_error ts next with
      | Some t => match tstep d t with
                  | Some (d, t) => next :: turns fuel (S next) d (set_at next t ts)
                  | None => turns fuel (S next) d ts
                  end
      | None => []
      end
  end.

Definition dev_cfg (k : nat -> call -> sans) : fcfg := FCfg true 4 false k.
Definition own0 : fst_ := FSt [] 0 0 [] true true true.
Definition image16 : list byte :=
  [x10; x11; x12; x13; x14; x15; x16; x17; x18; x19; x1a; x1b; x1c; x1d; x1e; x1f].
Definition quiet_body : woracle := WOracle (fun _ => Some 3) (fun _ => WOk 1) (fun _ => false) true.
Definition quiet_read : nat -> rans := fun _ => RAns None None false.
Definition full : nat -> call -> sans := fun _ _ => Done 4.

(* One connection writes 6 bytes at 1, one reads 3 bytes at 9, one zeroes 2 at
   13; the kernel does at most one block per call. *)
Definition three : list connection :=
  [Connection (dev_cfg full) own0 20 (Put [xa0; xa1; xa2; xa3; xa4; xa5] 4 1 6 true quiet_body);
   Connection (dev_cfg full) own0 20 (Get [x00; x00; x00; x00; x00; x00; x00; x00] 9 3 quiet_read);
   Connection (dev_cfg full) own0 20 (Zero 13 2 false quiet_body)].

Lemma pow2_4_ : pow2 4.
Proof. exists 2. split; [lia|reflexivity]. Qed.

Lemma three_valid : forall k, In k three -> valid (zlen image16) k /\ calm (zlen image16) k.
Proof.
  assert (W : works (dev_cfg full)).
  { intros n k. destruct k; cbn; eexists; try (left; reflexivity); reflexivity. }
  assert (R : forall n p l m, c_kernel (dev_cfg full) n (CRead p l) = Done m -> m = 4).
  { intros n p l m H. injection H as <-. reflexivity. }
  assert (WR : whole_reads (dev_cfg full)).
  { intros n p v H. injection H as <-. reflexivity. }
  assert (WW : whole_writes (dev_cfg full)).
  { intros n p v H. injection H as <-. reflexivity. }
  intros k [<-|[<-|[<-|[]]]].
  - split; [constructor; cbn; auto using pow2_4_; try lia; try (right; vm_compute; discriminate)|].
    split; [auto|]. split; [vm_compute; reflexivity|]. cbn [k_request].
    split; [vm_compute; discriminate|]. split; [right; vm_compute; discriminate|].
    split; [|auto]. intros i. exists 3. split; [reflexivity|lia].
  - split; [constructor; cbn; auto using pow2_4_; try lia|].
    split; [auto|]. split; [vm_compute; reflexivity|]. cbn [k_request].
    split; [|split; [reflexivity|split; [reflexivity|split; [left; lia|split; [vm_compute; discriminate|auto]]]]].
    intros i p l m H. rewrite (R _ _ _ _ H). split; [lia|reflexivity].
  - split; [constructor; cbn; auto using pow2_4_; try lia; try (right; vm_compute; discriminate)|].
    split; [auto|]. split; [vm_compute; reflexivity|]. cbn [k_request]. auto.
Qed.

Lemma three_apart : all_apart three.
Proof.
  intros i j k1 k2 N E1 E2. unfold three in *.
  destruct i as [|[|[|i]]]; cbn in E1; try (destruct i; discriminate);
    destruct j as [|[|[|j]]]; cbn in E2; try (destruct j; discriminate); try congruence;
    injection E1 as <-; injection E2 as <-; unfold apart; cbn [k_request k_cfg]; right;
    try (left; vm_compute; discriminate); right; vm_compute; discriminate.
Qed.

Example three_ex :
  let sched := turns 200 0 image16 (map start three) in
  length sched = 26%nat /\
  match execute sched image16 (map start three) with
  | Some (d, ts) =>
      d = [x10; xa0; xa1; xa2; xa3; xa4; xa5; x17; x18; x19; x1a; x1b; x1c; x00; x00; x1f] /\
      map result ts = [Some (inl (Reply Success [])); Some (inl (Reply Success [x19; x1a; x1b]));
                       Some (inl (Reply Success []))]
  | None => False
  end.
Proof. vm_compute. auto. Qed.

(* The same requests one after the other, and an execution that stopped in the
   middle, when the write did one of its blocks. *)
Example three_serial_ex :
  let sched := repeat 2%nat 8 ++ repeat 0%nat 15 ++ repeat 1%nat 3 in
  match execute sched image16 (map start three) with
  | Some (d, ts) =>
      d = [x10; xa0; xa1; xa2; xa3; xa4; xa5; x17; x18; x19; x1a; x1b; x1c; x00; x00; x1f] /\
      map result ts = [Some (inl (Reply Success [])); Some (inl (Reply Success [x19; x1a; x1b]));
                       Some (inl (Reply Success []))]
  | None => False
  end.
Proof. vm_compute. auto. Qed.

Example three_stopped_ex :
  match execute (repeat 0%nat 8) image16 (map start three) with
  | Some (d, ts) =>
      d = [x10; xa0; xa1; xa2; x14; x15; x16; x17; x18; x19; x1a; x1b; x1c; x1d; x1e; x1f] /\
      map result ts = [None; None; None]
  | None => False
  end.
Proof. vm_compute. auto. Qed.

(* ---- C62: the same block ---- *)

(* Two connections write one byte each, next to each other, both succeed, and
   one of the bytes is lost.  The range of a request that is not aligned is
   written by reading the block, changing it and writing it (file.py:193-247),
   without any lock; and a block device accepts several writers (file.py:283-285). *)
Definition neighbours : list connection :=
  [Connection (dev_cfg full) own0 20 (Put [xa0] 4 0 1 true quiet_body);
   Connection (dev_cfg full) own0 20 (Put [xb0] 4 1 1 true quiet_body)].

Theorem parallel_distinct_ranges_refuted : exists d ks sched d' ts,
  (forall k, In k ks -> valid (zlen d) k /\ calm (zlen d) k) /\
  (forall i j k1 k2 x, i <> j -> nth_error ks i = Some k1 -> nth_error ks j = Some k2 ->
     in_range (k_request k1) x -> ~ in_range (k_request k2) x) /\
  execute sched d (map start ks) = Some (d', ts) /\
  (forall t, In t ts -> exists rep, result t = Some (inl rep) /\ p_outcome rep = Success) /\
  exists k t rep i, nth_error ks i = Some k /\ nth_error ts i = Some t /\
    result t = Some (inl rep) /\ ~ served (k_request k) d d' (p_sent rep).
Proof.
  exists image16, neighbours, (turns 200 0 image16 (map start neighbours)).
  destruct (execute (turns 200 0 image16 (map start neighbours)) image16 (map start neighbours))
    as [[d' ts]|] eqn:E; [|vm_compute in E; discriminate].
  exists d', ts. split; [|split; [|split; [reflexivity|split]]].
  - assert (W : works (dev_cfg full)).
    { intros n k. destruct k; cbn; eexists; try (left; reflexivity); reflexivity. }
    assert (WR : whole_reads (dev_cfg full)).
    { intros n p v H. injection H as <-. reflexivity. }
    assert (WW : whole_writes (dev_cfg full)).
    { intros n p v H. injection H as <-. reflexivity. }
    intros k [<-|[<-|[]]];
      (split; [constructor; cbn; auto using pow2_4_; try lia; try (right; vm_compute; discriminate)|
       split; [auto|split; [vm_compute; reflexivity|]]; cbn [k_request];
       split; [vm_compute; discriminate|split; [right; vm_compute; discriminate|split; [|auto]]];
       intros i; exists 3; split; [reflexivity|lia]]).
  - intros i j k1 k2 x N E1 E2.
    destruct i as [|[|i]]; cbn in E1; try (destruct i; discriminate);
      destruct j as [|[|j]]; cbn in E2; try (destruct j; discriminate); try congruence;
      injection E1 as <-; injection E2 as <-; unfold in_range; cbn; lia.
  - intros t I. vm_compute in E. injection E as _ <-. destruct I as [<-|[<-|[]]];
      eexists; split; reflexivity.
  - exists (Connection (dev_cfg full) own0 20 (Put [xa0] 4 0 1 true quiet_body)).
    vm_compute in E. injection E as <- <-. eexists. eexists. exists O.
    split; [reflexivity|]. split; [reflexivity|]. split; [reflexivity|].
    intros (_ & H). specialize (H 0 ltac:(lia)). vm_compute in H. discriminate.
Qed.
Print Assumptions parallel_distinct_ranges_refuted.
