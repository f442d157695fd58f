(* The version of qemu-nbd. *)
From Coq Require Import ZArith List Bool Lia String.
From Verif Require Import UrlModel VersionModel VersionSpec VersionProofs.
From Verif Require UrlSpec UrlTheorems QemuNbdModel.
Import ListNotations.
Open Scope Z_scope.

(* The version is the one printed. *)
Theorem version_printed w out a b c : prints out a b c -> version_of w (Some out) = inl [a; b; c].
Proof.
  intros (name & ta & tb & tc & rest & PN & Na & Nb & Nc & -> & R).
  assert (PW : plain_name (ta ++ [46] ++ tb ++ [46] ++ tc)).
  { assert (D : forall t n, number t n -> Forall (fun c => 33 <= c <= 126) t).
    { intros t n N. destruct (number_digits t n N) as [_ F]. eapply Forall_impl; [|exact F]. exact digit_visible. }
    split.
    - destruct (number_digits ta a Na) as [N _]. destruct ta; [congruence|discriminate].
    - repeat (apply Forall_app; split); eauto; (constructor; [lia|constructor]). }
  set (word := ta ++ [46] ++ tb ++ [46] ++ tc) in *.
  assert (L : exists rest', (rest' = [] \/ exists r, rest' = 32 :: r) /\
    first_line (name ++ [32] ++ word ++ rest) = Some (name ++ [32] ++ word ++ rest')).
  { assert (V : forall s, Forall (fun c => 33 <= c <= 126) s -> Forall (fun c => negb (line_break c) = true) s).
    { intros s F. eapply Forall_impl; [|exact F]. intros x X. cbn beta in X. rewrite visible_no_break by exact X. reflexivity. }
    exists (fst (span (fun c => negb (line_break c)) rest)). split.
    - destruct R as [->|(r & [->| ->])]; [left; reflexivity| |left; reflexivity].
      right. cbn [span]. replace (negb (line_break 32)) with true by reflexivity.
      destruct (span (fun c => negb (line_break c)) r) as [x y]. exists x. reflexivity.
    - destruct PN as [NN FN]. destruct PW as [_ FW]. unfold first_line.
      assert (E : fst (span (fun c => negb (line_break c)) (name ++ [32] ++ word ++ rest)) =
                  name ++ [32] ++ word ++ fst (span (fun c => negb (line_break c)) rest)).
      { rewrite span_app_keep by (apply V; exact FN). f_equal.
        rewrite span_app_keep by (constructor; [reflexivity|constructor]). f_equal.
        apply span_app_keep. apply V. exact FW. }
      rewrite E. destruct name; [congruence|reflexivity]. }
  destruct L as (rest' & R' & L).
  replace (name ++ [32] ++ ta ++ [46] ++ tb ++ [46] ++ tc ++ rest) with (name ++ [32] ++ word ++ rest)
    by (unfold word; rewrite <- !app_assoc; reflexivity).
  unfold version_of. rewrite L. rewrite (word_of w name word rest' PN PW R'). unfold word.
  rewrite split_dots_app by (eapply number_no_dot; eauto).
  rewrite split_dots_app by (eapply number_no_dot; eauto).
  rewrite split_dots_none by (eapply number_no_dot; eauto).
  cbn [ints]. rewrite (py_int_number w ta a Na), (py_int_number w tb b Nb), (py_int_number w tc c Nc). reflexivity.
Qed.

(* Nothing but ASCII. *)
Definition ascii_only : unicode := Unicode (fun _ => None) (fun _ => false).

Example version_printed_case :
  prints (lit "qemu-nbd 10.1.0 (qemu-kvm-10.1.0-20.el8)" ++ [10] ++ lit "Written by somebody.") 10 1 0 /\
  version_of ascii_only (Some (lit "qemu-nbd 10.1.0 (qemu-kvm-10.1.0-20.el8)" ++ [10] ++ lit "Written by")) = inl [10; 1; 0].
Proof.
  split; [|vm_compute; reflexivity].
  exists (lit "qemu-nbd"), (lit "10"), (lit "1"), (lit "0"),
    (lit " (qemu-kvm-10.1.0-20.el8)" ++ [10] ++ lit "Written by somebody.").
  split. { split; [discriminate|]. vm_compute. repeat constructor; discriminate. }
  split. { apply (number_more [49] 1 0); [apply (number_digit 1)|]; lia. }
  split. { apply (number_digit 1). lia. }
  split. { apply (number_digit 0). lia. }
  split; [reflexivity|]. right. eexists. left. reflexivity.
Qed.
Print Assumptions version_printed.

(* Versions are compared as numbers: the depth of allocation is asked of 5.2.0
   and newer, 10.0.0 too, if the image is not raw, and only older ones are
   refused for an image without its backing chain. *)
Theorem version_decides w out a b c s : prints out a b c ->
  exists v, version_of w (Some out) = inl v /\
    (at_least_5_2 a b c -> QemuNbdModel.v_fmt s <> "raw"%string ->
       QemuNbdModel.depth_options s v = Some [QemuNbdModel.OAllocationDepth]) /\
    (at_least_5_2 a b c -> QemuNbdModel.v_fmt s = "raw"%string -> QemuNbdModel.depth_options s v = Some []) /\
    (~ at_least_5_2 a b c -> QemuNbdModel.v_fmt s = "qcow2"%string -> QemuNbdModel.v_backing_chain s = false ->
       QemuNbdModel.depth_options s v = None) /\
    (~ at_least_5_2 a b c -> QemuNbdModel.v_fmt s <> "qcow2"%string \/ QemuNbdModel.v_backing_chain s = true ->
       QemuNbdModel.depth_options s v = Some []).
Proof.
  intros P. exists [a; b; c]. split; [apply version_printed; exact P|].
  unfold QemuNbdModel.depth_options.
  assert (T : QemuNbdModel.tuple_ge [a; b; c] [5; 2; 0] = true <-> at_least_5_2 a b c).
  { unfold at_least_5_2. cbn [QemuNbdModel.tuple_ge].
    destruct (Z.eqb_spec a 5); [|split; intros H; lia].
    destruct (Z.eqb_spec b 2); [|split; intros H; lia].
    destruct (Z.eqb_spec c 0); [split; intros H; [lia|reflexivity]|split; intros H; lia]. }
  destruct (QemuNbdModel.tuple_ge [a; b; c] [5; 2; 0]).
  - assert (A : at_least_5_2 a b c) by (apply T; reflexivity).
    repeat split; intros N; try contradiction; intros H.
    + apply String.eqb_neq in H. rewrite H. reflexivity.
    + apply String.eqb_eq in H. rewrite H. reflexivity.
  - assert (A : ~ at_least_5_2 a b c) by (intros X; apply T in X; discriminate).
    repeat split; intros N; try contradiction; intros H.
    + intros B. apply String.eqb_eq in H. rewrite H, B. reflexivity.
    + destruct H as [H| ->]; [apply String.eqb_neq in H; rewrite H; reflexivity|].
      rewrite andb_false_r. reflexivity.
Qed.

Example version_decides_case : at_least_5_2 10 0 0 /\ at_least_5_2 5 2 0 /\ ~ at_least_5_2 4 2 0 /\ ~ at_least_5_2 5 1 90.
Proof. unfold at_least_5_2. repeat split; lia. Qed.
Print Assumptions version_decides.

(* A version comes from the second word of the first line, whatever is
   printed: it is the list of the numbers between its dots. *)
Theorem version_from_output w out v : UrlSpec.sane w -> version_of w (Some out) = inl v ->
  exists l1 first l2 word rest ts, out = l1 ++ first ++ l2 ++ word ++ rest /\ word <> [] /\
    Forall (fun c => c <> 10 /\ c <> 13) (l1 ++ first ++ l2 ++ word) /\
    Forall (fun c => ~ UrlSpec.space_of w c) first /\ Forall (fun c => ~ UrlSpec.space_of w c) word /\
    dotted ts word /\ Forall2 (UrlSpec.int_of w) ts v.
Proof.
  intros SA. unfold version_of, first_line. destruct out as [|x out]; [discriminate|].
  remember (x :: out) as o eqn:HO. clear HO x out.
  destruct (second_word w _) as [word|] eqn:W; [|discriminate].
  destruct (ints w (split_dots word)) as [v'|] eqn:I; [|discriminate]. intros H. injection H as ->.
  destruct (second_word_part _ _ _ W) as (l1 & first & l2 & rest & E & NE & _ & F1 & _ & F2 & _).
  assert (NB : forall s, Forall (fun c => blank w c = false) s -> Forall (fun c => ~ UrlSpec.space_of w c) s).
  { intros s F. eapply Forall_impl; [|exact F]. cbn beta. unfold blank, UrlSpec.space_of. intros c C [X|[X Y]].
    - cbn [In] in X. destruct (u_space w c); lia.
    - rewrite Y in C. lia. }
  exists l1, first, l2, word, (rest ++ snd (span (fun c => negb (line_break c)) o)), (split_dots word).
  split.
  { rewrite (span_whole (fun c => negb (line_break c)) o) at 1. rewrite E, <- !app_assoc. reflexivity. }
  split; [exact NE|]. split.
  { assert (A := span_fst_all (fun c => negb (line_break c)) o). rewrite E in A.
    replace (l1 ++ first ++ l2 ++ word ++ rest) with ((l1 ++ first ++ l2 ++ word) ++ rest) in A
      by (rewrite <- !app_assoc; reflexivity).
    apply Forall_app in A. destruct A as [A _]. eapply Forall_impl; [|exact A].
    cbn beta. unfold line_break. intros c C. lia. }
  split; [apply NB; exact F1|]. split; [apply NB; exact F2|]. split; [apply split_dots_dotted|].
  assert (J := ints_each _ _ _ I). clear - J SA. induction J; constructor; auto.
  apply UrlTheorems.py_int_exact; assumption.
Qed.

Example version_from_output_case :
  UrlSpec.sane ascii_only /\ version_of ascii_only (Some (lit "  qemu-nbd   6.2 x")) = inl [6; 2].
Proof. split; [intros c _; reflexivity|vm_compute; reflexivity]. Qed.
Print Assumptions version_from_output.

(* qemu-nbd is run until the version is known, and never again: the calls
   before are errors, and the calls after give the same version. *)
Theorem version_runs_once w outs k v ran : nth_error (versions w None outs) k = Some (inl v, ran) ->
  exists j out, (j <= k)%nat /\ nth_error outs j = Some out /\ version_of w out = inl v /\
    nth_error (versions w None outs) j = Some (inl v, true) /\
    (forall i, (i < j)%nat -> exists e, nth_error (versions w None outs) i = Some (inr e, true)) /\
    (forall i, (j < i < List.length outs)%nat -> nth_error (versions w None outs) i = Some (inl v, false)).
Proof.
  assert (K : forall outs v i, (i < List.length outs)%nat ->
                nth_error (versions w (Some v) outs) i = Some (inl v, false)).
  { clear. intros outs v. induction outs as [|o outs IH]; intros i L; cbn [List.length] in L; [lia|].
    cbn [versions version]. destruct i as [|i]; [reflexivity|]. cbn [nth_error]. apply IH. lia. }
  revert k. induction outs as [|o outs IH]; intros k H; [destruct k; discriminate|].
  cbn [versions version] in H |- *. destruct (version_of w o) as [v'|e] eqn:V.
  - assert (v' = v) as ->.
    { destruct k as [|k]; cbn [nth_error] in H; [congruence|].
      destruct (Nat.lt_ge_cases k (List.length outs)) as [L|L].
      - rewrite K in H by exact L. congruence.
      - assert (N : forall c l, List.length (versions w c l) = List.length l).
        { clear. intros c l. revert c. induction l as [|o l IH]; intros c; [reflexivity|]. cbn [versions].
          destruct (version w c o) as [[r x] c']. cbn [List.length]. rewrite IH. reflexivity. }
        rewrite <- (N (Some v')) in L. apply nth_error_None in L. congruence. }
    exists 0%nat, o. split; [lia|]. split; [reflexivity|]. split; [exact V|]. split; [reflexivity|].
    split; [intros i L; lia|]. intros i L. destruct i as [|i]; [lia|]. cbn [nth_error List.length] in L |- *.
    apply K. lia.
  - destruct k as [|k]; cbn [nth_error] in H; [discriminate|].
    destruct (IH k H) as (j & out & J & O & VO & N & B & A). exists (S j), out.
    split; [lia|]. split; [exact O|]. split; [exact VO|]. split; [exact N|]. split.
    + intros i L. destruct i as [|i]; [exists e; reflexivity|]. cbn [nth_error]. apply B. lia.
    + intros i L. destruct i as [|i]; [lia|]. cbn [nth_error List.length] in L |- *. apply A. lia.
Qed.

Example version_runs_once_case :
  versions ascii_only None [None; Some (lit "qemu-nbd 5.1.0"); Some (lit "qemu-nbd 6.0.0")] =
    [(inr EProcess, true); (inl [5; 1; 0], true); (inl [5; 1; 0], false)].
Proof. vm_compute. reflexivity. Qed.
Print Assumptions version_runs_once.

(* An update of qemu-nbd is not noticed: after 4.2.0 was seen, images without
   their backing chain are refused although 6.0.0 is installed. *)
Theorem version_update_refuted :
  exists w outs out s v, nth_error outs 1 = Some (Some out) /\ prints out 6 0 0 /\ at_least_5_2 6 0 0 /\
    nth_error (versions w None outs) 1 = Some (inl v, false) /\ QemuNbdModel.depth_options s v = None.
Proof.
  exists ascii_only, [Some (lit "qemu-nbd 4.2.0"); Some (lit "qemu-nbd 6.0.0")], (lit "qemu-nbd 6.0.0"),
    (QemuNbdModel.Server "x" "qcow2" QemuNbdModel.OtherAddress "" true 8 None None "unmap" "unmap" None false
       None None 10), [4; 2; 0].
  split; [reflexivity|]. split; [|split; [unfold at_least_5_2; lia|split; vm_compute; reflexivity]].
  exists (lit "qemu-nbd"), (lit "6"), (lit "0"), (lit "0"), [].
  split. { split; [discriminate|]. vm_compute. repeat constructor; discriminate. }
  split. { apply (number_digit 6). lia. }
  split. { apply (number_digit 0). lia. }
  split. { apply (number_digit 0). lia. }
  split; [reflexivity|left; reflexivity].
Qed.
Print Assumptions version_update_refuted.

(* A version with two numbers is older than the same with a zero: 5.2 is not
   5.2.0.  A version with a suffix is no version, and no server can be
   started. *)
Theorem version_form_refuted :
  (exists w v, version_of w (Some (lit "qemu-nbd 5.2 (qemu-kvm)")) = inl v /\
     QemuNbdModel.tuple_ge v [5; 2; 0] = false) /\
  (exists w, version_of w (Some (lit "qemu-nbd 6.0.0-rc1")) = inr EValue) /\
  (exists w, version_of w (Some (lit "qemu-nbd version 6.0.0")) = inr EValue).
Proof.
  split; [exists ascii_only, [5; 2]; split; vm_compute; reflexivity|].
  split; exists ascii_only; vm_compute; reflexivity.
Qed.
Print Assumptions version_form_refuted.
