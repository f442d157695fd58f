(* The progress shown on a terminal: C89. *)
From Coq Require Import ZArith QArith Qpower Lqa Lia List Bool String.
From Verif Require Import FloatLib ProgressModel ProgressSpec ProgressProofs ProgressTheorems TermModel TermSpec TermProofs.
From Verif Require JsonModel JsonSpec.
Import ListNotations.
Open Scope Z_scope.

(* C89: what a line says.  The percents take four columns, "----" without
   size; then the bytes, the seconds, the average rate, and the phase. *)
Theorem line_says x : usual x ->
  exists p d e r ph,
    line_text x = chars "[ " ++ p ++ chars " ] " ++ d ++ chars ", " ++ e ++ chars " s, " ++ r ++ chars "/s" ++ ph /\
    List.length p = 4%nat /\
    (if match s_size x with Some n => n =? 0 | None => true end then p = chars "----"
     else exists q, p = q ++ chars "%" /\ padded_number q (Z.max 0 (s_value x))) /\
    about d (inject_Z (s_transferred x)) /\
    (exists h, decimal_2 e h /\
       (inject_Z h - (1 # 2) <= 100 * fval (s_elapsed x) <= inject_Z h + (1 # 2))%Q) /\
    (exists y, about r y /\
       let z := (inject_Z (s_transferred x) / fval (s_elapsed x))%Q in
       if fst (s_elapsed x) =? 0 then y = 0%Q
       else (z - z * pow2 (-53) <= y <= z + z * pow2 (-53))%Q) /\
    ph = match s_phase x with
         | Some (c :: s) => chars " | " ++ c :: s
         | _ => []
         end.
Proof.
  intros (T & EL & V & _ & R).
  eexists _, (size_text (s_transferred x)), (two_decimals (hundredths (s_elapsed x))), _, _.
  split; [unfold line_text; reflexivity|]. split.
  { destruct (s_size x) as [n|]; [|reflexivity]. destruct (n =? 0); [reflexivity|].
    rewrite app_length. unfold rjust. rewrite app_length, spaces_length. cbn [List.length].
    assert (L : (List.length (JsonModel.dec (Z.max 0 (s_value x))) <= 3)%nat) by (apply dec_length; [cbn; lia|lia]).
    lia. }
  split.
  { destruct (s_size x) as [n|]; [|reflexivity]. destruct (n =? 0); [reflexivity|].
    eexists. split; [reflexivity|]. eexists _, _. split; [reflexivity|]. apply dec_decimal. lia. }
  split; [apply size_text_about; auto|].
  split.
  { exists (hundredths (s_elapsed x)). split; [apply two_decimals_2, hundredths_nonneg; auto|apply hundredths_spec]. }
  split; [|destruct (s_phase x) as [[|c s]|]; reflexivity].
  destruct (Z.eqb_spec (fst (s_elapsed x)) 0) as [E0|E0].
  - exists 0%Q. split; auto. apply (size_text_about 0). lia.
  - exists (fval (rate (s_transferred x) (s_elapsed x))).
    destruct (rate_spec (s_transferred x) (s_elapsed x) T ltac:(lia)) as (F & S). cbn zeta in *.
    split; auto. apply rate_text_about; auto.
    destruct R as [R|R]; [lia|].
    assert (EP : (0 < fval (s_elapsed x))%Q).
    { unfold fval. apply Qmult_lt_0_compat; [change 0%Q with (inject_Z 0); rewrite <- Zlt_Qlt; lia|apply pow2_pos]. }
    assert (B : (inject_Z (s_transferred x) / fval (s_elapsed x) < inject_Z (2 ^ 59))%Q) by (apply Qlt_shift_div_r; auto).
    assert (P53 : (pow2 (-53) <= 1)%Q) by (vm_compute; discriminate).
    assert (NN : (0 <= inject_Z (s_transferred x) / fval (s_elapsed x))%Q).
    { apply Qle_shift_div_l; auto. rewrite Qmult_0_l. change 0%Q with (inject_Z 0). rewrite <- Zle_Qle. lia. }
    assert (Q : (inject_Z (2 ^ 59) + inject_Z (2 ^ 59) <= inject_Z (1024 ^ 6))%Q) by (vm_compute; discriminate).
    pose proof (pow2_pos (-53)). nra.
Qed.

Lemma chars_visible : forall s, forallb (fun c => 32 <=? c) (chars s) = true -> visible (chars s).
Proof. intros s H. rewrite forallb_forall in H. apply Forall_forall. intros c I. apply H in I. lia. Qed.

Lemma about_visible s x : about s x -> visible s.
Proof.
  intros [(d & n & -> & D & _)|(d & h & u & k & -> & U & D & _)]; apply Forall_app.
  - split; [eapply decimal_visible; eauto|apply chars_visible; reflexivity].
  - split; [eapply decimal_2_visible; eauto|]. apply chars_visible. cbn [In] in U.
    destruct U as [U|[U|[U|[U|[U|[]]]]]]; injection U as <- <-; reflexivity.
Qed.

(* C89: a line with a phase of up to 26 characters has at most 79 columns. *)
Theorem line_fits x : usual x -> plain (s_phase x) ->
  visible (line_text x) /\ (List.length (line_text x) <= 53 + phase_length x)%nat.
Proof.
  intros U P. destruct (line_says x U) as (p & d & e & r & ph & E & L & PP & D & (h & EH & _) & (y & RY & _) & PH).
  assert (VP : visible p).
  { destruct (match s_size x with Some n => n =? 0 | None => true end).
    - subst p. apply chars_visible. reflexivity.
    - destruct PP as (q & -> & k & t & -> & T). apply Forall_app. split; [|apply chars_visible; reflexivity].
      apply Forall_app. split; [|eapply decimal_visible; eauto].
      apply Forall_forall. intros c I. apply repeat_spec in I. lia. }
  split.
  - apply about_visible in D, RY. apply decimal_2_visible in EH.
    assert (VH : visible ph).
    { subst ph. unfold plain in P. destruct (s_phase x) as [[|c s]|]; [constructor| |constructor].
      apply Forall_app. split; auto. apply chars_visible; reflexivity. }
    rewrite E. repeat (apply Forall_app; split); auto; apply chars_visible; reflexivity.
  - destruct U as (T & EL & V & EB & R). unfold line_text. rewrite !app_length.
    change (List.length (chars "[ ")) with 2%nat. change (List.length (chars " ] ")) with 3%nat.
    change (List.length (chars ", ")) with 2%nat. change (List.length (chars " s, ")) with 4%nat.
    change (List.length (chars "/s")) with 2%nat.
    assert (L1 : (List.length (match s_size x with
       | Some n => if (n =? 0)%Z then chars "----" else rjust 3 (JsonModel.dec (Z.max 0 (s_value x))) ++ [37%Z]
       | None => chars "----" end) <= 4)%nat).
    { destruct (s_size x) as [n|]; [|cbn; lia]. destruct (n =? 0); [cbn; lia|].
      rewrite app_length. unfold rjust. rewrite app_length, spaces_length. cbn [List.length].
      assert ((List.length (JsonModel.dec (Z.max 0 (s_value x))) <= 3)%nat) by (apply dec_length; [cbn; lia|lia]).
      lia. }
    assert (L2 : (List.length (size_text (s_transferred x)) <= 11)%nat) by (apply size_text_about; auto).
    assert (L3 : (List.length (two_decimals (hundredths (s_elapsed x))) <= 8 + 3)%nat).
    { apply two_decimals_length; [|lia]. split; [apply hundredths_nonneg; auto|].
      change (100 * 10 ^ Z.of_nat 8) with 10000000000. rewrite Zlt_Qlt. pose proof (hundredths_spec (s_elapsed x)).
      change (inject_Z 10000000000) with 10000000000%Q. lra. }
    assert (L4 : (List.length (if (fst (s_elapsed x) =? 0)%Z then size_text 0
               else rate_text (rate (s_transferred x) (s_elapsed x))) <= 11)%nat).
    { destruct (Z.eqb_spec (fst (s_elapsed x)) 0) as [E0|E0]; [cbn; lia|].
      destruct (rate_spec (s_transferred x) (s_elapsed x) T ltac:(lia)) as (F & S). cbn zeta in *.
      apply rate_text_about; auto.
      destruct R as [R|R]; [lia|].
      assert (EP : (0 < fval (s_elapsed x))%Q).
      { unfold fval. apply Qmult_lt_0_compat; [change 0%Q with (inject_Z 0); rewrite <- Zlt_Qlt; lia|apply pow2_pos]. }
      assert (B : (inject_Z (s_transferred x) / fval (s_elapsed x) < inject_Z (2 ^ 59))%Q) by (apply Qlt_shift_div_r; auto).
      assert (P53 : (pow2 (-53) <= 1)%Q) by (vm_compute; discriminate).
      assert (NN : (0 <= inject_Z (s_transferred x) / fval (s_elapsed x))%Q).
      { apply Qle_shift_div_l; auto. rewrite Qmult_0_l. change 0%Q with (inject_Z 0). rewrite <- Zle_Qle. lia. }
      assert (Q : (inject_Z (2 ^ 59) + inject_Z (2 ^ 59) <= inject_Z (1024 ^ 6))%Q) by (vm_compute; discriminate).
      pose proof (pow2_pos (-53)). nra. }
    assert (L5 : (List.length (match s_phase x with Some [] | None => [] | Some p0 => chars " | " ++ p0 end) <= 3 + phase_length x)%nat).
    { unfold phase_length. destruct (s_phase x) as [[|c s]|]; cbn; lia. }
    unfold text in *. lia.
Qed.

(* C89, partial: all the progress is shown in one row: each line replaces the
   line before, on a terminal of at least 79 columns.  Missing: phases over 26
   characters and narrow terminals, where it is false, see below. *)
Theorem one_row_partial cols l x t :
  Forall (fun y => usual y /\ plain (s_phase y) /\ (phase_length y <= 26)%nat) (l ++ [x]) ->
  (79 <= cols)%nat -> t_col t = O -> Forall (fun y => s_last y = false) l ->
  let t' := draws cols default_width t (l ++ [x]) in
  t_row t' = (if s_last x then S (t_row t) else t_row t) /\ t_col t' = O /\
  row_shows t' (t_row t) 79 (line_text x) /\ only_row t t' (t_row t) 79.
Proof.
  intros F C T N. change default_width with (Z.of_nat 79). apply draws_row; auto.
  eapply Forall_impl; [|exact F]. cbv beta. intros y (U & P & L).
  destruct (line_fits y U P) as (V & W). split; [exact V|]. unfold text in *. lia.
Qed.

(* C89: a bar on a terminal.  After any calls, by any threads, the terminal
   shows the last line of the bar, and nothing else has changed; after close()
   the cursor is in the next row, and the row shows what was transferred and
   the last phase. *)
Theorem bar_on_terminal now p n l cols t :
  let b := exec now l (new now p n) in
  Forall (fun y => usual (shot_of y) /\ plain (s_phase (shot_of y)) /\ (phase_length (shot_of y) <= 26)%nat) (p_lines b) ->
  (79 <= cols)%nat -> t_col t = O ->
  exists ls ln, p_lines b = ls ++ [ln] /\
    let t' := draws cols default_width t (map shot_of (p_lines b)) in
    t_row t' = (if closes l then S (t_row t) else t_row t) /\ t_col t' = O /\
    row_shows t' (t_row t) 79 (line_text (shot_of ln)) /\ only_row t t' (t_row t) 79 /\
    (closes l = true -> l_transferred ln = moved (open_part l) /\ l_phase ln = phase_after p (open_part l)).
Proof.
  cbn zeta. intros F C T. pose proof (one_last_line now p n l) as H. cbn zeta in H.
  destruct (closes l) eqn:K.
  - destruct H as (ls & ln & L & NL & NO & M & P & _). exists ls, ln. split; auto.
    rewrite L in *. rewrite map_app. cbn [map].
    destruct (one_row_partial cols (map shot_of ls) (shot_of ln) t) as (R1 & R2 & R3 & R4); auto.
    { change [shot_of ln] with (map shot_of [ln]). rewrite <- map_app. apply Forall_map. exact F. }
    { apply Forall_map. exact NO. }
    change (s_last (shot_of ln)) with (newline ln) in R1. rewrite NL in R1.
    split; auto.
  - assert (X : exists ls ln, p_lines (exec now l (new now p n)) = ls ++ [ln]).
    { clear. induction l as [|x l IH] using rev_ind; [exists []; eexists; reflexivity|].
      rewrite exec_snoc. destruct (exec1_lines now (exec now l (new now p n)) x) as [(-> & _)|(_ & _ & ->)]; eauto. }
    destruct X as (ls & ln & L). exists ls, ln. split; auto.
    rewrite L in *. rewrite map_app. cbn [map]. apply Forall_app in H as [H1 H2]. inversion H2; subst.
    destruct (one_row_partial cols (map shot_of ls) (shot_of ln) t) as (R1 & R2 & R3 & R4); auto.
    { change [shot_of ln] with (map shot_of [ln]). rewrite <- map_app. apply Forall_map. exact F. }
    { apply Forall_map. exact H1. }
    change (s_last (shot_of ln)) with (newline ln) in R1. rewrite H3 in R1.
    split; auto. split; auto. split; auto. split; auto. discriminate.
Qed.

Definition blank : term := Term (fun _ _ => 32) 0 0.
Definition at_rest (phase : text) (last : bool) : shot := Shot (0, 0) 0 0 (Some 100) (Some phase) last.

(* C89, refuted: a long phase, on a terminal of 80 columns.  Two rows show
   progress. *)
Theorem long_phase_refuted : exists l x,
  Forall (fun y => usual y /\ plain (s_phase y)) (l ++ [x]) /\ Forall (fun y => s_last y = false) l /\
  let t' := draws 80 default_width blank (l ++ [x]) in
  t_cell t' 0 0 = 91 /\ t_cell t' 1 0 = 91 /\ t_row t' = 2%nat.
Proof.
  exists [at_rest (repeat 120 60) false], (at_rest [111; 107] true).
  split; [|split; [repeat constructor|vm_compute; auto]].
  assert (U : forall p b, usual (at_rest p b)).
  { intros p b. unfold usual. cbn. repeat split; try lia. }
  constructor; [|constructor; [|constructor]]; (split; [apply U|]); cbn; repeat constructor; lia.
Qed.

(* C89, refuted: the rest of a long line is left in a wide terminal. *)
Theorem rest_of_line_refuted : exists l x,
  Forall (fun y => usual y /\ plain (s_phase y)) (l ++ [x]) /\ Forall (fun y => s_last y = false) l /\
  let t' := draws 200 default_width blank (l ++ [x]) in
  t_row t' = 1%nat /\ t_cell t' 0 90 = 120.
Proof.
  exists [at_rest (repeat 120 60) false], (at_rest [111; 107] true).
  split; [|split; [repeat constructor|vm_compute; auto]].
  assert (U : forall p b, usual (at_rest p b)).
  { intros p b. unfold usual. cbn. repeat split; try lia. }
  constructor; [|constructor; [|constructor]]; (split; [apply U|]); cbn; repeat constructor; lia.
Qed.

(* C89, refuted: on a terminal of 78 columns every line goes to another row,
   whatever is shown. *)
Theorem narrow_terminal_refuted : exists l x,
  Forall (fun y => usual y /\ plain (s_phase y) /\ (phase_length y <= 26)%nat) (l ++ [x]) /\
  Forall (fun y => s_last y = false) l /\
  let t' := draws 78 default_width blank (l ++ [x]) in
  t_cell t' 0 0 = 91 /\ t_cell t' 1 0 = 91 /\ t_cell t' 2 0 = 91.
Proof.
  exists [at_rest [] false; at_rest [] false], (at_rest [] true).
  split; [|split; [repeat constructor|vm_compute; auto]].
  assert (U : forall p b, usual (at_rest p b)).
  { intros p b. unfold usual. cbn. repeat split; try lia. }
  repeat apply Forall_cons; try apply Forall_nil; (split; [apply U|]); cbn; (split; [constructor|lia]).
Qed.

(* 1.5 GiB of 6 GiB in 2.5 seconds. *)
Example line_case :
  let x := Shot (5, -1) 25 (3 * 2 ^ 29) (Some (6 * 2 ^ 30)) (Some (chars "copying")) false in
  usual x /\ line_text x = chars "[  25% ] 1.50 GiB, 2.50 s, 614.40 MiB/s | copying" /\
  draw_text default_width x = chars "[  25% ] 1.50 GiB, 2.50 s, 614.40 MiB/s | copying                              " ++ [13].
Proof. cbn zeta. split; [|split; vm_compute; reflexivity]. unfold usual. cbn. repeat split; try lia; try discriminate. right. reflexivity. Qed.

Example no_size_case :
  line_text (Shot (0, 0) (-1) 0 None None true) = chars "[ ---- ] 0 bytes, 0.00 s, 0 bytes/s".
Proof. vm_compute. reflexivity. Qed.

(* The bar of a transfer of 1000 bytes; its second line is longer than the
   last. *)
Example terminal_case :
  let l := [OPhase (Some "copying data"%string); OUpdate 250; OUpdate 750; OPhase (Some "done"%string); OClose] in
  let b := exec Z.of_nat l (new Z.of_nat None (Some 1000)) in
  Forall (fun y => usual (shot_of y) /\ plain (s_phase (shot_of y)) /\ (phase_length (shot_of y) <= 26)%nat) (p_lines b) /\
  let t' := draws 100 default_width blank (map shot_of (p_lines b)) in
  map (t_cell t' 0) (seq 0 50) = chars "[ 100% ] 1000 bytes, 6.00 s, 167 bytes/s | done   " /\ t_row t' = 1%nat.
Proof.
  cbn zeta. split; [|vm_compute; auto].
  match goal with |- Forall _ ?x => let y := eval vm_compute in x in change x with y end.
  repeat apply Forall_cons; try apply Forall_nil; (split; [unfold usual; cbn; repeat split; try lia; try discriminate; try (right; reflexivity); try (left; reflexivity)|]);
    cbn; (split; [repeat constructor; lia|lia]).
Qed.

Print Assumptions line_says.
Print Assumptions line_fits.
Print Assumptions one_row_partial.
Print Assumptions bar_on_terminal.
Print Assumptions long_phase_refuted.
Print Assumptions rest_of_line_refuted.
Print Assumptions narrow_terminal_refuted.
