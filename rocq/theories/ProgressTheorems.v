(* The progress bar: C77. *)
From Coq Require Import ZArith QArith Lqa Lia List Bool String Sorted.
From Verif Require Import FloatLib ProgressModel ProgressSpec ProgressProofs.
Import ListNotations.
Open Scope Z_scope.

Section Bar.
Variable now : nat -> Z.

(* C77: after any calls, by any threads, the bar has the bytes, the phase and
   the size of all the calls made before it was closed. *)
Theorem bar_state p n l : let b := exec now l (new now p n) in
  p_closed b = closes l /\ p_done b = moved (open_part l) /\
  p_phase b = phase_after p (open_part l) /\ p_size b = size_after n (open_part l).
Proof. apply exec_state. Qed.

(* C77: a call draws at most one line, and the line shows the state after the
   call: bytes, size and phase.  Only close() ends the line. *)
Theorem call_draws_one_line p n l x :
  let b := exec now l (new now p n) in let b' := exec now (l ++ [x]) (new now p n) in
  p_lines b' = p_lines b \/
  exists ln, p_lines b' = p_lines b ++ [ln] /\
    l_transferred ln = moved (open_part (l ++ [x])) /\
    l_phase ln = phase_after p (open_part (l ++ [x])) /\
    l_size ln = size_after n (open_part (l ++ [x])) /\
    l_value ln = p_value b' /\ newline ln = (match x with OClose => true | _ => false end).
Proof.
  cbn zeta. pose proof (exec_state now p n (l ++ [x])) as (_ & D & P & S). rewrite exec_snoc in *.
  destruct (exec1_lines now (exec now l (new now p n)) x) as [(-> & _)|(_ & _ & L)]; [left; auto|].
  right. eexists. split; [apply L|]. unfold of_bar. cbn [l_transferred l_phase l_size l_value newline l_last].
  auto.
Qed.

(* C77: a new phase or size is drawn at once. *)
Theorem change_is_drawn p n l : closes l = false ->
  let b := exec now l (new now p n) in
  (forall s, s <> p_phase b -> exists ln, p_lines (exec1 now b (OPhase s)) = p_lines b ++ [ln] /\ l_phase ln = s) /\
  (forall m, m <> p_size b -> exists ln, p_lines (exec1 now b (OSize m)) = p_lines b ++ [ln] /\ l_size ln = m).
Proof.
  intros K. cbn zeta. destruct (exec_state now p n l) as (C & _). rewrite K in C.
  remember (exec now l (new now p n)) as b. split.
  - intros s N. cbn [exec1]. unfold set_phase. rewrite C.
    destruct (opt_eqb String.eqb (p_phase b) s) eqn:E; [apply (opt_eqb_spec _ String.eqb_eq) in E; congruence|].
    eexists. split; reflexivity.
  - intros s N. cbn [exec1]. unfold set_size. rewrite C.
    destruct (opt_eqb Z.eqb (p_size b) s) eqn:E; [apply (opt_eqb_spec _ Z.eqb_eq) in E; congruence|].
    eexists. split; reflexivity.
Qed.

(* C77: once closed, nothing changes and nothing is drawn. *)
Theorem nothing_after_close p n l l2 : closes l = true ->
  exec now (l ++ l2) (new now p n) = exec now l (new now p n).
Proof.
  intros K. rewrite exec_app. apply closed_exec. destruct (exec_state now p n l) as (C & _). congruence.
Qed.

(* C77: exactly one line ends the bar, the last one, and it shows all that was
   transferred and the current phase; a bar that is not closed has none. *)
Theorem one_last_line p n l : let b := exec now l (new now p n) in
  if closes l then
    exists ls ln, p_lines b = ls ++ [ln] /\ newline ln = true /\ Forall (fun x => newline x = false) ls /\
      l_transferred ln = moved (open_part l) /\ l_phase ln = phase_after p (open_part l) /\
      l_size ln = size_after n (open_part l)
  else Forall (fun x => newline x = false) (p_lines b).
Proof.
  cbn zeta. induction l as [|x l IH] using rev_ind; [cbn; repeat constructor|].
  rewrite closes_app. destruct (closes l) eqn:K; cbn [orb].
  - rewrite nothing_after_close, open_part_app, K by auto. apply IH.
  - pose proof (exec_state now p n (l ++ [x])) as (_ & D & P & S). pose proof (exec_state now p n l) as (C & _).
    rewrite exec_snoc in *. remember (exec now l (new now p n)) as b. rewrite K in C.
    destruct x as [s|m|m|]; cbn [closes existsb orb].
    1-3: match goal with |- Forall _ (p_lines (exec1 ?nw ?c ?o)) => destruct (exec1_lines nw c o) as [(-> & _)|(_ & _ & ->)] end; auto;
      apply Forall_app; split; auto; repeat constructor.
    exists (p_lines b). cbn [exec1] in *. unfold close in *. rewrite C in *. eexists. split; [reflexivity|].
    split; [reflexivity|]. split; auto.
Qed.

(* C77: when the block of the with statement fails, the last line shows the
   error phase. *)
Theorem failure_is_shown p n l e : closes l = false ->
  exists ls ln, p_lines (exec now (l ++ leave e true) (new now p n)) = ls ++ [ln] /\
    newline ln = true /\ l_phase ln = e /\ l_transferred ln = moved (open_part l).
Proof.
  intros K. pose proof (one_last_line p n (l ++ leave e true)) as H. cbn zeta in H.
  rewrite closes_app, K, open_part_app, K in H. cbn [leave app closes existsb orb open_part] in H.
  destruct H as (ls & ln & L & N & _ & T & P & _). exists ls, ln. rewrite moved_app in T. rewrite phase_after_app in P.
  cbn [moved phase_after] in *. split; [exact L|]. repeat split; auto. lia.
Qed.

(* C77: the percents never go back. *)
Theorem percents_grow p n l :
  StronglySorted (fun a b => l_value a <= l_value b) (p_lines (exec now l (new now p n))).
Proof.
  enough (H : let b := exec now l (new now p n) in
    StronglySorted (fun a b => l_value a <= l_value b) (p_lines b) /\ Forall (fun x => l_value x <= p_value b) (p_lines b))
    by apply H.
  cbn zeta. induction l as [|x l IH] using rev_ind; [cbn; repeat constructor; cbn; lia|].
  rewrite exec_snoc. remember (exec now l (new now p n)) as b. destruct IH as (IH1 & IH2).
  destruct (p_closed b) eqn:C; [rewrite exec1_closed; auto|].
  destruct (exec1_open now b x C) as (_ & _ & _ & _ & V).
  assert (F : Forall (fun x0 => l_value x0 <= p_value (exec1 now b x)) (p_lines b))
    by (eapply Forall_impl; [|exact IH2]; cbn; intros; lia).
  destruct (exec1_lines now b x) as [(-> & _)|(_ & _ & ->)]; auto.
  remember (of_bar now (exec1 now b x) (p_tick b) _) as ln.
  assert (E : l_value ln = p_value (exec1 now b x)) by (subst ln; reflexivity). split.
  - clear - IH1 F E. induction (p_lines b) as [|y ls IHl]; cbn; [repeat constructor|].
    inversion IH1; subst. inversion F; subst. constructor; auto. apply Forall_app. split; auto.
    constructor; auto. rewrite E. auto.
  - apply Forall_app. split; auto. constructor; auto. rewrite E. lia.
Qed.

(* C77: the time shown never goes back, if the clock does not. *)
Theorem elapsed_grows p n l : (forall a b, (a <= b)%nat -> now a <= now b) ->
  StronglySorted (fun a b => l_elapsed a <= l_elapsed b) (p_lines (exec now l (new now p n))) /\
  Forall (fun x => 0 <= l_elapsed x) (p_lines (exec now l (new now p n))).
Proof.
  intros M.
  enough (H : let b := exec now l (new now p n) in
    StronglySorted (fun a b => l_elapsed a <= l_elapsed b) (p_lines b) /\
    Forall (fun x => 0 <= l_elapsed x <= now (p_tick b) - now O) (p_lines b)).
  { split; [apply H|]. eapply Forall_impl; [|apply H]. cbn. intros; lia. }
  cbn zeta. induction l as [|x l IH] using rev_ind.
  { cbn. pose proof (M 0%nat 1%nat ltac:(lia)). pose proof (M 1%nat 2%nat ltac:(lia)). repeat constructor; cbn; lia. }
  rewrite exec_snoc. remember (exec now l (new now p n)) as b. destruct IH as (IH1 & IH2).
  destruct (exec1_lines now b x) as [(-> & ->)|(_ & -> & ->)]; auto.
  remember (of_bar now (exec1 now b x) (p_tick b) _) as ln.
  assert (E : l_elapsed ln = now (p_tick b) - now O) by (subst ln; reflexivity).
  pose proof (M (p_tick b) (S (p_tick b)) ltac:(lia)). pose proof (M O (p_tick b) ltac:(lia)). split.
  - clear - IH1 IH2 E. induction (p_lines b) as [|y ls IHl]; cbn; [repeat constructor|].
    inversion IH1; subst. inversion IH2; subst. constructor; auto. apply Forall_app. split; auto.
    constructor; auto. rewrite E. lia.
  - apply Forall_app. split; [eapply Forall_impl; [|exact IH2]; cbn; intros; lia|]. constructor; auto. rewrite E. lia.
Qed.

(* The updates of a bar whose size does not change. *)
Lemma fixed_size p s l : 0 < s -> no_size l -> forward l ->
  let b := exec now l (new now p (Some s)) in
  0 <= p_done b /\ p_size b = Some s /\
  (p_value b = -1 /\ ~ (exists k, In (OUpdate k) (open_part l)) \/ p_value b = percent (p_done b) s).
Proof.
  intros S NS F. cbn zeta. induction l as [|x l IH] using rev_ind.
  { cbn. split; [lia|]. split; auto. left. split; auto. intros (k & []). }
  assert (NS' : no_size l) by (intros m I; apply (NS m), in_or_app; auto).
  assert (F' : forward l) by (intros m I; apply (F m), in_or_app; auto).
  destruct (IH NS' F') as (D & Z0 & V). clear IH. rewrite exec_snoc, open_part_app.
  pose proof (exec_state now p (Some s) l) as (C & _).
  remember (exec now l (new now p (Some s))) as b. destruct (closes l) eqn:K.
  { rewrite exec1_closed by auto. auto. }
  destruct b as [ph sz dn v c t ls]. cbn [p_closed p_size p_done p_value] in *. subst c sz.
  destruct x as [s'|m|m|]; cbn [exec1 open_part].
  - unfold set_phase. cbn [p_closed p_phase]. split.
    { destruct (opt_eqb _ _ _); cbn; auto. }
    split; [destruct (opt_eqb _ _ _); cbn; auto|].
    destruct V as [(V & N)|V].
    + left. split; [destruct (opt_eqb _ _ _); cbn; auto|]. intros (k & I). apply in_app_or in I as [I|[I|[]]]; [eauto|discriminate].
    + right. destruct (opt_eqb _ _ _); cbn; auto.
  - exfalso. apply (NS m), in_or_app. right. left. auto.
  - assert (0 <= m) by (apply F, in_or_app; right; left; auto).
    unfold update. cbn [p_closed p_size p_done p_value]. replace (0 <? s) with true by lia.
    assert (P : percent dn s <= percent (dn + m) s) by (apply percent_mono; lia).
    pose proof (percent_nonneg (dn + m) s S).
    destruct (Z.ltb_spec v (percent (dn + m) s)); cbn; (split; [lia|]; split; auto; right).
    destruct V as [(V & _)|V]; lia.
  - unfold close. cbn. rewrite app_nil_r. auto.
Qed.

(* C77: with a known size, the value of the bar is always the percents of the
   bytes transferred, and the line drawn last shows it. *)
Theorem bar_is_current p s l : 0 < s -> no_size l -> forward l ->
  (exists k, In (OUpdate k) (open_part l)) ->
  exists ls ln, p_lines (exec now l (new now p (Some s))) = ls ++ [ln] /\
    shown ln = Some (percent (moved (open_part l)) s).
Proof.
  intros S NS F U. destruct (fixed_size p s l S NS F) as (_ & _ & V).
  destruct V as [(_ & N)|V]; [contradiction|].
  destruct (exec_state now p (Some s) l) as (_ & D & _). rewrite D in V.
  enough (H : exists ls ln, p_lines (exec now l (new now p (Some s))) = ls ++ [ln] /\
    l_value ln = p_value (exec now l (new now p (Some s))) /\ l_size ln = Some s).
  { destruct H as (ls & ln & L & E & Z0). exists ls, ln. split; auto. unfold shown. rewrite Z0, E, V.
    replace (s =? 0) with false by lia. f_equal. apply Z.max_r, percent_nonneg; auto. }
  clear V D U. induction l as [|x l IH] using rev_ind.
  { exists []. eexists. split; [reflexivity|]. auto. }
  assert (NS' : no_size l) by (intros m I; apply (NS m), in_or_app; auto).
  assert (F' : forward l) by (intros m I; apply (F m), in_or_app; auto).
  specialize (IH NS' F'). destruct (fixed_size p s (l ++ [x]) S NS F) as (_ & Z1 & _).
  rewrite exec_snoc in *. remember (exec now l (new now p (Some s))) as b.
  destruct (exec1_lines now b x) as [(L & T)|(_ & _ & ->)].
  - destruct IH as (ls & ln & E & V & Z0). exists ls, ln. rewrite L. split; auto. split; auto.
    rewrite V. clear - L. destruct b as [ph sz dn v c t ls]. destruct x as [q|q|q|];
      cbn [exec1] in *; unfold set_phase, set_size, update, close in *; cbn [p_closed p_phase p_size p_done p_value p_lines p_tick] in *;
      destruct c; auto.
    + destruct (opt_eqb _ _ _); auto.
    + destruct (opt_eqb _ _ _); auto.
    + destruct sz as [sz|]; auto. destruct (0 <? sz); auto. destruct (v <? _); auto.
      cbn [draw p_lines] in L. exfalso. apply (f_equal (@List.length _)) in L. rewrite app_length in L. cbn in L. lia.
  - eexists. eexists. split; [reflexivity|]. split; [reflexivity|]. unfold of_bar. cbn [l_size]. auto.
Qed.

(* C77: the bar does not flood the terminal: one line per percent, the first
   line, the last line, and one line per change of the phase. *)
Theorem number_of_lines p n l :
  let b := exec now l (new now p n) in
  Z.of_nat (List.length (p_lines b)) <= 3 + p_value b + Z.of_nat (changes l) /\ -1 <= p_value b.
Proof.
  enough (H : let b := exec now l (new now p n) in
    Z.of_nat (List.length (p_lines b)) <= 2 + p_value b + Z.of_nat (changes l) + (if p_closed b then 1 else 0) /\
    -1 <= p_value b).
  { cbn zeta in *. destruct (p_closed _); lia. }
  cbn zeta. induction l as [|x l IH] using rev_ind; [cbn; lia|].
  rewrite exec_snoc. remember (exec now l (new now p n)) as b.
  unfold changes in *. rewrite filter_app, app_length.
  destruct (p_closed b) eqn:C; [rewrite exec1_closed, C by auto; lia|].
  destruct (exec1_open now b x C) as (C' & _ & _ & _ & V). rewrite C'.
  destruct b as [ph sz dn v c t ls]. cbn [p_closed p_lines p_value] in *. subst c.
  destruct x as [q|q|q|]; cbn [exec1 filter List.length] in *; unfold set_phase, set_size, update, close in *;
    cbn [p_closed p_phase p_size p_done p_value p_lines p_tick] in *.
  - destruct (opt_eqb _ _ _); cbn [draw p_lines p_value] in *; rewrite ?app_length; cbn [List.length]; lia.
  - destruct (opt_eqb _ _ _); cbn [draw p_lines p_value] in *; rewrite ?app_length; cbn [List.length]; lia.
  - destruct sz as [sz|]; cbn [p_lines p_value]; [|lia]. destruct (0 <? sz); cbn [p_lines p_value]; [|lia].
    destruct (Z.ltb_spec v (percent (dn + q) sz)); cbn [draw p_lines p_value] in *; rewrite ?app_length; cbn [List.length]; lia.
  - cbn [draw p_lines p_value] in *. rewrite app_length. cbn [List.length]. lia.
Qed.

Theorem at_most_103_lines p s l : 0 < s -> no_size l -> forward l -> moved (open_part l) <= s ->
  Z.of_nat (List.length (p_lines (exec now l (new now p (Some s))))) <= 103 + Z.of_nat (changes l).
Proof.
  intros S NS F M. destruct (number_of_lines p (Some s) l) as (N & _). cbn zeta in *.
  destruct (fixed_size p s l S NS F) as (D & _ & V). destruct (exec_state now p (Some s) l) as (_ & E & _).
  assert (p_value (exec now l (new now p (Some s))) <= 100); [|lia].
  destruct V as [(-> & _)| ->]; [lia|]. apply percent_at_most; lia.
Qed.

End Bar.

(* C77: the percents are right within 1, whatever the size. *)
Theorem percents_within_one d s : 0 <= d <= s -> 0 < s ->
  100 * d / s - 1 <= percent d s <= 100 * d / s + 1 /\ 0 <= percent d s <= 100.
Proof.
  intros D S. pose proof (percent_close d s D S). pose proof (percent_nonneg d s S). pose proof (percent_at_most d s D S). lia.
Qed.

(* C77: up to 32 TiB, p% is shown only if p percents are transferred, and not
   more than p + 1 percents. *)
Theorem percents_not_ahead d s : 0 <= d <= s -> 0 < s <= 2 ^ 45 ->
  percent d s * s <= 100 * d <= (percent d s + 1) * s.
Proof. apply percent_tight. Qed.

(* C77: up to 8 PiB, 100% is shown if and only if all is transferred. *)
Theorem full_when_done d s : 0 <= d <= s -> 0 < s <= 2 ^ 53 -> (percent d s = 100 <-> d = s).
Proof.
  intros D S. split; intros H.
  - destruct (Z.eq_dec d s); auto. pose proof (percent_not_early d s ltac:(lia) ltac:(lia)). lia.
  - subst d. pose proof (percent_full s s ltac:(lia)). pose proof (percent_at_most s s ltac:(lia) ltac:(lia)). lia.
Qed.

(* C77: humansize shows the size in the largest unit with a number of at least
   1, correctly rounded to two decimals, up to 8 PiB. *)
Theorem humansize_is_right n : 0 <= n <= 2 ^ 53 ->
  let z := humansize n in
  if n <? 1024 then z_unit z = 0 /\ z_hundredths z = 100 * n
  else 1 <= z_unit z <= 5 /\ 1024 ^ z_unit z <= n < 1024 ^ (z_unit z + 1) /\
    2 * Z.abs (100 * n - 1024 ^ z_unit z * z_hundredths z) <= 1024 ^ z_unit z.
Proof.
  intros N. cbn zeta. destruct (Z.ltb_spec n 1024) as [L|L].
  - unfold humansize. replace (n <? 1024) with true by lia. cbn [z_unit z_hundredths]. lia.
  - destruct (humansize_spec n ltac:(lia)) as (k & K & ->). cbn [z_unit z_hundredths].
    assert (0 < k).
    { destruct (Z.lt_ge_cases 0 k); auto. exfalso. assert (k + 1 <= 1) by lia.
      assert (1024 ^ (k + 1) <= 1024 ^ 1) by (destruct (Z.lt_ge_cases (k + 1) 0); [rewrite Z.pow_neg_r; lia|apply Z.pow_le_mono_r; lia]). lia. }
    assert (k < 6).
    { destruct (Z.lt_ge_cases k 6); auto. exfalso. assert (X : 1024 ^ 6 <= 1024 ^ k) by (apply Z.pow_le_mono_r; lia).
      change (1024 ^ 6) with 1152921504606846976 in X. lia. }
    split; [lia|]. split; auto. apply rne_spec. apply Z.pow_pos_nonneg; lia.
Qed.

(* C77, refuted: the percents are rounded down from the exact value: 29 bytes of
   100 are 28%. *)
Theorem percents_exact_refuted : exists d s, 0 <= d <= s /\ 0 < s /\ 100 * d mod s = 0 /\ percent d s <> 100 * d / s.
Proof. exists 29, 100. repeat split; try lia. vm_compute. discriminate. Qed.

(* C77, refuted: 100% before all is transferred, for a size over 8 PiB. *)
Theorem full_early_refuted : exists d s, 0 <= d < s /\ percent d s = 100.
Proof. exists (2 ^ 54 - 1), (2 ^ 54). split; [lia|reflexivity]. Qed.

(* C77, refuted: a size set after the bytes are transferred, the line shows 0%
   of the 50 bytes of 100. *)
Theorem late_size_refuted : exists l, moved l = 50 /\ size_after None l = Some 100 /\
  exists ls ln, p_lines (exec (fun _ => 0) l (new (fun _ => 0) None None)) = ls ++ [ln] /\
    l_transferred ln = 50 /\ l_size ln = Some 100 /\ shown ln = Some 0.
Proof.
  exists [OUpdate 50; OSize (Some 100)]. repeat split. eexists [_]. eexists. split; [vm_compute; reflexivity|]. auto.
Qed.

(* C77, refuted: humansize of 2^60 is shown as "1.00 PiB". *)
Theorem humansize_large_refuted : humansize (2 ^ 60) = Shown 100 5 /\ 2 ^ 60 = 1024 * 1024 ^ 5.
Proof. split; vm_compute; reflexivity. Qed.

(* A bar of a transfer of 1000 bytes by two threads: 0%, 25%, 60%, 100%. *)
Example bar_case :
  let l := [OPhase (Some "copying"%string); OUpdate 0; OUpdate 250; OUpdate 5; OUpdate 345; OUpdate 400; OClose; OUpdate 7] in
  no_size l /\ forward l /\ moved (open_part l) = 1000 /\ closes l = true /\
  map (fun x => (shown x, l_transferred x, newline x)) (p_lines (exec Z.of_nat l (new Z.of_nat None (Some 1000)))) =
    [(Some 0, 0, false); (Some 0, 0, false); (Some 0, 0, false); (Some 25, 250, false); (Some 60, 600, false);
     (Some 100, 1000, false); (Some 100, 1000, true)].
Proof.
  cbn zeta. split; [intros n I; cbn in I; intuition discriminate|].
  split; [intros n I; cbn in I; intuition (try discriminate); match goal with H : OUpdate _ = OUpdate _ |- _ => injection H; lia end|].
  repeat split. 
Qed.

Example failure_case : exists ls ln,
  p_lines (exec Z.of_nat ([OUpdate 50] ++ leave (Some "command failed"%string) true) (new Z.of_nat None (Some 100))) = ls ++ [ln] /\
  l_phase ln = Some "command failed"%string /\ shown ln = Some 50 /\ newline ln = true.
Proof. eexists [_; _; _]. eexists. split; [vm_compute; reflexivity|]. auto. Qed.

Example change_case :
  let b := exec Z.of_nat [OUpdate 50] (new Z.of_nat None (Some 100)) in
  Some "x"%string <> p_phase b /\ Some 7 <> p_size b /\ closes [OUpdate 50] = false.
Proof. vm_compute. repeat split; discriminate. Qed.

Example percents_case : percent 333 1000 = 33 /\ percent (6 * 2 ^ 30 - 1) (6 * 2 ^ 30) = 99 /\ percent 29 100 = 28.
Proof. vm_compute. auto. Qed.

Example humansize_case : humansize 1023 = Shown 102300 0 /\ humansize (6 * 2 ^ 30) = Shown 600 3 /\ humansize 1500 = Shown 146 1.
Proof. vm_compute. auto. Qed.

Print Assumptions bar_state.
Print Assumptions call_draws_one_line.
Print Assumptions change_is_drawn.
Print Assumptions nothing_after_close.
Print Assumptions one_last_line.
Print Assumptions failure_is_shown.
Print Assumptions percents_grow.
Print Assumptions elapsed_grows.
Print Assumptions bar_is_current.
Print Assumptions number_of_lines.
Print Assumptions at_most_103_lines.
Print Assumptions percents_within_one.
Print Assumptions percents_not_ahead.
Print Assumptions full_when_done.
Print Assumptions humansize_is_right.
Print Assumptions percents_exact_refuted.
Print Assumptions full_early_refuted.
Print Assumptions late_size_refuted.
Print Assumptions humansize_large_refuted.
