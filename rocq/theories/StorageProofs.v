(* Lemmas about StorageModel. *)
From Coq Require Import ZArith List Bool Lia.
From Verif Require Import BytesLib FileModel FileSpec FileProofs OpsModel OpsProofs StorageModel
  StorageSpec.
Import ListNotations.
Open Scope Z_scope.

(* ---- programs are what FileModel says ---- *)

Lemma bind_ext {A B} (m m' : M A) (f g : A -> M B) s :
  (forall s, m s = m' s) -> (forall a s, f a s = g a s) -> bind m f s = bind m' g s.
Proof. intros H1 H2. unfold bind. rewrite H1. destruct (m' s) as [s1 [a|x]]; auto. Qed.

Lemma run_bind {A B} c (m : prog A) (f : A -> prog B) s :
  run c (bind_p m f) s = bind (run c m) (fun a => run c (f a)) s.
Proof.
  revert s. induction m as [a|x|B' o k IH]; intros s; cbn [bind_p run]; try reflexivity.
  unfold bind. destruct (perform c o s) as [s1 r]. rewrite IH. reflexivity.
Qed.

Lemma run_call c {B} (o : sys B) s : run c (call_ o) s = perform c o s.
Proof. unfold call_. cbn [run]. destruct (perform c o s) as [s1 [b|x]]; reflexivity. Qed.

Lemma run_fallocate c o s : run c (fallocate_p o) s = fallocate (perform c o) s.
Proof.
  unfold fallocate_p, fallocate. cbn [run]. destruct (perform c o s) as [s1 [b|[[]| |]]]; reflexivity.
Qed.

Lemma run_if {A} c (b : bool) (p q : prog A) s :
  run c (if b then p else q) s = if b then run c p s else run c q s.
Proof. destruct b; reflexivity. Qed.

Ltac step_bind := rewrite run_bind; apply bind_ext; [intros; try (rewrite run_call; reflexivity)|intros].

Lemma run_write_unaligned c buf s : run c (write_unaligned_p c buf) s = write_unaligned c buf s.
Proof. unfold write_unaligned_p, write_unaligned. cbv zeta. repeat step_bind. reflexivity. Qed.

Lemma run_write c buf s : run c (write_p c buf) s = write c buf s.
Proof.
  unfold write_p, write. cbv zeta. step_bind. rewrite run_if.
  destruct (_ || _); [apply run_write_unaligned|].
  destruct (aligned c (zlen buf)); apply run_call.
Qed.

Lemma run_write_zeros c buf fuel : forall count s,
  run c (write_zeros_loop_p fuel c buf count) s = write_zeros_loop fuel c buf count s.
Proof.
  induction fuel as [|fuel IH]; intros count s; cbn [write_zeros_loop_p write_zeros_loop]; [reflexivity|].
  rewrite run_if. destruct (count =? 0); [reflexivity|].
  rewrite run_bind. apply bind_ext; [intros; apply run_write|intros; apply IH].
Qed.

Lemma run_finish c a b s : run c (finish_p a b) s = FileModel.finish a b s.
Proof. unfold finish_p, FileModel.finish. step_bind. reflexivity. Qed.

Lemma run_clear c f (g : fst_ -> fst_) s : (forall s, clear_flag f s = g s) ->
  run c (let_ _ <- call_ (SClear f) ; Ret (@None Z)) s = (do _ <- upd g ; ret None) s.
Proof.
  intros H. rewrite run_bind. apply bind_ext; [intros t; rewrite run_call|reflexivity].
  cbn [perform]. unfold upd. now rewrite H.
Qed.

Lemma run_or_else c m m' next next' s :
  (forall s, run c m s = m' s) -> (forall s, run c next s = next' s) ->
  run c (or_else_p m Ret next) s = or_else m' next' s.
Proof.
  intros H1 H2. unfold or_else_p, or_else. rewrite run_bind. apply bind_ext; auto.
  intros [n|] t; auto.
Qed.

Lemma run_file_zero fuel c count s : run c (file_zero_p fuel c count) s = file_zero fuel c count s.
Proof.
  unfold file_zero_p, file_zero. step_bind.
  apply run_or_else; [|intros; apply run_or_else; [|intros; apply run_or_else]]; intros t.
  - step_bind. rewrite run_if. destruct a0; [|reflexivity].
    rewrite run_bind. apply bind_ext; [intros; apply run_fallocate|].
    intros [] u; [apply run_finish|now apply run_clear].
  - step_bind. step_bind. rewrite run_if. destruct (a0 && a1); [|reflexivity].
    rewrite run_bind. apply bind_ext; [intros; apply run_fallocate|].
    intros [] u; [|now apply run_clear].
    rewrite run_bind. apply bind_ext; [intros; apply run_fallocate|].
    intros [] v; [apply run_finish|now apply run_clear].
  - step_bind. rewrite run_if. destruct a0; [|reflexivity]. step_bind. rewrite run_if.
    destruct (_ <=? _); [|reflexivity].
    rewrite run_bind. apply bind_ext; [intros; apply run_fallocate|].
    intros [] u; [apply run_finish|now apply run_clear].
  - rewrite run_bind. apply bind_ext; [intros; apply run_write_zeros|reflexivity].
Qed.

Lemma run_file_zero_sparse fuel c count s :
  run c (file_zero_sparse_p fuel c count) s = file_zero_sparse fuel c count s.
Proof.
  unfold file_zero_sparse_p, file_zero_sparse. apply run_or_else; intros t.
  - step_bind. rewrite run_if. destruct a; [|reflexivity]. step_bind. step_bind.
    unfold or_else_p, or_else'. rewrite run_bind. apply bind_ext.
    + intros u. rewrite run_if. destruct (_ <? _); [|reflexivity]. step_bind.
      rewrite run_if. destruct (_ =? _); [apply run_finish|reflexivity].
    + intros [n|] u; [reflexivity|]. rewrite run_bind. apply bind_ext; [intros; apply run_fallocate|].
      intros [] v; [apply run_finish|now apply run_clear].
  - rewrite run_bind. apply bind_ext; [intros; apply run_write_zeros|reflexivity].
Qed.

Lemma run_block_zero c count s : run c (block_zero_p c count) s = block_zero c count s.
Proof.
  unfold block_zero_p, block_zero. step_bind. apply run_or_else; intros t.
  - step_bind. rewrite run_if. destruct a0; [|reflexivity]. cbn [run perform].
    destruct (sys_zero_range _ _ _ _ _) as [s9 [[]|[[]| |]]]; try reflexivity.
  - repeat step_bind. reflexivity.
Qed.

Lemma run_zero fuel c count s : run c (zero_p fuel c count) s = zero fuel c count s.
Proof.
  unfold zero_p, zero. cbv zeta. step_bind. rewrite run_if.
  destruct (_ || _); [apply run_write_unaligned|]. rewrite run_if.
  destruct (c_block c); [apply run_block_zero|]. rewrite run_if.
  destruct (c_sparse c); [apply run_file_zero_sparse|apply run_file_zero].
Qed.

(* ---- calls made ---- *)

Definition logs (P : call -> Prop) (s s' : fst_) : Prop :=
  exists l, f_log s' = f_log s ++ l /\ Forall P l.

Lemma logs_refl P s : logs P s s.
Proof. exists []. rewrite app_nil_r. auto. Qed.

Lemma logs_same P s s' : f_log s' = f_log s -> logs P s s'.
Proof. intros E. exists []. rewrite app_nil_r. auto. Qed.

Lemma logs_one (P : call -> Prop) s s' k : f_log s' = f_log s ++ [k] -> P k -> logs P s s'.
Proof. intros E H. exists [k]. auto. Qed.

Lemma logs_trans P s1 s2 s3 : logs P s1 s2 -> logs P s2 s3 -> logs P s1 s3.
Proof.
  intros (l1 & E1 & F1) (l2 & E2 & F2). exists (l1 ++ l2). split.
  - rewrite E2, E1, app_assoc. reflexivity.
  - apply Forall_app. auto.
Qed.

(* Where a request may touch the image. *)
Definition call_in (lo hi size : Z) (ro : bool) (k : call) : Prop :=
  match k with
  | CRead p l => lo <= p /\ p + l <= hi
  | CWrite p l | CZeroRange p l | CPunchHole p l | CAllocate p l | CBlkZeroOut p l =>
      ro = false /\ lo <= p /\ 0 <= l /\ p + l <= hi /\ hi <= size
  | CTruncate _ => False
  end.

(* The shape of every system call. *)
Lemma sys_read_shape c buf s s' r : sys_read c buf s = (s', r) ->
  exists n, 0 <= n <= zlen buf /\
    s' = called (CRead (f_pos s) (zlen buf)) (f_data s) (f_pos s + n) s /\
    match r with
    | inl (b, m) => m = n /\ n <= Z.max 0 (zlen (f_data s) - f_pos s) /\
        (0 <= f_pos s < zlen (f_data s) -> buf <> [] -> 0 < n) /\
        b = sub (f_pos s) n (f_data s) ++ drop n buf
    | inr x => n = 0 /\ x <> NoFuel
    end.
Proof.
  unfold sys_read. pose proof (zlen_nonneg buf).
  remember (Z.max 0 (Z.min (zlen buf) (zlen (f_data s) - f_pos s))) as av.
  destruct (c_kernel _ _ _) as [n|e k]; intros H1; injection H1 as <- <-.
  - exists (Z.max (Z.min 1 av) (Z.min av n)). split; [lia|]. split; [reflexivity|].
    split; [reflexivity|]. split; [lia|]. split; [|reflexivity].
    intros L NE. apply zlen_pos in NE. lia.
  - exists 0. split; [lia|]. split; [f_equal; lia|]. split; [reflexivity|congruence].
Qed.

Lemma sys_write_shape c buf s s' r : sys_write c buf s = (s', r) ->
  exists d p, s' = called (CWrite (f_pos s) (zlen buf)) d p s.
Proof.
  unfold sys_write. destruct (c_kernel _ _ _) as [n|e k].
  - destruct (_ && _); intros H; injection H as <- <-; eauto.
  - intros H; injection H as <- <-; eauto.
Qed.

Lemma sys_zero_shape c mk off n s s' r : sys_zero_range c mk off n s = (s', r) ->
  exists d, s' = called (mk off n) d (f_pos s) s.
Proof.
  unfold sys_zero_range. destruct (_ && _); [intros H; injection H as <- <-; eauto|].
  destruct (c_kernel _ _ _) as [m|[] k]; intros H; injection H as <- <-; eauto.
Qed.

Lemma sys_punch_shape c off n s s' r : sys_punch_hole c off n s = (s', r) ->
  exists d, s' = called (CPunchHole off n) d (f_pos s) s.
Proof.
  unfold sys_punch_hole.
  destruct (c_kernel _ _ _) as [m|[] k]; intros H; injection H as <- <-; eauto.
Qed.

Lemma sys_allocate_shape c off n s s' r : sys_allocate c off n s = (s', r) ->
  exists d, s' = called (CAllocate off n) d (f_pos s) s.
Proof.
  unfold sys_allocate.
  destruct (c_kernel _ _ _) as [m|[] k]; intros H; injection H as <- <-; eauto.
Qed.

Lemma fallocate_shape (m : M unit) k s s' r :
  (forall s' r, m s = (s', r) -> exists d, s' = called k d (f_pos s) s) ->
  fallocate m s = (s', r) -> f_log s' = f_log s ++ [k] /\ f_pos s' = f_pos s.
Proof.
  intros H. unfold fallocate. destruct (m s) as [s1 r1]. destruct (H _ _ eq_refl) as (d & ->).
  destruct r1 as [u|[[]| |]]; intros E; injection E as <- <-; auto.
Qed.

Section Foot.
Variables (c : fcfg) (lo hi size : Z).
Hypothesis P2 : pow2 (c_bs c).
Hypothesis LO : 0 <= lo.
Hypothesis LM : lo mod c_bs c = 0.
Hypothesis HM : hi mod c_bs c = 0.
Hypothesis HS : hi <= size.
Let P := call_in lo hi size false.

Lemma block_in pos : lo <= pos < hi ->
  lo <= pos - pos mod c_bs c /\ pos - pos mod c_bs c + c_bs c <= hi.
Proof.
  intros I. pose proof (pow2_pos _ P2) as B.
  apply mod0_mult in LM as (a & EA); auto. apply mod0_mult in HM as (b & EB); auto.
  rewrite EA, EB in *. rewrite Z.mod_eq by lia.
  assert (a <= pos / c_bs c) by (apply Z.div_le_lower_bound; lia).
  assert (pos / c_bs c < b) by (apply Z.div_lt_upper_bound; lia).
  split; nia.
Qed.

Lemma write_unaligned_foot buf s s' r : lo <= f_pos s -> buf <> [] ->
  f_pos s + zlen buf <= hi -> write_unaligned c buf s = (s', r) -> logs P s s'.
Proof.
  intros L NE H. pose proof (zlen_pos _ NE) as LB. pose proof (pow2_pos _ P2) as B.
  destruct (block_in (f_pos s)) as [B1 B2]; [lia|].
  pose proof (Z.mod_pos_bound (f_pos s) (c_bs c) B) as MB.
  unfold write_unaligned, bind, tell, seek, ret.
  destruct (sys_read c _ _) as [s1 r1] eqn:E1. apply sys_read_shape in E1 as (n & N & -> & R1).
  cbn [f_pos set_pos] in *. rewrite zlen_zeros in *.
  assert (L1 : logs P s (called (CRead (f_pos s - f_pos s mod c_bs c) (Z.max 0 (c_bs c)))
      (f_data (set_pos (f_pos s - f_pos s mod c_bs c) s)) (f_pos s - f_pos s mod c_bs c + n)
      (set_pos (f_pos s - f_pos s mod c_bs c) s))).
  { eapply logs_one; [reflexivity|]. cbn. lia. }
  destruct r1 as [[b m]|x].
  2:{ intros E. injection E as <- <-. exact L1. }
  destruct R1 as (-> & R1 & _ & EB). cbn [fst].
  destruct (sys_write c _ _) as [s2 r2] eqn:E2.
  apply sys_write_shape in E2 as (d & p & ->).
  intros E. eapply logs_trans; [exact L1|]. cbn [f_pos set_pos] in *.
  assert (LEN : zlen (assign b (f_pos s mod c_bs c)
            (py_slice 0 (Z.min (zlen buf) (c_bs c - f_pos s mod c_bs c)) buf)) = c_bs c).
  { rewrite py_prefix by lia. unfold assign. rewrite !zlen_app, zlen_take, zlen_drop, !zlen_take.
    assert (zlen b = c_bs c).
    { rewrite EB, zlen_app, zlen_sub, zlen_drop, zlen_zeros. cbn [f_data set_pos] in *. lia. }
    lia. }
  destruct r2 as [q|x]; injection E as <- <-;
    (eapply logs_one; [reflexivity|]; cbn; lia).
Qed.

Lemma sys_write_foot buf s s' r : lo <= f_pos s -> f_pos s + zlen buf <= hi ->
  sys_write c buf s = (s', r) -> logs P s s'.
Proof.
  intros L H E. apply sys_write_shape in E as (d & p & ->).
  eapply logs_one; [reflexivity|]. pose proof (zlen_nonneg buf). cbn. lia.
Qed.

Lemma write_foot buf s s' r : lo <= f_pos s -> buf <> [] ->
  f_pos s + zlen buf <= hi -> write c buf s = (s', r) -> logs P s s'.
Proof.
  intros L NE H. pose proof (zlen_pos _ NE) as LB. unfold write, bind, tell.
  destruct (_ || _) eqn:E1; [apply write_unaligned_foot; auto|].
  destruct (aligned c (zlen buf)); [apply sys_write_foot; auto|].
  pose proof (pow2_pos _ P2) as B.
  pose proof (round_down_bounds (zlen buf) (c_bs c) B ltac:(lia)) as RB.
  intros E. apply sys_write_foot in E; auto. rewrite py_prefix, zlen_take by lia. lia.
Qed.

Hypothesis WR : whole_reads c.
Hypothesis WW : whole_writes c.

Lemma write_zeros_foot m : 0 < m -> c_block c = false -> forall fuel count s s' r,
  lo <= f_pos s -> 0 <= count -> f_pos s + count <= hi ->
  write_zeros_loop fuel c (zeros m) count s = (s', r) -> logs P s s'.
Proof.
  intros M NB. induction fuel as [|fuel IH]; cbn [write_zeros_loop]; intros count s s' r L C H E.
  { injection E as <- <-. apply logs_refl. }
  destruct (count =? 0) eqn:C0; [injection E as <- <-; apply logs_refl|].
  unfold bind in E. rewrite py_prefix in E by lia.
  assert (NE : take count (zeros m) <> []).
  { intros X. apply (f_equal zlen) in X. rewrite zlen_take, zlen_zeros in X. cbn in X. lia. }
  destruct (write c (take count (zeros m)) s) as [s1 r1] eqn:W.
  assert (F : logs P s s1).
  { eapply write_foot; [| | |exact W]; auto. rewrite zlen_take, zlen_zeros. lia. }
  apply write_gen in W; auto; try lia.
  2:{ intros X. congruence. }
  rewrite zlen_take, zlen_zeros in W.
  destruct r1 as [n|x]; [|injection E as <- <-; exact F].
  destruct W as (_ & _ & W). specialize (W WW). destruct W as (N & PP & _).
  eapply logs_trans; [exact F|]. eapply IH; [| | |exact E]; lia.
Qed.

(* attempts to zero without writing *)
Definition fatt (m : M (option Z)) (s : fst_) : Prop :=
  forall s' r, m s = (s', r) -> logs P s s' /\ (r = inl None -> f_pos s' = f_pos s).

Lemma fatt_or m next s : fatt m s -> (forall s1, f_pos s1 = f_pos s ->
    forall s' r, next s1 = (s', r) -> logs P s1 s') ->
  forall s' r, or_else m next s = (s', r) -> logs P s s'.
Proof.
  intros A N s' r. unfold or_else, bind. destruct (m s) as [s1 r1] eqn:E.
  destruct (A _ _ E) as [L Q]. destruct r1 as [[n|]|x].
  - intros H. injection H as <- <-. exact L.
  - intros H. eapply logs_trans; [exact L|]. eapply N; [|exact H]. auto.
  - intros H. injection H as <- <-. exact L.
Qed.

Section Zeroing.
Variables (pos n : Z).
Hypothesis N : 0 < n.
Hypothesis I1 : lo <= pos.
Hypothesis I2 : pos + n <= hi.

Lemma att1 s : f_pos s = pos -> fatt
  (do can <- get f_can_zero_range ;
   if can then
     do ok <- fallocate (sys_zero_range c CZeroRange pos n) ;
     if ok then FileModel.finish pos n else do _ <- upd (set_zero_range false) ; ret None
   else ret None) s.
Proof.
  intros EP s' r. unfold bind, get, ret, upd.
  destruct (f_can_zero_range s).
  2:{ intros H. injection H as <- <-. split; [apply logs_refl|auto]. }
  destruct (fallocate _ s) as [s1 r1] eqn:E.
  eapply (fallocate_shape _ (CZeroRange pos n)) in E as [E1 E2];
    [|intros; eapply sys_zero_shape; eauto].
  assert (L : logs P s s1) by (eapply logs_one; [exact E1|cbn; lia]).
  destruct r1 as [[]|x]; intros H; injection H as <- <-.
  - split; [exact L|discriminate].
  - split; [exact L|]. intros _. exact E2.
  - split; [exact L|discriminate].
Qed.

Lemma att2 s : f_pos s = pos -> fatt
  (do can1 <- get f_can_punch_hole ;
   do can2 <- get f_can_fallocate ;
   if can1 && can2 then
     do ok <- fallocate (sys_punch_hole c pos n) ;
     if ok then
       do ok <- fallocate (sys_allocate c pos n) ;
       if ok then FileModel.finish pos n else do _ <- upd (set_fallocate false) ; ret None
     else do _ <- upd (set_punch_hole false) ; ret None
   else ret None) s.
Proof.
  intros EP s' r. unfold bind, get, ret, upd.
  destruct (_ && _).
  2:{ intros H. injection H as <- <-. split; [apply logs_refl|auto]. }
  destruct (fallocate (sys_punch_hole c pos n) s) as [s1 r1] eqn:E.
  eapply (fallocate_shape _ (CPunchHole pos n)) in E as [E1 E2];
    [|intros; eapply sys_punch_shape; eauto].
  assert (L : logs P s s1) by (eapply logs_one; [exact E1|cbn; lia]).
  destruct r1 as [[]|x].
  2,3: intros H; injection H as <- <-; split; [exact L|auto; discriminate].
  destruct (fallocate (sys_allocate c pos n) s1) as [s2 r2] eqn:E'.
  eapply (fallocate_shape _ (CAllocate pos n)) in E' as [E3 E4];
    [|intros; eapply sys_allocate_shape; eauto].
  assert (L2 : logs P s s2).
  { eapply logs_trans; [exact L|]. eapply logs_one; [exact E3|cbn; lia]. }
  destruct r2 as [[]|x]; intros H; injection H as <- <-; (split; [exact L2|try discriminate]).
  intros _. cbn. congruence.
Qed.

Lemma att3 s : f_pos s = pos -> fatt
  (do can <- get f_can_fallocate ;
   if can then
     do size <- fstat_size ;
     if size <=? pos then
       do ok <- fallocate (sys_allocate c pos n) ;
       if ok then FileModel.finish pos n else do _ <- upd (set_fallocate false) ; ret None
     else ret None
   else ret None) s.
Proof.
  intros EP s' r. unfold bind, get, ret, upd, fstat_size.
  destruct (f_can_fallocate s).
  2:{ intros H. injection H as <- <-. split; [apply logs_refl|auto]. }
  destruct (_ <=? _).
  2:{ intros H. injection H as <- <-. split; [apply logs_refl|auto]. }
  destruct (fallocate _ s) as [s1 r1] eqn:E.
  eapply (fallocate_shape _ (CAllocate pos n)) in E as [E1 E2];
    [|intros; eapply sys_allocate_shape; eauto].
  assert (L : logs P s s1) by (eapply logs_one; [exact E1|cbn; lia]).
  destruct r1 as [[]|x]; intros H; injection H as <- <-; (split; [exact L|try discriminate]).
  intros _. exact E2.
Qed.

Lemma write_zeros_part fuel s1 s' r : c_block c = false -> f_pos s1 = pos ->
  (do _ <- write_zeros fuel c n ; ret n) s1 = (s', r) -> logs P s1 s'.
Proof.
  intros NB EP. unfold bind, write_zeros, ret.
  destruct (write_zeros_loop _ _ _ _ _) as [s2 r2] eqn:E.
  apply write_zeros_foot in E; auto; try lia; [|unfold MiB; lia].
  destruct r2; intros H; injection H as <- <-; exact E.
Qed.

Lemma file_zero_foot fuel s s' r : c_block c = false -> f_pos s = pos ->
  file_zero fuel c n s = (s', r) -> logs P s s'.
Proof.
  intros NB EP. unfold file_zero. unfold bind at 1, tell. rewrite EP.
  revert s' r. apply fatt_or; [now apply att1|]. intros s1 E1.
  apply fatt_or; [apply att2; congruence|]. intros s2 E2.
  apply fatt_or; [apply att3; congruence|]. intros s3 E3 s' r.
  apply write_zeros_part; auto. congruence.
Qed.

Lemma file_zero_sparse_foot fuel s s' r : c_block c = false -> f_pos s = pos ->
  size <= zlen (f_data s) ->
  file_zero_sparse fuel c n s = (s', r) -> logs P s s'.
Proof.
  intros NB EP SZ. unfold file_zero_sparse. revert s' r. apply fatt_or.
  - intros s' r. unfold bind, get, ret, upd, tell, fstat_size, or_else', bind.
    destruct (f_can_punch_hole s).
    2:{ intros H. injection H as <- <-. split; [apply logs_refl|auto]. }
    rewrite EP. replace (zlen (f_data s) <? pos + n) with false by lia.
    destruct (fallocate (sys_punch_hole c pos n) s) as [s1 r1] eqn:E.
    eapply (fallocate_shape _ (CPunchHole pos n)) in E as [E1 E2];
      [|intros; eapply sys_punch_shape; eauto].
    assert (L : logs P s s1) by (eapply logs_one; [exact E1|cbn; lia]).
    destruct r1 as [[]|x]; intros H; injection H as <- <-; (split; [exact L|try discriminate]).
    intros _. cbn. congruence.
  - intros s1 E1 s' r. apply write_zeros_part; auto. congruence.
Qed.

Lemma block_zero_foot s s' r : f_pos s = pos -> block_zero c n s = (s', r) -> logs P s s'.
Proof.
  intros EP. unfold block_zero. unfold bind at 1, tell. rewrite EP. revert s' r. apply fatt_or.
  - intros s' r. unfold bind, get, ret, upd. destruct (f_can_fallocate s).
    2:{ intros H. injection H as <- <-. split; [apply logs_refl|auto]. }
    destruct (sys_zero_range c CZeroRange pos n s) as [s1 r1] eqn:E.
    apply sys_zero_shape in E as (d & ->).
    assert (L : logs P s (called (CZeroRange pos n) d (f_pos s) s))
      by (eapply logs_one; [reflexivity|cbn; lia]).
    destruct r1 as [u|[[]| |]]; intros H; injection H as <- <-; (split; [exact L|]); try discriminate;
      intros _; reflexivity.
  - intros s1 E1 s' r. unfold bind, ret, seek.
    destruct (sys_zero_range c CBlkZeroOut pos n s1) as [s2 r2] eqn:E.
    apply sys_zero_shape in E as (d & ->).
    assert (L : logs P s1 (called (CBlkZeroOut pos n) d (f_pos s1) s1))
      by (eapply logs_one; [reflexivity|cbn; lia]).
    destruct r2 as [u|x]; intros H; injection H as <- <-; exact L.
Qed.
End Zeroing.

Lemma zero_foot fuel count s s' r : lo <= f_pos s -> 0 < count -> f_pos s + count <= hi ->
  size <= zlen (f_data s) -> zero fuel c count s = (s', r) -> logs P s s'.
Proof.
  intros L C H SZ. pose proof (pow2_pos _ P2) as B.
  unfold zero. unfold bind at 1, tell. rewrite aligned_mod by auto.
  pose proof (Z.mod_pos_bound (f_pos s) (c_bs c) B) as MB.
  destruct (_ || _) eqn:E1.
  - apply write_unaligned_foot; auto; [apply zeros_nonnil|rewrite zlen_zeros]; lia.
  - pose proof (round_down_bounds count (c_bs c) B ltac:(lia)) as RB.
    destruct (c_block c) eqn:BL; [apply block_zero_foot with (pos := f_pos s); auto; lia|].
    destruct (c_sparse c).
    + apply file_zero_sparse_foot with (pos := f_pos s); auto; lia.
    + apply file_zero_foot with (pos := f_pos s); auto; lia.
Qed.
End Foot.

(* ---- system calls on a part of the image ---- *)

Definition agree (lo hi : Z) (d1 d2 : list byte) : Prop :=
  zlen d1 = zlen d2 /\ forall i, lo <= i < hi -> getb d1 i = getb d2 i.

Lemma agree_refl lo hi d : agree lo hi d d.
Proof. split; auto. Qed.

(* a change of the part [lo,hi) that depends on this part only *)
Definition local (lo hi size : Z) (f : list byte -> list byte) : Prop :=
  forall d, zlen d = size ->
    zlen (f d) = size /\ (forall i, ~ lo <= i < hi -> getb (f d) i = getb d i) /\
    forall d', agree lo hi d d' -> agree lo hi (f d) (f d').

Lemma local_id lo hi size : local lo hi size (fun d => d).
Proof. intros d E. auto. Qed.

Lemma local_splice lo hi size pos x : 0 <= lo <= pos -> pos + zlen x <= hi -> hi <= size ->
  local lo hi size (fun d => splice d pos x).
Proof.
  intros L H S. pose proof (zlen_nonneg x) as LX.
  assert (SZ : forall d, zlen d = size -> zlen (splice d pos x) = size).
  { intros d E. pose proof (zlen_splice_ge d pos x). lia. }
  intros d E. split; [auto|]. split.
  - intros i I. rewrite getb_splice by lia.
    destruct (pos <=? i) eqn:A, (i <? pos + zlen x) eqn:B; cbn [andb]; auto; lia.
  - intros d' (A1 & A2). split; [rewrite !SZ; congruence|].
    intros i I. rewrite !getb_splice by lia. destruct (_ && _); auto.
Qed.

Lemma local_punch lo hi size pos n : 0 <= lo <= pos -> 0 <= n -> pos + n <= hi -> hi <= size ->
  local lo hi size (fun d => punch d pos n).
Proof.
  intros L N H S.
  intros d E. split; [rewrite zlen_punch; lia|]. split.
  - intros i I. rewrite getb_punch by lia.
    destruct (pos <=? i) eqn:A, (i <? pos + n) eqn:B; cbn [andb]; auto; lia.
  - intros d' (A1 & A2). split; [rewrite !zlen_punch; lia|].
    intros i I. rewrite !getb_punch by lia. destruct (_ && _); auto.
Qed.

Lemma local_zero_range c lo hi size pos n : 0 <= lo <= pos -> 0 <= n -> pos + n <= hi -> hi <= size ->
  local lo hi size (fun d => zero_range c d pos n).
Proof.
  intros. unfold zero_range. destruct (c_block c); [now apply local_punch|].
  apply local_splice; auto. rewrite zlen_zeros. lia.
Qed.

Lemma local_grow lo hi size k : k <= size -> local lo hi size (fun d => d ++ zeros (k - zlen d)).
Proof.
  intros K d E. rewrite E. replace (zeros (k - size)) with (@nil byte).
  2:{ unfold zeros. replace (Z.to_nat (k - size)) with O by lia. reflexivity. }
  rewrite app_nil_r. split; auto. split; auto. intros d' (A & B). rewrite <- A, E.
  replace (zeros (k - size)) with (@nil byte).
  2:{ unfold zeros. replace (Z.to_nat (k - size)) with O by lia. reflexivity. }
  rewrite app_nil_r. split; auto.
Qed.

Lemma take_neg_splice d pos n buf : n <= 0 -> splice d pos (take n buf) = d.
Proof. intros N. rewrite take_nonpos by auto. reflexivity. Qed.

(* A call inside of [lo,hi) gives the same for two images that agree there. *)
Lemma perform_local c B (o : sys B) s s1 r lo hi ro : 0 <= lo ->
  perform c o s = (s1, r) -> logs (call_in lo hi (zlen (f_data s)) ro) s s1 ->
  exists f, local lo hi (zlen (f_data s)) f /\ (ro = true -> forall d, zlen d = zlen (f_data s) -> f d = d) /\
    f (f_data s) = f_data s1 /\
    forall d, agree lo hi (f_data s) d -> perform c o (with_data d s) = (with_data (f d) s1, r).
Proof.
  intros LO E (l & EL & FL). destruct s as [d0 pos nc log zr ph fa]. cbn [f_data f_log] in *.
  assert (ONE : forall k, log ++ [k] = log ++ l -> call_in lo hi (zlen d0) ro k).
  { intros k X. apply app_inv_head in X. subst l. now inversion FL. }
  destruct o; cbn [perform] in *.
  - (* tell *) injection E as <- <-. exists (fun d => d). split; [apply local_id|]. auto.
  - injection E as <- <-. exists (fun d => d). split; [apply local_id|]. auto.
  - injection E as <- <-. exists (fun d => d). split; [apply local_id|]. split; auto. split; auto.
    intros d (A & _). unfold fstat_size. cbn [with_data f_data]. rewrite A. reflexivity.
  - (* read *)
    exists (fun d => d). split; [apply local_id|]. split; auto.
    unfold sys_read, called in *. cbn [f_pos f_data f_calls f_log f_can_zero_range f_can_punch_hole f_can_fallocate with_data] in *.
    destruct (c_kernel c nc (CRead pos (zlen buf))) as [n|e k] eqn:K.
    + injection E as <- <-. split; auto. intros d (A & G). cbn [f_log] in *. rewrite <- A.
      destruct (ONE _ EL) as [I1 I2].
      remember (Z.max (Z.min 1 (Z.max 0 (Z.min (zlen buf) (zlen d0 - pos))))
                  (Z.min (Z.max 0 (Z.min (zlen buf) (zlen d0 - pos))) n)) as m eqn:EM.
      assert (MB : m <= zlen buf) by (pose proof (zlen_nonneg buf); lia).
      clear EM. enough (X : sub pos m d = sub pos m d0) by (rewrite X; reflexivity).
      apply bytes_ext; [rewrite !zlen_sub; lia|].
      intros i I. rewrite zlen_sub in I. rewrite !getb_sub by lia. destruct (i <? m) eqn:X; auto. symmetry. apply G. lia.
    + injection E as <- <-. split; auto.
  - (* write *)
    remember (FSt d0 pos nc log zr ph fa) as s0 eqn:ES.
    assert (RB : room c s0 (zlen buf) <= zlen buf).
    { subst s0. unfold room. cbn [f_data f_pos]. pose proof (zlen_nonneg buf). destruct (c_block c); lia. }
    assert (RE : forall d, agree lo hi d0 d -> room c (with_data d s0) (zlen buf) = room c s0 (zlen buf)).
    { intros d (A & _). subst s0. unfold room. cbn [f_data f_pos with_data]. now rewrite A. }
    unfold sys_write in *. remember (room c s0 (zlen buf)) as rm eqn:RM. clear RM.
    assert (Q1 : f_calls s0 = nc) by now subst. assert (Q2 : f_pos s0 = pos) by now subst.
    assert (Q3 : f_data s0 = d0) by now subst. assert (Q4 : f_log s0 = log) by now subst.
    rewrite Q1, Q2, Q3 in *.
    assert (W : forall d, f_calls (with_data d s0) = nc /\ f_pos (with_data d s0) = pos) by (subst s0; auto).
    destruct (c_kernel c nc (CWrite pos (zlen buf))) as [n|e k] eqn:K.
    + destruct ((rm =? 0) && negb (zlen buf =? 0)) eqn:E0; injection E as <- <-; cbn [called f_log f_data] in *.
      * exists (fun d => d). split; [apply local_id|]. split; auto. split; auto. intros d A.
        rewrite RE by auto. destruct (W d) as [-> ->]. rewrite K, E0. subst s0. reflexivity.
      * rewrite Q4 in EL. destruct (ONE _ EL) as (-> & I1 & I2 & I3 & I4).
        exists (fun d => splice d pos (take (Z.max (Z.min 1 rm) (Z.min rm n)) buf)).
        split; [apply local_splice; try lia; rewrite zlen_take; lia|]. split; [discriminate|].
        split; auto. intros d A.
        rewrite RE by auto. destruct (W d) as [-> ->]. rewrite K, E0. subst s0. reflexivity.
    + injection E as <- <-; cbn [called f_log f_data] in *. rewrite Q4 in EL.
      destruct (ONE _ EL) as (-> & I1 & I2 & I3 & I4).
      exists (fun d => splice d pos (take (Z.min rm k) buf)).
      split; [apply local_splice; try lia; rewrite zlen_take; lia|]. split; [discriminate|].
      split; auto. intros d A.
      rewrite RE by auto. destruct (W d) as [-> ->]. rewrite K. subst s0. reflexivity.
  - (* zero range *)
    unfold sys_zero_range, called in *. cbn [f_pos f_data f_calls f_log f_can_zero_range f_can_punch_hole f_can_fallocate with_data] in *.
    destruct (c_block c && (zlen d0 <? off + n)) eqn:E0.
    { injection E as <- <-. exists (fun d => d). split; [apply local_id|]. split; auto. split; auto.
      intros d (A & _). rewrite <- A, E0. reflexivity. }
    destruct (c_kernel c nc (CZeroRange off n)) as [k|e k] eqn:K; [|destruct e];
      injection E as <- <-; cbn [f_log f_data] in *; destruct (ONE _ EL) as (-> & I1 & I2 & I3 & I4);
      first [ exists (fun d => d); split; [apply local_id|]; split; [auto|]; split; [auto|];
              intros d (A & _); rewrite <- A, E0; reflexivity
            | exists (fun d => zero_range c d off n); split; [apply local_zero_range; lia|]; split; [discriminate|];
              split; [reflexivity|]; intros d (A & _); rewrite <- A, E0; reflexivity
            | exists (fun d => zero_range c d off (Z.max 0 (Z.min k n))); split; [apply local_zero_range; lia|]; split; [discriminate|];
              split; [reflexivity|]; intros d (A & _); rewrite <- A, E0; reflexivity ].
  - unfold sys_zero_range, called in *. cbn [f_pos f_data f_calls f_log f_can_zero_range f_can_punch_hole f_can_fallocate with_data] in *.
    destruct (c_block c && (zlen d0 <? off + n)) eqn:E0.
    { injection E as <- <-. exists (fun d => d). split; [apply local_id|]. split; auto. split; auto.
      intros d (A & _). rewrite <- A, E0. reflexivity. }
    destruct (c_kernel c nc (CBlkZeroOut off n)) as [k|e k] eqn:K; [|destruct e];
      injection E as <- <-; cbn [f_log f_data] in *; destruct (ONE _ EL) as (-> & I1 & I2 & I3 & I4);
      first [ exists (fun d => d); split; [apply local_id|]; split; [auto|]; split; [auto|];
              intros d (A & _); rewrite <- A, E0; reflexivity
            | exists (fun d => zero_range c d off n); split; [apply local_zero_range; lia|]; split; [discriminate|];
              split; [reflexivity|]; intros d (A & _); rewrite <- A, E0; reflexivity
            | exists (fun d => zero_range c d off (Z.max 0 (Z.min k n))); split; [apply local_zero_range; lia|]; split; [discriminate|];
              split; [reflexivity|]; intros d (A & _); rewrite <- A, E0; reflexivity ].
  - unfold sys_punch_hole, called in *. cbn [f_pos f_data f_calls f_log f_can_zero_range f_can_punch_hole f_can_fallocate with_data] in *.
    destruct (c_kernel c nc (CPunchHole off n)) as [k|e k] eqn:K; [|destruct e];
      injection E as <- <-; cbn [f_log f_data] in *; destruct (ONE _ EL) as (-> & I1 & I2 & I3 & I4);
      first [ exists (fun d => d); split; [apply local_id|]; split; [auto|]; split; [auto|];
              intros d (A & _); reflexivity
            | exists (fun d => punch d off n); split; [apply local_punch; lia|]; split; [discriminate|];
              split; [reflexivity|]; intros d (A & _); reflexivity
            | exists (fun d => punch d off (Z.max 0 (Z.min k n))); split; [apply local_punch; lia|]; split; [discriminate|];
              split; [reflexivity|]; intros d (A & _); reflexivity ].
  - unfold sys_allocate, called in *. cbn [f_pos f_data f_calls f_log f_can_zero_range f_can_punch_hole f_can_fallocate with_data] in *.
    destruct (c_kernel c nc (CAllocate off n)) as [m|e k] eqn:K;
      injection E as <- <-; cbn [f_log f_data] in *; destruct (ONE _ EL) as (-> & I1 & I2 & I3 & I4).
    + exists (fun d => d ++ zeros (off + n - zlen d)). split; [apply local_grow; lia|].
      split; [discriminate|]. split; auto.
    + exists (fun d => d). split; [apply local_id|]. auto.
  - unfold sys_truncate, called in *. cbn [f_pos f_data f_calls f_log f_can_zero_range f_can_punch_hole f_can_fallocate with_data] in *.
    destruct (c_kernel c nc (CTruncate n)) as [m|e k] eqn:K;
      injection E as <- <-; cbn [f_log f_data] in *; destruct (ONE _ EL).
  - injection E as <- <-. exists (fun d => d). split; [apply local_id|]. auto.
  - injection E as <- <-. exists (fun d => d). split; [apply local_id|]. split; auto.
    split; [destruct f; reflexivity|]. intros d A. destruct f; reflexivity.
Qed.

Lemma perform_log c B (o : sys B) s s1 r : perform c o s = (s1, r) -> exists l, f_log s1 = f_log s ++ l.
Proof.
  assert (N : f_log s = f_log s ++ []) by (rewrite app_nil_r; reflexivity).
  destruct o; cbn [perform]; intros E.
  - injection E as <- <-. eauto.
  - injection E as <- <-. exists []. exact N.
  - injection E as <- <-. eauto.
  - apply sys_read_shape in E as (n & _ & -> & _). cbn. eauto.
  - apply sys_write_shape in E as (d & p & ->). cbn. eauto.
  - apply sys_zero_shape in E as (d & ->). cbn. eauto.
  - apply sys_zero_shape in E as (d & ->). cbn. eauto.
  - apply sys_punch_shape in E as (d & ->). cbn. eauto.
  - apply sys_allocate_shape in E as (d & ->). cbn. eauto.
  - unfold sys_truncate in E. destruct (c_kernel _ _ _); injection E as <- <-; cbn; eauto.
  - injection E as <- <-. eauto.
  - injection E as <- <-. exists []. destruct f; exact N.
Qed.

Lemma run_log {A} c (p : prog A) : forall s s' r, run c p s = (s', r) -> exists l, f_log s' = f_log s ++ l.
Proof.
  induction p as [a|x|B o k IH]; cbn [run]; intros s s' r E.
  - injection E as <- <-. exists []. now rewrite app_nil_r.
  - injection E as <- <-. exists []. now rewrite app_nil_r.
  - destruct (perform c o s) as [s1 r1] eqn:P. apply perform_log in P as (l1 & L1).
    apply IH in E as (l2 & L2). exists (l1 ++ l2). rewrite L2, L1, app_assoc. reflexivity.
Qed.

(* ---- threads with different parts of the image ---- *)

(* a thread: its part of the image, and what it does when running alone *)
Record job := Job {
  j_lo : Z; j_hi : Z; j_ro : bool;
  j_cfg : fcfg; j_prog : prog reply; j_own : fst_;   (* at the start *)
  j_end : fst_; j_res : reply + exc
}.

(* states of a program running alone *)
Inductive reach {A : Type} (c : fcfg) : prog A -> fst_ -> prog A -> fst_ -> Prop :=
| reach_refl p s : reach c p s p s
| reach_step B (o : sys B) k s s1 r q t :
    perform c o s = (s1, r) -> reach c (k r) s1 q t -> reach c (Sys o k) s q t.

Lemma reach_snoc {A} c (p : prog A) s B (o : sys B) k t t1 r :
  reach c p s (Sys o k) t -> perform c o t = (t1, r) -> reach c p s (k r) t1.
Proof.
  intros H. remember (Sys o k) as q eqn:EQ. revert EQ. induction H; intros EQ E.
  - subst p. eapply reach_step; [exact E|apply reach_refl].
  - eapply reach_step; eauto.
Qed.

Definition japart (a b : job) : Prop :=
  (j_ro a = true /\ j_ro b = true) \/ j_hi a <= j_lo b \/ j_hi b <= j_lo a.

Definition tinv (size : Z) (d0 : list byte) (J : job) (d : list byte) (t : thread) : Prop :=
  exists ds, run (th_cfg t) (th_prog t) (with_data ds (th_own t)) = (j_end J, j_res J) /\
    (th_cfg t = j_cfg J /\
     reach (j_cfg J) (j_prog J) (with_data d0 (j_own J)) (th_prog t) (with_data ds (th_own t))) /\
    zlen d = size /\ agree (j_lo J) (j_hi J) ds d /\
    logs (call_in (j_lo J) (j_hi J) size (j_ro J)) (th_own t) (j_end J).

Lemma tstep_inv size d0 J d t d' t' : 0 <= j_lo J -> tinv size d0 J d t -> tstep d t = Some (d', t') ->
  tinv size d0 J d' t' /\ zlen d' = zlen d /\
  (forall i, ~ j_lo J <= i < j_hi J \/ j_ro J = true -> getb d' i = getb d i).
Proof.
  intros LO (ds & R & (EC & RE) & Z0 & A & L) H. destruct J as [lo hi ro jc jp jw sf rf], t as [c own p].
  cbn [j_lo j_hi j_ro j_cfg j_prog j_own j_end j_res th_cfg th_own th_prog] in *. subst jc.
  unfold tstep in H. cbn [th_cfg th_own th_prog] in H.
  destruct p as [a|x|B o k]; try discriminate. cbn [run] in R.
  destruct (perform c o (with_data ds own)) as [s1 r1] eqn:P.
  pose proof (perform_log _ _ _ _ _ _ P) as (l1 & L1).
  pose proof (run_log _ _ _ _ _ R) as (l2 & L2).
  destruct L as (l & EL & FL).
  assert (X : l = l1 ++ l2).
  { rewrite L2, L1 in EL. cbn [with_data f_log] in EL. rewrite <- app_assoc in EL.
    apply app_inv_head in EL. auto. }
  subst l. apply Forall_app in FL as [F1 F2].
  assert (SZ : zlen ds = size) by (destruct A; lia).
  destruct (perform_local c B o _ _ _ lo hi ro LO P) as (f & FLoc & FId & FE & FA).
  { exists l1. split; auto. cbn [with_data f_data]. rewrite SZ. exact F1. }
  cbn [with_data f_data] in *. rewrite SZ in *.
  specialize (FA d A).
  change (with_data d (with_data ds own)) with (with_data d own) in FA.
  rewrite FA in H. injection H as <- <-. cbn [with_data f_data].
  destruct (FLoc d Z0) as (G1 & G2 & G3).
  destruct (FLoc ds SZ) as (G4 & G5 & G6).
  split; [|split].
  - exists (f ds). cbn [th_cfg th_own th_prog]. split.
    { rewrite FE. replace (with_data (f_data s1) _) with s1; auto. destruct s1. reflexivity. }
    split.
    { split; auto. cbn [j_cfg j_prog j_own]. eapply reach_snoc; [exact RE|].
      rewrite FE, P. destruct s1. reflexivity. }
    split; auto. split; [apply G6; auto|]. exists l2. split; auto.
  - congruence.
  - intros i [I|I]; [apply G2; auto|]. rewrite FId; auto.
Qed.

Lemma tinv_other size d0 J2 d d' t : tinv size d0 J2 d t -> zlen d' = zlen d ->
  (forall i, j_lo J2 <= i < j_hi J2 -> getb d' i = getb d i) -> tinv size d0 J2 d' t.
Proof.
  intros (ds & R & RE & Z0 & (A1 & A2) & L) E G. exists ds. split; auto. split; auto. split; [congruence|].
  split; auto. split; [congruence|]. intros i I. rewrite A2, G; auto.
Qed.

Lemma nth_set_at_eq {A} i (x : A) l y : nth_error l i = Some y -> nth_error (set_at i x l) i = Some x.
Proof. revert i. induction l as [|a l IH]; intros [|i] H; cbn in *; try discriminate; auto. Qed.

Lemma nth_set_at_ne {A} i j (x : A) l : i <> j -> nth_error (set_at i x l) j = nth_error l j.
Proof.
  revert i j. induction l as [|a l IH]; intros [|i] [|j] H; cbn; auto; try congruence.
Qed.

Lemma length_set_at {A} i (x : A) l : length (set_at i x l) = length l.
Proof. revert i. induction l as [|a l IH]; intros [|i]; cbn; auto. Qed.

Section Threads.
Variables (Js : list job) (d0 : list byte).
Hypothesis JA : forall i j a b, i <> j -> nth_error Js i = Some a -> nth_error Js j = Some b -> japart a b.
Hypothesis JL : forall a, In a Js -> 0 <= j_lo a.

Definition ginv (d : list byte) (ts : list thread) : Prop :=
  length ts = length Js /\ zlen d = zlen d0 /\
  (forall i J t, nth_error Js i = Some J -> nth_error ts i = Some t -> tinv (zlen d0) d0 J d t) /\
  (forall x, (forall J, In J Js -> j_ro J = true \/ ~ j_lo J <= x < j_hi J) -> getb d x = getb d0 x).

Lemma execute_inv sched : forall d ts d' ts', ginv d ts -> execute sched d ts = Some (d', ts') -> ginv d' ts'.
Proof.
  induction sched as [|i sched IH]; cbn [execute]; intros d ts d' ts' G E.
  { injection E as <- <-. exact G. }
  destruct (nth_error ts i) as [t|] eqn:N; [|discriminate].
  destruct (tstep d t) as [[d1 t1]|] eqn:S; [|discriminate].
  eapply IH; [|exact E]. clear IH E. destruct G as (G1 & G2 & G3 & G4).
  destruct (nth_error Js i) as [J|] eqn:NJ.
  2:{ apply nth_error_None in NJ. assert (i < length ts)%nat by (apply nth_error_Some; congruence). lia. }
  pose proof (nth_error_In _ _ NJ) as IJ.
  destruct (tstep_inv (zlen d0) d0 J d t d1 t1) as (T1 & T2 & T3); auto.
  { eapply G3; eauto. }
  split; [rewrite length_set_at; auto|]. split; [congruence|]. split.
  - intros j J2 t2 NJ2 N2. destruct (Nat.eq_dec i j) as [<-|NE].
    + rewrite (nth_set_at_eq _ _ _ _ N) in N2. injection N2 as <-.
      rewrite NJ in NJ2. injection NJ2 as <-. exact T1.
    + rewrite nth_set_at_ne in N2 by auto. eapply tinv_other; [eapply G3; eauto|auto|].
      intros x X. apply T3. destruct (JA _ _ _ _ NE NJ NJ2) as [[R _]|[H|H]]; [auto|left; lia|left; lia].
  - intros x X. rewrite T3; auto. destruct (X J IJ); auto.
Qed.

(* When all threads ended: everyone has the result of running alone. *)
Lemma ginv_end d ts i J t r : ginv d ts -> nth_error Js i = Some J -> nth_error ts i = Some t ->
  result t = Some r ->
  j_res J = r /\ forall x, j_lo J <= x < j_hi J -> getb d x = getb (f_data (j_end J)) x.
Proof.
  intros (_ & _ & G & _) NJ N R. destruct (G i J t NJ N) as (ds & RR & _ & _ & (_ & A) & _).
  unfold result in R. destruct (th_prog t) as [a|x|]; try discriminate; injection R as <-;
    cbn [run] in RR; unfold ret, raise in RR; injection RR as E1 E2; (split; [auto|]);
    intros y Y; rewrite <- E1; cbn [with_data f_data]; symmetry; auto.
Qed.
End Threads.
