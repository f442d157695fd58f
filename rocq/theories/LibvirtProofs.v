From Coq Require Import ZArith List Bool Lia.
From Verif Require Import BytesLib HeaderModel HttpModel OpsModel OpsTheorems ImagesModel ImagesSpec ExtentsModel ExtentsSpec
  ClientIoSpec HttpBackendModel HttpBackendSpec HttpBackendProofs HttpBackendTheorems ApiModel ApiSpec ApiProofs ApiTheorems
  TransferSpec TransferProofs StreamSpec StreamProofs LibvirtModel LibvirtSpec.
Import ListNotations.
Open Scope Z_scope.

(* ---- the stream ---- *)

Definition took (s : list segment) (d : list byte) (s' : list segment) : Prop :=
  (forall off run, packed off run s = packed off (run ++ d) s') /\
  contents s = d ++ contents s' /\ steps s = (length d + steps s')%nat /\ (sound s -> sound s').

Lemma took_skip s d s' : took s d s' -> took (SegData [] :: s) d s'.
Proof.
  intros (A & B & C & D). split; [|split; [|split]]; auto.
  - intros. cbn [packed]. rewrite app_nil_r. auto.
  - intros S. apply D. intros n I. apply S. right. auto.
Qed.

Lemma took_none s : took s [] s.
Proof. split; [|split; [|split]]; auto. intros. rewrite app_nil_r. auto. Qed.

Lemma recv_ok a nb : forall s x s', recv a nb s = (x, s') -> 0 < nb ->
  (a = AFails /\ exists e, x = inr e) \/
  (a = ABlocks /\ x = inl RBlock) \/
  (exists n t, x = inl RHole /\ s' = SegHole n :: t /\ took s [] s') \/
  (x = inl (RData []) /\ s' = [] /\ took s [] s') \/
  (exists d, d <> [] /\ zlen d <= nb /\ x = inl (RData d) /\ took s d s').
Proof.
  destruct a as [m| |].
  2:{ intros [|[] ?] x s' [= <- <-]; auto. }
  2:{ intros [|[] ?] x s' [= <- <-]; left; eauto. }
  induction s as [|[d|n] s IH]; intros x s' E N; cbn [recv] in E.
  - injection E as <- <-. do 3 right. left. split; auto. split; auto. apply took_none.
  - destruct d as [|b d].
    + destruct (IH x s' E N) as [H|[H|[(n & t & H & H1 & H2)|[(H & H1 & H2)|(d & H & H1 & H2 & H3)]]]]; auto.
      * do 2 right. left. exists n, t. split; auto. split; auto. apply took_skip; auto.
      * do 3 right. left. split; auto. split; auto. apply took_skip; auto.
      * do 4 right. exists d. split; auto. split; auto. split; auto. apply took_skip; auto.
    + remember (b :: d) as l. remember (Z.max 1 (Z.min m (Z.min nb (zlen l)))) as z.
      assert (L : 0 < zlen l) by (subst l; rewrite zlen_cons; pose proof (zlen_nonneg d); lia).
      injection E as <- <-. do 4 right. exists (take z l).
      assert (T : zlen (take z l) = z) by (rewrite zlen_take; lia).
      split. { intros H. rewrite H in T. cbn in T. lia. }
      split; [lia|]. split; auto. split; [|split; [|split]].
      * intros. cbn [packed]. rewrite <- app_assoc, take_drop. auto.
      * cbn [contents]. rewrite app_assoc, take_drop. auto.
      * cbn [steps]. rewrite <- (take_drop z l) at 1. rewrite app_length. lia.
      * intros S k [H|I]; [discriminate|]. apply S. right. auto.
  - injection E as <- <-. do 2 right. left. exists n, s. split; auto. split; auto. apply took_none.
Qed.

(* ---- frames ---- *)

Definition vf (f : vframe) : frame :=
  match f with (a, n, Some d) => FData a d | (a, n, None) => FZero a n end.

Definition good (f : vframe) : Prop :=
  match f with (a, n, Some d) => n = zlen d /\ d <> [] /\ 0 <= a | (a, n, None) => 0 < n /\ 0 <= a end.

Definition vlen (f : vframe) : Z := let '(_, n, _) := f in n.

Fixpoint total_of (fs : list vframe) : Z := match fs with [] => 0 | f :: fs => vlen f + total_of fs end.

Lemma total_app l m : total_of (l ++ m) = total_of l + total_of m.
Proof. induction l; cbn [app total_of]; lia. Qed.

Lemma replaced_merge img i1 i2 a d1 d2 : 0 <= a ->
  replaced img i1 a (zlen d1) (getb d1) -> replaced i1 i2 (a + zlen d1) (zlen d2) (getb d2) ->
  replaced img i2 a (zlen (d1 ++ d2)) (getb (d1 ++ d2)).
Proof.
  intros A (R1 & O1 & L1) (R2 & O2 & L2). rewrite zlen_app. pose proof (zlen_nonneg d1). pose proof (zlen_nonneg d2).
  split; [|split].
  - intros i I. rewrite getb_app by lia. destruct (Z.ltb_spec (i - a) (zlen d1)).
    + rewrite O2 by lia. apply R1. lia.
    + rewrite R2 by lia. f_equal. lia.
  - intros i I. rewrite O2, O1 by lia. auto.
  - destruct (Z.eqb_spec (zlen d1) 0), (Z.eqb_spec (zlen d2) 0), (Z.eqb_spec (zlen d1 + zlen d2) 0); lia.
Qed.

Lemma packed_merge : forall s off d run img img', 0 <= off ->
  restored (FData off d :: packed (off + zlen d) run s) img img' -> restored (packed off (d ++ run) s) img img'.
Proof.
  induction s as [|[e|n] s IH]; intros off d run img img' O (i1 & W & R); cbn [packed] in *.
  - destruct R as (i2 & W2 & ->). exists i2. split; [|reflexivity]. cbn [written] in *. eapply replaced_merge; eauto.
  - rewrite <- app_assoc. apply IH; auto. exists i1. auto.
  - destruct R as (i2 & W2 & R). exists i2. split. { cbn [written] in *. eapply replaced_merge; eauto. }
    rewrite zlen_app, Z.add_assoc. auto.
Qed.

Lemma packed_inside : forall s off d run i, 0 <= off ->
  (exists f, In f (FData off d :: packed (off + zlen d) run s) /\ inside f i) ->
  exists f, In f (packed off (d ++ run) s) /\ inside f i.
Proof.
  induction s as [|[e|n] s IH]; intros off d run i O (f & I & F); cbn [packed] in *.
  - exists (FData off (d ++ run)). split; [left; auto|]. unfold inside in *. cbn [fstart flength].
    rewrite zlen_app. pose proof (zlen_nonneg d). pose proof (zlen_nonneg run).
    destruct I as [<-|[<-|[]]]; cbn [fstart flength] in F; lia.
  - rewrite <- app_assoc. apply IH; auto. exists f. auto.
  - rewrite zlen_app, Z.add_assoc. destruct I as [<-|[<-|I]]; [| |exists f; split; [right; auto|auto]];
      exists (FData off (d ++ run)); (split; [left; auto|]); unfold inside in *; cbn [fstart flength] in *;
      rewrite zlen_app; pose proof (zlen_nonneg d); pose proof (zlen_nonneg run); lia.
Qed.

Lemma restored_app : forall l m a c, restored (l ++ m) a c <-> exists b, restored l a b /\ restored m b c.
Proof.
  induction l as [|f l IH]; intros m a c; cbn [app restored].
  - split; [eauto|]. intros (b & -> & R). auto.
  - split.
    + intros (i & W & R). apply IH in R as (b & R1 & R2). eauto.
    + intros (b & (i & W & R1) & R2). exists i. split; auto. apply IH. eauto.
Qed.

Lemma iter_ok answers size : 0 < size -> forall fuel k off len buf s fs r,
  iter_loop answers size fuel k off len buf s = (fs, r) ->
  0 <= off -> 0 <= len < size -> zlen buf = len -> sound s ->
  Forall good fs /\
  (forall i, (exists f, In f (map vf fs) /\ inside f i) -> exists f, In f (packed off buf s) /\ inside f i) /\
  (r = inl tt -> total_of fs = len + zlen (contents s) /\
     forall img img', restored (map vf fs) img img' -> restored (packed off buf s) img img') /\
  (flowing answers -> (steps s < fuel)%nat -> r = inl tt).
Proof.
  intros SZ. induction fuel as [|fuel IH]; intros k off len buf s fs r E O L B SO.
  { cbn in E. injection E as <- <-. split; [constructor|]. split; [intros i (f & [] & _)|].
    split; [discriminate|]. lia. }
  cbn [iter_loop] in E. destruct (recv (answers k) (size - len) s) as [x s'] eqn:R.
  assert (NON : forall f i, In f (map vf []) /\ inside f i -> False) by (intros f i ([] & _)).
  apply recv_ok in R as [(A & e & ->)|[(A & ->)|[(n & t & -> & -> & T)|[(-> & -> & T)|(d & D & DL & -> & T)]]]]; [| | | | |lia].
  - injection E as <- <-. split; [constructor|]. split; [intros i (f & [] & _)|]. split; [discriminate|].
    intros F. destruct (F k). congruence.
  - injection E as <- <-. split; [constructor|]. split; [intros i (f & [] & _)|]. split; [discriminate|].
    intros F. destruct (F k). congruence.
  - (* a hole *)
    destruct T as (TP & TC & TS & TD). specialize (TD SO). rewrite TP, app_nil_r, TC, TS. clear TP TC TS. cbn [app length plus].
    cbn [packed contents steps].
    assert (N : 0 < n) by (apply TD; left; auto).
    assert (S' : sound t) by (intros z I; apply TD; right; auto).
    assert (TK : take len buf = buf) by (apply take_all; lia).
    assert (H : exists off2 out, off2 = off + len /\ Forall good out /\ total_of out = len /\
        (forall i, (exists f, In f (map vf out) /\ inside f i) -> inside (FData off buf) i) /\
        (forall img img', restored (map vf out) img img' -> written (FData off buf) img img') /\
        match recv_hole (answers (S k)) (SegHole n :: t) with
        | (inr x, _) => (out, inr x)
        | (inl n0, s) =>
            let (fs, r) := iter_loop answers size fuel (S (S k)) off2 0 [] s in (out ++ (off2, n0, None) :: fs, r)
        end = (fs, r)).
    { destruct (Z.eqb_spec len 0) as [Z|Z].
      - exists off, []. split; [lia|]. split; [constructor|]. split; [auto|].
        split. { intros i (f & [] & _). } split.
        { intros img img' ->. cbn [written]. rewrite B, Z. apply replaced_zero. }
        rewrite Z, Z.add_0_r in E. exact E.
      - exists (off + len), [(off, len, Some buf)]. split; [auto|]. rewrite TK in E. split.
        { constructor; [|constructor]. split; [auto|]. split; [|auto]. intros ->. cbn in B. lia. }
        split; [cbn; lia|]. split. { intros i (f & [<-|[]] & I). auto. }
        split. { intros img img' (i1 & W & ->). auto. }
        rewrite Z.add_0_r in E. exact E. }
    clear E. destruct H as (off2 & out & -> & G & TO & IN & RE & E).
    destruct (recv_hole (answers (S k)) (SegHole n :: t)) as [y s2] eqn:RH.
    destruct (answers (S k)) eqn:AK; cbn in RH; injection RH as <- <-.
    3:{ injection E as <- <-. split; auto. split.
        { intros i I. exists (FData off buf). split; [left; auto|]. apply IN; auto. }
        split; [discriminate|]. intros F. destruct (F (S k)). congruence. }
    all: destruct (iter_loop _ _ _ _ _ _ _ _) as [gs q] eqn:E2; injection E as <- <-; 
      apply IH in E2 as (G2 & I2 & R2 & L2); auto; try lia;
      (split; [apply Forall_app; split; auto; constructor; [split; auto; lia|auto]|]);
      (split; [|split]).
    1,4: intros i (f & I & F); rewrite map_app in I; apply in_app_or in I as [I|[<-|I]];
        [exists (FData off buf); split; [left; auto|apply IN; eauto]
        |exists (FZero (off + len) n); split; [right; left; rewrite B; auto|auto]
        |destruct (I2 i) as (g & G1 & G3); [eauto|]; exists g; rewrite B; split; [right; right; auto|auto]].
    1,3: intros Q; destruct (R2 Q) as (T2 & RR); split;
       [rewrite total_app; cbn [total_of vlen]; rewrite zlen_app; unfold zlen at 1; rewrite repeat_length; lia|];
       intros img img' X; rewrite map_app in X; apply restored_app in X as (b & X1 & (b2 & X2 & X3));
       exists b; (split; [auto|]); exists b2; rewrite B; auto.
    all: intros F K; apply L2; auto; lia.
  - (* the end *)
    destruct T as (TP & TC & TS & TD). rewrite TP, app_nil_r, TC. cbn [app contents packed].
    assert (TK : take len buf = buf) by (apply take_all; lia). rewrite TK in E.
    injection E as <- <-. destruct (Z.eqb_spec len 0) as [Z|Z].
    + split; [constructor|]. split; [intros i (f & [] & _)|]. split; [|auto]. intros _. split; [cbn; lia|].
      intros img img' ->. exists img. split; [|reflexivity]. cbn [written]. rewrite B, Z. apply replaced_zero.
    + split. { constructor; [|constructor]. split; [auto|]. split; [|auto]. intros ->. cbn in B. lia. }
      split; [auto|]. split; [|auto]. intros _. split; [cbn; lia|]. auto.
  - (* data *)
    destruct T as (TP & TC & TS & TD). specialize (TD SO). rewrite TP, TC, TS.
    assert (TK : take len buf = buf) by (apply take_all; lia). rewrite TK in E.
    assert (DP : 0 < zlen d) by (destruct d; [congruence|rewrite zlen_cons; pose proof (zlen_nonneg d); lia]).
    assert (DN : (0 < length d)%nat) by (unfold zlen in DP; lia).
    destruct d as [|b0 d0]; [congruence|]. remember (b0 :: d0) as d.
    assert (E' : (if len + zlen d =? size
      then let (fs, r) := iter_loop answers size fuel (S k) (off + (len + zlen d)) 0 [] s' in
           ((off, len + zlen d, Some (buf ++ d)) :: fs, r)
      else iter_loop answers size fuel (S k) off (len + zlen d) (buf ++ d) s') = (fs, r)) by (subst d; exact E).
    clear E. destruct (Z.eqb_spec (len + zlen d) size) as [Q|Q].
    + destruct (iter_loop _ _ _ _ _ _ _ _) as [gs q] eqn:E2. injection E' as <- <-.
      apply IH in E2 as (G2 & I2 & R2 & L2); auto; try lia.
      assert (BD : zlen (buf ++ d) = len + zlen d) by (rewrite zlen_app; lia).
      split; [|split; [|split]].
      * constructor; auto. split; [lia|]. split; [|auto]. intros H. rewrite H in BD. cbn in BD. lia.
      * intros i I. cbn [map vf] in I. rewrite <- (app_nil_r (buf ++ d)). apply packed_inside; auto.
        destruct I as (f & [<-|I] & F); [exists (FData off (buf ++ d)); split; [left; auto|auto]|].
        destruct (I2 i) as (g & G1 & G3); eauto. rewrite <- BD in G1. exists g. split; [right; auto|auto].
      * intros X. destruct (R2 X) as (T2 & RR). split. { cbn [total_of vlen]. rewrite zlen_app. lia. }
        intros img img' (i1 & W & Y). rewrite <- (app_nil_r (buf ++ d)). apply packed_merge; auto.
        rewrite BD. exists i1. auto.
      * intros F K. apply L2; auto. lia.
    + apply IH in E' as (G2 & I2 & R2 & L2); auto; try lia.
      2:{ rewrite zlen_app. lia. }
      split; auto. split; auto. split.
      * intros X. destruct (R2 X) as (T2 & RR). split; auto. rewrite zlen_app. lia.
      * intros F K. apply L2; auto. lia.
Qed.

Lemma packed_last : forall s off run img img', hole_last s -> sound s -> 0 <= off ->
  restored (packed off run s) img img' ->
  replaced img img' off (zlen (run ++ contents s)) (getb (run ++ contents s)).
Proof.
  induction s as [|[d|n] s IH]; intros off run img img' H S O R; cbn [packed contents hole_last] in *.
  - destruct R as (i & W & ->). rewrite app_nil_r. auto.
  - rewrite app_assoc. apply IH; auto. intros z I. apply S. right. auto.
  - subst s. destruct R as (i1 & W1 & i2 & W2 & i3 & W3 & ->). cbn [contents].
    apply replaced_none in W3. subst i3. rewrite app_nil_r.
    assert (N : 0 < n) by (apply S; left; auto).
    assert (Z : zlen (repeat x00 (Z.to_nat n)) = n) by (unfold zlen; rewrite repeat_length; lia).
    eapply replaced_merge; eauto. cbn [written] in W2. rewrite Z.
    eapply replaced_ext; [|exact W2]. intros i I. cbn beta. rewrite getb_nonneg by lia. symmetry. apply nth_repeat.
Qed.

(* ---- the copy ---- *)

Section Copy.
Variables (id : str) (total : Z) (envs : nat -> senv) (nets : nat -> net).
Hypothesis U : forall i, usable id total (envs i).
Notation srv := (imageio id envs).

Lemma write_ok o a d c r c1 : cl_write srv o a d c = (r, c1) -> st_ok total c ->
  Inv total (c_back c1) /\ c_closed c1 = false /\
  (forall i, ~ (a <= i < a + zlen d) -> getb (img c1) i = getb (img c) i) /\
  (forall z, r = inl z -> st_ok total c1 /\ replaced (img c) (img c1) a (zlen d) (getb d)).
Proof.
  intros E (I & CL & D). pose proof (zlen_nonneg d) as N.
  assert (R : run_api srv o (AWrite a d) c = (Out r [], c1)) by (cbn [run_api]; rewrite E; auto).
  pose proof R as R1. eapply api_imageio in R1 as (J & A); eauto.
  assert (CL1 : c_closed c1 = false).
  { unfold cl_write, cl_size in E. destruct (size _ _) as [[z|e] s]; [|injection E as <- <-; auto].
    destruct (z <? a + zlen d); [injection E as <- <-; auto|]. destruct (write _ _ _ _). injection E as <- <-. auto. }
  destruct A as [[(k & K & P) A] _]. split; auto. split; auto. split.
  { intros i. eapply replaced_not_inside; eauto. }
  intros z ->. assert (OO : ok (Out (inl z) [])) by (exists z; auto). split; [|auto].
  split; auto. split; auto. eapply api_durable; eauto.
Qed.

Lemma copy_ok : forall fs k done c r done' c',
  copy_loop srv nets k fs done c = (r, done', c') -> Forall good fs -> st_ok total c ->
  Inv total (c_back c') /\ c_closed c' = false /\ outside (map vf fs) (img c) (img c') /\
  (r = inl tt -> st_ok total c' /\ restored (map vf fs) (img c) (img c') /\ done' = done + total_of fs).
Proof.
  induction fs as [|f fs IH]; intros k done c r done' c' E G OK.
  { cbn in E. injection E as <- <- <-. destruct OK as (I & CL & D). split; auto. split; auto.
    split; [intros i _; auto|]. intros _. split; [split; [exact I|split; auto]|]. split; [reflexivity|cbn; lia]. }
  inversion G as [|? ? G1 G2]; subst. destruct f as [[a n] [d|]]; cbn [good] in G1; cbn [copy_loop] in E.
  - destruct G1 as (-> & DN & A). destruct d as [|b d]; [congruence|]. remember (b :: d) as l.
    destruct (cl_write _ _ _ _ _) as [x c1] eqn:W. eapply write_ok in W as (I1 & C1 & O1 & R1); eauto.
    destruct x as [z|e].
    2:{ injection E as <- <- <-. split; auto. split; auto. split; [|discriminate].
        apply written_outside with (img1 := img c1); auto. intros i _. auto. }
    destruct (R1 z eq_refl) as (OK1 & RP). apply IH in E as (I2 & C2 & O2 & R2); auto.
    split; auto. split; auto. split; [eapply written_outside; eauto|].
    intros R. destruct (R2 R) as (OK2 & RS & ->). split; auto. split; [exists (img c1); auto|]. cbn [total_of vlen]. lia.
  - destruct G1 as (N & A). destruct (cl_zero _ _ _ _ _) as [x c1] eqn:W.
    eapply zero_ok in W as (I1 & C1 & O1 & R1); eauto; [|lia].
    destruct x as [z|e].
    2:{ injection E as <- <- <-. split; auto. split; auto. split; [|discriminate].
        apply written_outside with (img1 := img c1); auto. intros i _. auto. }
    destruct (R1 z eq_refl) as (OK1 & RP). apply IH in E as (I2 & C2 & O2 & R2); auto.
    split; auto. split; auto. split; [eapply written_outside; eauto|].
    intros R. destruct (R2 R) as (OK2 & RS & ->). split; auto. split; [exists (img c1); auto|]. cbn [total_of vlen]. lia.
Qed.

Lemma copy_body_ok answers src s c r done c' :
  copy_body srv nets answers src s c = (r, done, c') -> st_ok total c -> sound s ->
  Inv total (c_back c') /\
  (forall i, i < src -> (forall f, In f (packed 0 [] s) -> ~ inside f i) -> getb (img c') i = getb (img c) i) /\
  (total < src -> img c' = img c) /\
  (r = inl tt -> src <= total /\ durable (iw_log (h_world (c_back c'))) /\ done = zlen (contents s) + (total - src) /\
     exists im, restored (packed 0 [] s) (img c) im /\ replaced im (img c') src (total - src) (fun _ => x00)).
Proof.
  intros E OK S. unfold copy_body in E. destruct (cl_size _ _) as [x c1] eqn:SZ.
  eapply size_ok in SZ as (OK1 & IM & N); eauto. destruct x as [dst|e].
  2:{ injection E as <- <- <-. rewrite IM. split; [apply OK1|]. repeat split; auto; discriminate. }
  rewrite (N dst eq_refl) in *. clear N dst. destruct (Z.ltb_spec total src).
  { injection E as <- <- <-. rewrite IM. split; [apply OK1|]. repeat split; auto; discriminate. }
  destruct (iter_frames answers buffer_size s) as [fs e] eqn:F.
  unfold iter_frames in F. apply iter_ok in F as (G & FI & FR & _); auto; [|reflexivity|lia|split; [lia|reflexivity]].
  destruct (copy_loop srv nets 0 fs 0 c1) as [[r1 done1] c2] eqn:C.
  apply copy_ok in C as (I2 & C2 & O2 & R2); auto. rewrite IM in *.
  assert (OUT : forall i, (forall f, In f (packed 0 [] s) -> ~ inside f i) -> getb (img c2) i = getb (img c) i).
  { intros i NI. apply O2. intros f If Hf. destruct (FI i) as (g & Ig & Hg); [eauto|]. eapply NI; eauto. }
  destruct r1 as [[]|y]; [destruct e as [[]|z]|].
  2,3: injection E as <- <- <-; split; [auto|]; split; [auto|]; split; [lia|discriminate].
  destruct (FR eq_refl) as (T & RR). destruct (R2 eq_refl) as (OK2 & RS & ->). specialize (RR _ _ RS). rewrite T in E.
  assert (H2 : forall r3 d3 c3, (if src <? total
      then match cl_zero srv (nets (length fs)) src (total - src) c2 with
           | (inl _, c) => (inl tt, 0 + (0 + zlen (contents s)) + (total - src), c)
           | (inr e, c) => (inr (LClient e), 0 + (0 + zlen (contents s)), c)
           end else (inl tt, 0 + (0 + zlen (contents s)), c2)) = (r3, d3, c3) ->
      Inv total (c_back c3) /\
      (forall i, i < src -> getb (img c3) i = getb (img c2) i) /\
      (r3 = inl tt -> st_ok total c3 /\ d3 = zlen (contents s) + (total - src) /\
         replaced (img c2) (img c3) src (total - src) (fun _ => x00))).
  { intros r3 d3 c3 X. destruct (Z.ltb_spec src total).
    - destruct (cl_zero _ _ _ _ _) as [y c4] eqn:W. eapply zero_ok in W as (I3 & C3 & O3 & R3); eauto; [|lia].
      destruct y as [z|y]; injection X as <- <- <-; (split; [auto|]); (split; [intros i I; apply O3; lia|]);
        [|discriminate].
      intros _. destruct (R3 z eq_refl). split; auto.
    - injection X as <- <- <-. split; [apply OK2|]. split; [auto|]. intros _. split; auto. split; [lia|].
      replace (total - src) with 0 by lia. apply replaced_zero. }
  match type of E with context [if src <? total then ?a else ?b] => destruct (if src <? total then a else b) as [[r3 d3] c3] eqn:X end.
  destruct (H2 _ _ _ eq_refl) as (I3 & O3 & R3). clear H2 X.
  destruct r3 as [[]|y].
  2:{ injection E as <- <- <-. split; auto. split; [intros i I NI; rewrite O3; auto|]. split; [lia|discriminate]. }
  destruct (R3 eq_refl) as (OK3 & -> & RZ).
  destruct (cl_flush srv c3) as [y c4] eqn:FL. eapply (flush_ok id total envs nets) in FL as (I4 & IM4 & C4 & D4); eauto.
  destruct y as [z|y]; injection E as <- <- <-; rewrite IM4.
  - split; auto. split; [intros i I NI; rewrite O3; auto|]. split; [lia|]. intros _.
    split; auto. split; [eauto|]. split; auto. exists (img c2). auto.
  - split; auto. split; [intros i I NI; rewrite O3; auto|]. split; [lia|discriminate].
Qed.

End Copy.
