From Coq Require Import ZArith List Bool String Lia.
From Coq.Init Require Import Byte.
From Verif Require Import BytesLib NbdModel NbdSpec NbdProofs NbdTheorems ExtentsModel ExtentsSpec.
Import ListNotations.
Open Scope Z_scope.

Definition positive (l : list extent) := Forall (fun e => 0 < e_length e) l.

Lemma total_app l m : total (l ++ m) = total l + total m.
Proof. induction l; cbn; lia. Qed.
Lemma total_nonneg l : positive l -> 0 <= total l.
Proof. induction 1; cbn; lia. Qed.
Lemma total_pos l : positive l -> l <> [] -> 0 < total l.
Proof. intros [|] N; [congruence|]. cbn. pose proof (total_nonneg _ H0). lia. Qed.

Lemma at_byte_range l i f : positive l -> at_byte l i f -> 0 <= i < total l.
Proof.
  intros P H. revert P. induction H; intros P; inversion P as [|x y P1 P2]; subst; cbn; pose proof (total_nonneg _ P2).
  - lia.
  - specialize (IHat_byte P2). lia.
Qed.
Lemma at_byte_ex l i : positive l -> 0 <= i < total l -> exists f, at_byte l i f.
Proof.
  intros P. revert i. induction P as [|e l P1 P2 IH]; cbn; intros i I; [lia|].
  destruct (Z_lt_ge_dec i (e_length e)).
  - eexists. apply at_head. lia.
  - destruct (IH (i - e_length e)) as [f F]; [lia|]. exists f.
    replace i with (e_length e + (i - e_length e)) by lia. constructor. auto.
Qed.
Lemma at_byte_fun l i f g : positive l -> at_byte l i f -> at_byte l i g -> f = g.
Proof.
  intros P A. revert P g. induction A as [e r i I|e r i f A IH]; intros P g B;
    inversion P as [|x y P1 P2]; subst x y.
  - inversion B as [e' r' i' I'|e' r' i' f' B']; subst; auto.
    apply at_byte_range in B'; auto. lia.
  - inversion B as [e' r' i' I'|e' r' i' f' B']; subst.
    + apply at_byte_range in A; auto. lia.
    + assert (i' = i) by lia. subst. auto.
Qed.
Lemma at_byte_app_l l m i f : at_byte l i f -> at_byte (l ++ m) i f.
Proof. induction 1; cbn; constructor; auto. Qed.
Lemma at_byte_app_r l m i f : at_byte m i f -> at_byte (l ++ m) (total l + i) f.
Proof.
  intros H. induction l; cbn; auto. rewrite <- Z.add_assoc. constructor. auto.
Qed.

Lemma getitem_assoc name d :
  getitem name d = match assoc name d with Some l => inl l | None => inr KeyError end.
Proof. induction d as [|[n l] d IH]; cbn; auto. destruct (String.eqb n name); auto. Qed.

(* ---- merged ---- *)

Lemma merged_spec fuel la lb : positive la -> positive lb -> (List.length la + List.length lb <= fuel)%nat ->
  positive (merged fuel la lb) /\ total (merged fuel la lb) = Z.min (total la) (total lb)
  /\ forall i a b, at_byte la i a -> at_byte lb i b -> at_byte (merged fuel la lb) i (Z.lor a b).
Proof.
  revert la lb. induction fuel as [|fuel IH]; intros la lb PA PB L.
  { destruct la, lb; cbn in L; try lia. cbn. repeat split; auto. intros i a b A. inversion A. }
  destruct la as [|a la].
  { cbn. repeat split; [constructor|pose proof (total_nonneg _ PB); lia|]. intros i x y A. inversion A. }
  destruct lb as [|b lb].
  { cbn [merged total]. repeat split; [constructor|pose proof (total_nonneg _ PA); cbn in *; lia|].
    intros i x y A B. inversion B. }
  inversion PA as [|x y A1 A2]; subst x y. inversion PB as [|x y B1 B2]; subst x y.
  cbn [List.length] in L. cbn [merged total].
  destruct (e_length a =? e_length b) eqn:E1; [|destruct (e_length a >? e_length b) eqn:E2].
  - destruct (IH la lb) as (P & T & F); auto; [lia|].
    apply Z.eqb_eq in E1. split; [constructor; auto|]. split; [cbn; lia|].
    intros i x y A B.
    inversion A as [e r j I|e r j f A']; subst.
    + inversion B as [e r j I'|e r j f B']; subst.
      * apply (at_head (Extent (e_length a) (Z.lor (e_flags a) (e_flags b)))). auto.
      * apply at_byte_range in B'; auto. lia.
    + inversion B as [e r j' I'|e r j' f B']; subst.
      * apply at_byte_range in A'; auto. lia.
      * assert (j' = j) by lia. subst. rewrite <- E1. apply (at_tail (Extent (e_length a) (Z.lor (e_flags a) (e_flags b)))). auto.
  - destruct (IH (Extent (e_length a - e_length b) (e_flags a) :: la) lb) as (P & T & F); auto.
    { constructor; auto. cbn. lia. } { cbn [List.length]. lia. }
    split; [constructor; auto|]. split; [cbn in *; lia|].
    intros i x y A B.
    inversion B as [e r j I'|e r j f B']; subst.
    + inversion A as [e r j I|e r j f A']; subst.
      * apply (at_head (Extent (e_length b) (Z.lor (e_flags a) (e_flags b)))). auto.
      * apply at_byte_range in A'; auto. lia.
    + apply (at_tail (Extent (e_length b) (Z.lor (e_flags a) (e_flags b)))). apply F; auto.
      apply at_byte_range in B' as B0; auto.
      inversion A as [e r j' I|e r j' f' A']; subst.
      * apply (at_head (Extent (e_length a - e_length b) (e_flags a))). cbn. lia.
      * replace j with ((e_length a - e_length b) + j') by lia.
        apply (at_tail (Extent (e_length a - e_length b) (e_flags a))). auto.
  - assert (e_length a < e_length b) by lia.
    destruct (IH la (Extent (e_length b - e_length a) (e_flags b) :: lb)) as (P & T & F); auto.
    { constructor; auto. cbn. lia. } { cbn [List.length]. lia. }
    split; [constructor; auto|]. split; [cbn in *; lia|].
    intros i x y A B.
    inversion A as [e r j I|e r j f A']; subst.
    + inversion B as [e r j I'|e r j f B']; subst.
      * apply (at_head (Extent (e_length a) (Z.lor (e_flags a) (e_flags b)))). auto.
      * apply at_byte_range in B'; auto. lia.
    + apply (at_tail (Extent (e_length a) (Z.lor (e_flags a) (e_flags b)))). apply F; auto.
      apply at_byte_range in A' as A0; auto.
      inversion B as [e r j' I|e r j' f' B']; subst.
      * apply (at_head (Extent (e_length b - e_length a) (e_flags b))). cbn. lia.
      * replace j with ((e_length b - e_length a) + j') by lia.
        apply (at_tail (Extent (e_length b - e_length a) (e_flags b))). auto.
Qed.

Definition good_dict (d : dict) := forall name l, assoc name d = Some l -> positive l /\ l <> [].

Lemma extents_good v k o n s d s' : NbdModel.extents v k o n s = (inl d, s') -> good_dict d.
Proof.
  intros E name l A.
  assert (In (name, l) d) as I.
  { clear E. induction d as [|[m x] d IH]; cbn in A; [discriminate|].
    destruct (String.eqb m name) eqn:Q; [|right; auto]. apply String.eqb_eq in Q. subst. injection A as ->. left. auto. }
  destruct (extents_well_formed _ _ _ _ _ _ _ _ _ E I) as [N F]. split; auto.
  eapply Forall_impl; [|exact F]. cbn. tauto.
Qed.

Lemma pick_spec dirty bitmap d l : good_dict d -> pick dirty bitmap d = inl l ->
  positive l /\ l <> [] /\ forall i f, at_byte l i f -> reply_flags dirty bitmap d i f.
Proof.
  intros G.
  assert (M : forall a b, positive a -> positive b -> a <> [] -> b <> [] ->
    positive (merge a b) /\ merge a b <> [] /\
    forall i f, at_byte (merge a b) i f -> exists x y, at_byte a i x /\ at_byte b i y /\ f = Z.lor x y).
  { intros a b PA PB NA NB. destruct (merged_spec (List.length a + List.length b) a b PA PB (le_n _)) as (P & T & F).
    fold (merge a b) in *. split; auto. split.
    - intros E. rewrite E in T. cbn in T. pose proof (total_pos _ PA NA). pose proof (total_pos _ PB NB). lia.
    - intros i f A. pose proof (at_byte_range _ _ _ P A) as R. rewrite T in R.
      destruct (at_byte_ex a i PA) as [x X]; [lia|]. destruct (at_byte_ex b i PB) as [y Y]; [lia|].
      exists x, y. repeat split; auto. eapply at_byte_fun; eauto. }
  unfold pick, contains. rewrite !getitem_assoc. unfold reply_flags.
  change "base:allocation"%string with BASE_ALLOCATION.
  change "qemu:allocation-depth"%string with QEMU_ALLOCATION_DEPTH.
  destruct (assoc BASE_ALLOCATION d) as [a|] eqn:EA.
  2:{ destruct dirty; [discriminate|]. destruct (assoc QEMU_ALLOCATION_DEPTH d); discriminate. }
  destruct (G _ _ EA) as [PA NA].
  destruct dirty.
  - destruct bitmap as [name|]; [|discriminate]. rewrite getitem_assoc.
    destruct (assoc name d) as [b|] eqn:EB; [|discriminate]. intros [= <-]. destruct (G _ _ EB) as [PB NB].
    destruct (M a b PA PB NA NB) as (M1 & M2 & M3). split; auto. split; auto.
    intros i f A. destruct (M3 i f A) as (x & y & X & Y & Q). exists a, x. repeat split; auto.
    exists name, b, y. auto.
  - destruct (assoc QEMU_ALLOCATION_DEPTH d) as [b|] eqn:EB.
    + intros [= <-]. destruct (G _ _ EB) as [PB NB].
      destruct (M a b PA PB NA NB) as (M1 & M2 & M3). split; auto. split; auto.
      intros i f A. destruct (M3 i f A) as (x & y & X & Y & Q). exists a, x. repeat split; auto.
      exists y. auto.
    + intros [= <-]. split; auto. split; auto. intros i f A. exists a, f. auto.
Qed.

(* ---- scan ---- *)

Fixpoint noadj (l : list extent) : Prop :=
  match l with
  | a :: ((b :: _) as r) => e_flags a <> e_flags b /\ noadj r
  | _ => True
  end.
Lemma noadj_distinct l : noadj l -> distinct_neighbours l.
Proof.
  intros N l1. revert l N. induction l1 as [|x l1 IH]; intros l N a b l2 ->.
  - cbn in N. tauto.
  - cbn [app] in N. assert (noadj (l1 ++ a :: b :: l2)).
    { destruct (l1 ++ a :: b :: l2) as [|y r] eqn:E; [constructor|]. cbn in N. tauto. }
    eapply IH; eauto.
Qed.
Lemma noadj_app l c E e r : noadj (l ++ [c]) -> noadj E -> E = e :: r -> e_flags e = e_flags c -> noadj (l ++ E).
Proof.
  intros N NE -> F. induction l as [|x l IH]; auto.
  destruct l as [|y l].
  - cbn [app] in *. destruct N as [N _]. split; [rewrite F; auto|auto].
  - cbn [app] in *. destruct N as [N1 N2]. split; auto.
Qed.

Definition opt (c : option extent) : list extent := match c with Some c => [c] | None => [] end.

Lemma scan_spec l : forall offset stop cur, positive l -> l <> [] -> offset < stop -> positive (opt cur) ->
  exists out c, scan l offset stop cur = (out, Z.min stop (offset + total l), Some c)
    /\ positive (out ++ [c]) /\ noadj (out ++ [c])
    /\ total (out ++ [c]) = total (opt cur) + (Z.min stop (offset + total l) - offset)
    /\ (forall i f, at_byte (opt cur) i f -> at_byte (out ++ [c]) i f)
    /\ (forall i f, at_byte l i f -> offset + i < stop -> at_byte (out ++ [c]) (total (opt cur) + i) f).
Proof.
  induction l as [|x l IH]; intros offset stop cur P N O PC; [congruence|].
  inversion P as [|y z P1 P2]; subst y z. cbn [scan total].
  pose proof (total_nonneg _ P2) as TN.
  remember (if offset + e_length x >? stop then stop - offset else e_length x) as len eqn:EL.
  assert (L0 : 0 < len /\ len <= e_length x /\ offset + len <= stop /\ (len < e_length x -> offset + len = stop)).
  { subst len. destruct (offset + e_length x >? stop) eqn:Q; lia. }
  clear EL. destruct L0 as (L1 & L2 & L3 & L4).
  cbn [e_length e_flags].
  (* the first step *)
  remember (match cur with
     | Some c => if e_flags c =? e_flags x then ([], Extent (e_length c + len) (e_flags c)) else ([c], Extent len (e_flags x))
     | None => ([], Extent len (e_flags x)) end) as q eqn:Q.
  destruct q as [o1 c1].
  assert (S1 : positive (o1 ++ [c1]) /\ noadj (o1 ++ [c1])
     /\ total (o1 ++ [c1]) = total (opt cur) + len
     /\ (forall i f, at_byte (opt cur) i f -> at_byte (o1 ++ [c1]) i f)
     /\ (forall i, 0 <= i < len -> at_byte (o1 ++ [c1]) (total (opt cur) + i) (e_flags x))).
  { destruct cur as [c|]; cbn [opt total] in *.
    - inversion PC as [|y z PC1 PC2]; subst y z.
      destruct (e_flags c =? e_flags x) eqn:EF; injection Q as -> ->; cbn [app].
      + apply Z.eqb_eq in EF. repeat split.
        * constructor; [cbn; lia|constructor].
        * cbn. lia.
        * intros i f A. inversion A as [e r j I|e r j f' A']; subst; [|inversion A'].
          apply (at_head (Extent (e_length c + len) (e_flags c))). cbn. lia.
        * intros i I. rewrite <- EF. apply (at_head (Extent (e_length c + len) (e_flags c))). cbn. lia.
      + apply Z.eqb_neq in EF. repeat split; auto.
        * constructor; auto.
        * cbn. lia.
        * intros i f A. inversion A as [e r j I|e r j f' A']; subst; [|inversion A']. constructor. auto.
        * intros i I. replace (e_length c + 0 + i) with (e_length c + i) by lia. constructor.
          apply (at_head (Extent len (e_flags x))). auto.
    - injection Q as -> ->. cbn [app]. repeat split.
      * constructor; [cbn; lia|constructor].
      * cbn. lia.
      * intros i f A. inversion A.
      * intros i I. apply (at_head (Extent len (e_flags x))). cbn. lia. }
  clear Q. destruct S1 as (S1 & S2 & S3 & S4 & S5).
  destruct (offset + len =? stop) eqn:E.
  - apply Z.eqb_eq in E. exists o1, c1. split; [f_equal; f_equal; lia|]. split; auto. split; auto.
    split; [lia|]. split; auto.
    intros i f A I. inversion A as [e r j J|e r j f' A']; subst.
    + apply S5. lia.
    + apply at_byte_range in A'; auto. lia.
  - apply Z.eqb_neq in E. assert (len = e_length x) by lia. subst len.
    destruct l as [|y l].
    + cbn [scan total]. exists o1, c1. split; [rewrite app_nil_r; f_equal; f_equal; lia|].
      split; auto. split; auto. split; [lia|]. split; auto.
      intros i f A I. inversion A as [e r j J|e r j f' A']; subst; [|inversion A']. apply S5. lia.
    + assert (PC1 : positive (opt (Some c1))).
      { cbn. apply Forall_app in S1 as [_ S1]. auto. }
      destruct (IH (offset + e_length x) stop (Some c1)) as (o2 & c2 & R1 & R2 & R3 & R4 & R5 & R6);
        [auto|discriminate|lia|auto|].
      rewrite R1. exists (o1 ++ o2), c2. split; [f_equal; f_equal; lia|].
      apply Forall_app in S1 as [S1a S1b].
      cbn [opt] in *. rewrite <- !app_assoc.
      assert (HD : exists e r, o2 ++ [c2] = e :: r /\ e_flags e = e_flags c1).
      { inversion PC1 as [|w z W1 W2]; subst w z.
        assert (A : at_byte (o2 ++ [c2]) 0 (e_flags c1)) by (apply R5; constructor; lia).
        destruct (o2 ++ [c2]) as [|e r]; [inversion A|]. exists e, r. split; auto.
        inversion R2 as [|w z W3 W4]; subst w z.
        eapply (at_byte_fun (e :: r)); [constructor; auto| |exact A]. constructor. lia. }
      destruct HD as (e & r & HD & HF).
      split; [apply Forall_app; auto|].
      split; [eapply noadj_app; eauto|].
      split; [rewrite total_app, R4; rewrite total_app in S3; cbn [total] in *; lia|].
      assert (CV : forall i f, at_byte (o1 ++ [c1]) i f -> at_byte (o1 ++ o2 ++ [c2]) i f).
      { intros i f A. assert (at_byte o1 i f \/ exists j, i = total o1 + j /\ at_byte [c1] j f) as [B|(j & -> & B)].
        { clear - A. revert i A. induction o1 as [|w o IHo]; intros i A.
          - right. exists i. auto.
          - cbn [app] in A. inversion A as [e r j J|e r j f' A']; subst.
            + left. constructor. auto.
            + destruct (IHo _ A') as [B|(j' & -> & B)]; [left; constructor; auto|].
              right. exists j'. cbn. split; [lia|auto]. }
        - apply at_byte_app_l. auto.
        - apply at_byte_app_r. apply R5. auto. }
      split; [auto|].
      intros i f A I. inversion A as [e' r' j J|e' r' j f' A']; subst.
      * apply CV. apply S5. lia.
      * specialize (R6 _ _ A'). rewrite total_app in S3. cbn [total] in *.
        replace (total (opt cur) + (e_length x + j)) with (total o1 + (e_length c1 + 0 + j)) by lia.
        apply at_byte_app_r. apply R6. lia.
Qed.

(* E describes first the current extent cur, then from offset on bytes with
   flags allowed by G. *)
Definition tells (E : list extent) (cur : option extent) (offset : Z) (G : Z -> Z -> Prop) : Prop :=
  forall i f, at_byte E i f ->
    (i < total (opt cur) -> at_byte (opt cur) i f)
    /\ (total (opt cur) <= i -> G (offset + i - total (opt cur)) f).

Lemma at_byte_app l m i f : at_byte (l ++ m) i f ->
  at_byte l i f \/ exists j, i = total l + j /\ at_byte m j f.
Proof.
  revert i. induction l as [|w o IHo]; intros i A.
  - right. exists i. auto.
  - cbn [app] in A. inversion A as [e r j J|e r j f' A']; subst.
    + left. constructor. auto.
    + destruct (IHo _ A') as [B|(j' & -> & B)]; [left; constructor; auto|].
      right. exists j'. cbn. split; [lia|auto].
Qed.

Lemma combine l offset stop cur out off' c E (G : Z -> Z -> Prop) :
  positive l -> l <> [] -> offset < stop -> positive (opt cur) ->
  scan l offset stop cur = (out, off', Some c) ->
  (forall j f, at_byte l j f -> offset + j < stop -> G (offset + j) f) ->
  positive E -> noadj E -> tells E (Some c) off' G ->
  positive (out ++ E) /\ noadj (out ++ E) /\ tells (out ++ E) cur offset G.
Proof.
  intros P N O PC SC HG PE NE T.
  destruct (scan_spec l offset stop cur P N O PC) as (out' & c' & R1 & R2 & R3 & R4 & R5 & R6).
  rewrite R1 in SC. injection SC as -> <- ->.
  apply Forall_app in R2 as R2'. destruct R2' as [R2a R2b].
  split; [apply Forall_app; auto|]. split.
  - destruct E as [|e r].
    + rewrite app_nil_r. clear - R3. induction out as [|x out IH]; [constructor|].
      destruct out as [|y out]; [constructor|]. cbn [app] in *. destruct R3 as [A B]. split; auto.
    + eapply noadj_app; eauto. inversion PE as [|x y PE1 PE2]; subst x y.
      destruct (T 0 (e_flags e)) as [T1 _]; [constructor; lia|].
      inversion R2b as [|x y PC1 _]; subst x y. cbn [opt total] in T1.
      assert (A : at_byte [c] 0 (e_flags e)) by (apply T1; lia).
      inversion A as [? ? ? ? H1 H2 H3|? ? ? ? A']; subst; auto. inversion A'.
  - assert (K : forall i f, at_byte (out ++ [c]) i f ->
      (i < total (opt cur) -> at_byte (opt cur) i f) /\ (total (opt cur) <= i -> G (offset + i - total (opt cur)) f)).
    { intros i f A. pose proof (at_byte_range _ _ _ R2 A) as RG. rewrite R4 in RG. split; intros I.
      - destruct (at_byte_ex (opt cur) i PC) as [g GG]; [lia|].
        replace f with g; auto. eapply at_byte_fun; [exact R2| |exact A]. auto.
      - destruct (at_byte_ex l (i - total (opt cur)) P) as [g GG]; [lia|].
        assert (f = g).
        { eapply at_byte_fun; [exact R2|exact A|]. replace i with (total (opt cur) + (i - total (opt cur))) by lia.
          apply R6; auto. lia. }
        subst g. replace (offset + i - total (opt cur)) with (offset + (i - total (opt cur))) by lia.
        apply HG; auto. lia. }
    intros i f A. apply at_byte_app in A as [A|(j & -> & A)].
    + apply K. apply at_byte_app_l. auto.
    + destruct (T j f A) as [T1 T2].
      destruct (Z_lt_ge_dec j (total (opt (Some c)))).
      * apply K. apply at_byte_app_r. auto.
      * rewrite total_app in R4. cbn [opt] in *. split; intros I.
        -- pose proof (total_nonneg _ R2a). pose proof (total_nonneg _ PC). exfalso.
           pose proof (total_nonneg _ P). lia.
        -- replace (offset + (total out + j) - total (opt cur))
             with (Z.min stop (offset + total l) + j - total [c]) by lia. apply T2. lia.
Qed.

(* A reply of the run gives byte i the flags f, and no later reply of the run
   is about byte i. *)
Definition from_calls (k : client) (dirty : bool) (tr : list (Z * Z * dict)) (i f : Z) : Prop :=
  exists tr1 o n d tr2, tr = tr1 ++ (o, n, d) :: tr2 /\ o <= i
    /\ Forall (fun c => i < fst (fst c)) tr2 /\ reply_flags dirty (k_dirty k) d (i - o) f.

Lemma loop_spec v k dirty fuel : forall offset stop cur s out r s',
  positive (opt cur) -> (offset < stop \/ cur <> None) -> offset <= stop -> stop - offset <= Z.of_nat fuel ->
  extents_loop v k dirty fuel offset stop cur s = (out, r, s') ->
  r <> inr OutOfFuel /\ exists E tr s1, out = map Some E /\ positive E /\ noadj E
    /\ calls v k s tr s1 /\ Forall (fun c => offset <= fst (fst c)) tr
    /\ total E <= total (opt cur) + (stop - offset)
    /\ (r = inl tt -> total E = total (opt cur) + (stop - offset) /\ s1 = s')
    /\ tells E cur offset (from_calls k dirty tr).
Proof.
  induction fuel as [|fuel IH]; intros offset stop cur s out r s' PC O1 O2 FU X.
  - assert (offset = stop) by lia. subst stop. cbn [extents_loop] in X. rewrite Z.ltb_irrefl in X.
    injection X as <- <- <-. split; [discriminate|]. destruct cur as [c|]; [|destruct O1; [lia|congruence]].
    exists [c], [], s. repeat split; auto; try (constructor; fail); cbn [opt total]; try lia.
    intros I. exfalso. apply at_byte_range in H; auto. cbn [opt total] in *. lia.
  - cbn [extents_loop] in X. destruct (offset <? stop) eqn:LT.
    + apply Z.ltb_lt in LT.
      destruct (NbdModel.extents v k offset (Z.min (stop - offset) MAX_STEP) s) as [[d|e] s1] eqn:C.
      2:{ injection X as <- <- <-. split.
          - assert (NF : fst (do_op v k (OExtents offset (Z.min (stop - offset) MAX_STEP)) s) <> inr OutOfFuel).
            { apply op_never_out_of_fuel. }
            cbn [do_op] in NF. rewrite C in NF. cbn in NF. congruence.
          - exists [], [], s. repeat split; try constructor; try discriminate.
            + cbn. pose proof (total_nonneg _ PC). lia.
            + inversion H. + inversion H. }
      pose proof (extents_good _ _ _ _ _ _ _ C) as GD.
      destruct (pick dirty (k_dirty k) d) as [l|e] eqn:PK.
      2:{ injection X as <- <- <-. split.
          - revert PK. unfold pick. rewrite ?getitem_assoc. destruct dirty.
            + destruct (assoc BASE_ALLOCATION d); [|congruence]. destruct (k_dirty k); [|congruence].
              rewrite getitem_assoc. destruct (assoc s0 d); congruence.
            + destruct (contains _ d).
              * destruct (assoc BASE_ALLOCATION d); [|congruence]. destruct (assoc QEMU_ALLOCATION_DEPTH d); congruence.
              * destruct (assoc BASE_ALLOCATION d); congruence.
          - exists [], [], s. repeat split; try constructor; try discriminate.
            + cbn. pose proof (total_nonneg _ PC). lia.
            + inversion H. + inversion H. }
      destruct (pick_spec _ _ _ _ GD PK) as (PL & NL & FL).
      destruct (scan_spec l offset stop cur PL NL LT PC) as (out1 & c & R1 & R2 & R3 & R4 & _ & _).
      rewrite R1 in X. pose proof (total_pos _ PL NL).
      destruct (extents_loop v k dirty fuel (Z.min stop (offset + total l)) stop (Some c) s1) as [[out2 r2] s2] eqn:Y.
      injection X as <- <- <-.
      assert (PC2 : positive (opt (Some c))) by (apply Forall_app in R2; apply R2).
      destruct (IH (Z.min stop (offset + total l)) stop (Some c) s1 out2 r2 s2 PC2 ltac:(right; discriminate) ltac:(lia) ltac:(lia) Y)
        as (NF & E & tr & s3 & -> & PE & NE & CA & FA & TE & TS & TL).
      split; auto.
      exists (out1 ++ E), ((offset, Z.min (stop - offset) MAX_STEP, d) :: tr), s3.
      destruct (combine l offset stop cur out1 _ c E
        (from_calls k dirty ((offset, Z.min (stop - offset) MAX_STEP, d) :: tr)) PL NL LT PC R1) as (Q1 & Q2 & Q3); auto.
      { intros j f A J. exists [], offset, (Z.min (stop - offset) MAX_STEP), d, tr.
        pose proof (at_byte_range _ _ _ PL A).
        split; auto. split; [lia|]. split.
        - eapply Forall_impl; [|exact FA]. cbn. intros a Q. lia.
        - replace (offset + j - offset) with j by lia. auto. }
      { intros i f A. destruct (TL i f A) as [T1 T2]. split; auto. intros I.
        destruct (T2 I) as (tr1 & o & n & d1 & tr2 & -> & Z1 & Z2 & Z3).
        exists ((offset, Z.min (stop - offset) MAX_STEP, d) :: tr1), o, n, d1, tr2. auto. }
      rewrite total_app in *. cbn [opt total] in *.
      split; [rewrite map_app; auto|]. split; auto. split; auto.
      split; [econstructor; eauto|].
      split; [constructor; [cbn; lia|]; eapply Forall_impl; [|exact FA]; cbn; intros; lia|].
      split; [lia|]. split; [|auto]. intros RR. destruct (TS RR) as [U1 U2]. split; [lia|auto].
    + injection X as <- <- <-. split; [discriminate|]. apply Z.ltb_ge in LT. assert (stop = offset) by lia. subst stop.
      destruct cur as [c|]; [|destruct O1; [lia|congruence]].
      exists [c], [], s. repeat split; auto; try (constructor; fail); cbn [opt total]; try lia.
      intros I. exfalso. apply at_byte_range in H; auto. cbn [opt total] in *. lia.
Qed.

(* ---- honest servers ---- *)

Lemma extents_of_good k o cs id ds c : (exists a b, o = OExtents a b) ->
  In (CStatus id ds) cs -> Forall (answers k o) cs ->
  (forall x, In x ds -> 0 <= fst x) ->
  positive (extents_of c ds) /\ extents_of c ds <> [].
Proof.
  intros (a & b & ->) I F NN. rewrite Forall_forall in F. specialize (F _ I). cbn in F.
  destruct F as (_ & N & _ & _ & F). split.
  - unfold extents_of, positive. rewrite Forall_map. rewrite Forall_forall in *. intros x X.
    specialize (F x X). specialize (NN x X). cbn. lia.
  - destruct ds; [congruence|discriminate].
Qed.

Lemma descs_nonneg ds l : descs_bytes ds l -> forall x, In x ds -> 0 <= fst x.
Proof.
  induction 1 as [|n f a b l r U1 U2 D IH]; intros x X; [contradiction|].
  destruct X as [<-|X]; auto. cbn. apply u_range in U1. lia.
Qed.
Lemma reply_descs h cs l : reply_bytes h cs l -> forall id ds, In (CStatus id ds) cs ->
  forall x, In x ds -> 0 <= fst x.
Proof.
  assert (C : forall dn id ds l, chunk_bytes h dn (CStatus id ds) l -> forall x, In x ds -> 0 <= fst x).
  { intros dn id ds l0 (a & b & ty & d & e & f & x & fl & _ & _ & _ & _ & _ & _ & _ & P).
    inversion P; subst. eapply descs_nonneg; eauto. }
  induction 1 as [c l B|c l cs l' N1 N2 B R IH]; intros id ds I.
  - destruct I as [->|[]]. eapply C; eauto.
  - destruct I as [->|I]; [eapply C; eauto|eauto].
Qed.

Definition ctx_ok (k : client) (dirty : bool) (ctx : option string) : Prop :=
  if dirty then ctx <> None /\ k_dirty k = ctx
  else ctx = None \/ ctx = Some "qemu:allocation-depth"%string.

Lemma in_last {A} (P : A -> bool) (x : A) l : In x l -> P x = true ->
  exists l1 y l2, l = l1 ++ y :: l2 /\ P y = true /\ forall z, In z l2 -> P z = false.
Proof.
  induction l as [|a l IH]; intros I E; [contradiction|].
  destruct (existsb P l) eqn:X.
  - apply existsb_exists in X as (z & Z1 & Z2). assert (exists l1 y l2, l = l1 ++ y :: l2 /\ P y = true /\ forall z, In z l2 -> P z = false) as (l1 & y & l2 & -> & Y & W).
    { clear - Z1 Z2. revert z Z1 Z2. induction l as [|b l IHl]; intros z Z1 Z2; [contradiction|].
      destruct (existsb P l) eqn:X.
      - apply existsb_exists in X as (w & W1 & W2). destruct (IHl w W1 W2) as (l1 & y & l2 & -> & Y & W).
        exists (b :: l1), y, l2. auto.
      - destruct Z1 as [->|Z1].
        + exists [], z, l. repeat split; auto. intros w W. destruct (P w) eqn:Q; auto.
          assert (existsb P l = true) by (apply existsb_exists; eauto). congruence.
        + assert (existsb P l = true) by (apply existsb_exists; eauto). congruence. }
    exists (a :: l1), y, l2. auto.
  - destruct I as [->|I].
    + exists [], x, l. repeat split; auto. intros w W. destruct (P w) eqn:Q; auto.
      assert (existsb P l = true) by (apply existsb_exists; eauto). congruence.
    + assert (existsb P l = true) by (apply existsb_exists; eauto). congruence.
Qed.

(* The dictionary for a reply with one chunk for the context *)
Lemma reports_assoc k cs name n d :
  reports k cs name n ->
  (forall cs1 i ds cs2 name c,
     cs = cs1 ++ CStatus i ds :: cs2 -> k_meta k i = Some name -> kind_of k name c ->
     (forall j ds', In (CStatus j ds') cs2 -> k_meta k j <> Some name) ->
     assoc name d = Some (extents_of c ds)) ->
  exists id ds c, In (CStatus id ds) cs /\ k_meta k id = Some name /\ kind_of k name c
    /\ assoc name d = Some (extents_of c ds) /\ total (extents_of c ds) = n.
Proof.
  intros (id & ds & c & I & K & KD & U & T) A.
  set (P := fun x => match x with CStatus j _ => match k_meta k j with Some m => String.eqb m name | None => false end | _ => false end).
  destruct (in_last P _ _ I) as (cs1 & y & cs2 & E & Y & W).
  { cbn. rewrite K. apply String.eqb_refl. }
  destruct y as [| | |j ds2| |]; cbn in Y; try discriminate. destruct (k_meta k j) as [m|] eqn:KJ; [|discriminate].
  apply String.eqb_eq in Y. subst m.
  assert (ds2 = ds) by (eapply (U j); [rewrite E; apply in_or_app; right; left; reflexivity|auto]). subst ds2.
  exists id, ds, c. repeat split; auto.
  eapply A; eauto. intros j' ds' X Y. specialize (W _ X). cbn in W. rewrite Y, String.eqb_refl in W. discriminate.
Qed.

Lemma honest_loop v k dirty F ctx stop h offset L :
  can_send v -> k_structured k = true -> ctx_ok k dirty ctx -> stop <= 2 ^ 64 ->
  honest k F ctx stop h offset L ->
  forall fuel cur s r, s_counter s = h -> 0 <= h -> h + (stop - offset) <= 2 ^ 64 -> 0 <= offset ->
  stop - offset <= Z.of_nat fuel -> s_in s = L ++ r -> positive (opt cur) -> (offset < stop \/ cur <> None) ->
  exists E s', extents_loop v k dirty fuel offset stop cur s = (map Some E, inl tt, s') /\ s_in s' = r
    /\ positive E /\ noadj E /\ tells E cur offset (fun i f => f = flags_of F ctx i).
Proof.
  intros V K CTX ST. induction 1 as [h offset LE|h offset cs l n n2 L LT RB AN TR RP RP2 ND HO IH];
    intros fuel cur s r CT H0 HB OF FU I PC O1.
  - assert (X : forall fuel, extents_loop v k dirty fuel offset stop cur s = ([cur], inl tt, s)).
    { intros [|]; cbn [extents_loop]; replace (offset <? stop) with false by lia; auto. }
    rewrite X. destruct cur as [c|]; [|destruct O1; [lia|congruence]].
    exists [c], s. repeat split; auto. intros Q. exfalso. apply at_byte_range in H; auto. cbn [opt total] in *. lia.
  - destruct fuel as [|fuel]; [lia|]. cbn [extents_loop]. replace (offset <? stop) with true by lia.
    change (2 ^ 31) with MAX_STEP in AN.
    remember (Z.min (stop - offset) MAX_STEP) as step eqn:STEP.
    assert (0 <= step < 2 ^ 32) by (unfold MAX_STEP in *; lia).
    destruct (block_status_decoded v k s offset step cs l (L ++ r)) as (d & s1 & X & IN & D1 & D2); auto.
    { split; lia. } { lia. } { rewrite CT. auto. } { rewrite I, <- app_assoc. reflexivity. }
    rewrite X.
    assert (CT1 : s_counter s1 = h + 1).
    { destruct (op_start v k (OExtents offset step) s 0 7 offset step []) as (b & i & _ & _ & E); auto.
      { split; lia. } { lia. }
      cbn [do_op] in E. rewrite X in E.
      destruct (keeps_reply v k (fun s' => s_counter s' = h + 1))
        with (h := s_counter s) (offset := offset) (s := started k (OExtents offset step) s (b ++ []) i) as [KK _]; auto.
      { cbn. lia. }
      rewrite <- E in KK. auto. }
    pose proof (extents_good _ _ _ _ _ _ _ X) as GD.
    destruct (reports_assoc _ _ _ _ _ RP D1) as (id & ds & c & I1 & I2 & I3 & I4 & I5).
    assert (BT : forall i f, at_byte (extents_of c ds) i f -> F "base:allocation"%string (offset + i) = f).
    { rewrite Forall_forall in TR. specialize (TR _ I1). cbn in TR. eauto. }
    (* what is picked *)
    assert (PK : exists lx, pick dirty (k_dirty k) d = inl lx /\ total lx = Z.min n n2
                 /\ forall i f, at_byte lx i f -> f = flags_of F ctx (offset + i)).
    { destruct (GD _ _ I4) as [PB NB].
      assert (MG : forall name, ctx = Some name -> exists ds2 c2,
          assoc name d = Some (extents_of c2 ds2) /\ total (merge (extents_of c ds) (extents_of c2 ds2)) = Z.min n n2
          /\ forall i f, at_byte (merge (extents_of c ds) (extents_of c2 ds2)) i f -> f = flags_of F ctx (offset + i)).
      { intros name ->. destruct (reports_assoc _ _ _ _ _ RP2 D1) as (id2 & ds2 & c2 & J1 & J2 & J3 & J4 & J5).
        exists ds2, c2. split; auto. destruct (GD _ _ J4) as [PB2 NB2].
        destruct (merged_spec _ _ _ PB PB2 (le_n _)) as (M1 & M2 & M3). unfold merge. split; [lia|].
        intros i f A. pose proof (at_byte_range _ _ _ M1 A) as RG. rewrite M2 in RG.
        destruct (at_byte_ex _ i PB) as [x XX]; [lia|]. destruct (at_byte_ex _ i PB2) as [y YY]; [lia|].
        assert (f = Z.lor x y) by (eapply at_byte_fun; [exact M1|exact A|auto]). subst f. cbn.
        rewrite (BT _ _ XX). f_equal. symmetry. rewrite Forall_forall in TR. specialize (TR _ J1). cbn in TR. eauto. }
      unfold pick, contains. rewrite !getitem_assoc.
      change BASE_ALLOCATION with "base:allocation"%string.
      change QEMU_ALLOCATION_DEPTH with "qemu:allocation-depth"%string. rewrite I4.
      destruct dirty; cbn in CTX.
      - destruct CTX as [C1 C2]. rewrite C2. destruct ctx as [name|]; [|congruence].
        destruct (MG name eq_refl) as (ds2 & c2 & J1 & J2 & J3). rewrite getitem_assoc, J1. eauto.
      - destruct CTX as [-> | ->].
        + rewrite (D2 "qemu:allocation-depth"%string) by (apply ND; auto).
          eexists. split; [reflexivity|]. split; [lia|]. intros i f A. cbn. symmetry. auto.
        + destruct (MG _ eq_refl) as (ds2 & c2 & J1 & J2 & J3). rewrite J1. eauto. }
    destruct PK as (lx & PK & TX & FX). rewrite PK.
    destruct (pick_spec _ _ _ _ GD PK) as (PL & NL & _).
    destruct (scan_spec lx offset stop cur PL NL LT PC) as (out1 & c1 & R1 & R2 & R3 & R4 & _ & _).
    rewrite R1. pose proof (total_pos _ PL NL).
    assert (PC2 : positive (opt (Some c1))) by (apply Forall_app in R2; apply R2).
    destruct (Z_le_gt_dec stop (offset + total lx)) as [LE|GT].
    + (* the end *)
      replace (Z.min stop (offset + total lx)) with stop in * by lia.
      assert (L = []) as ->. { inversion HO; subst; auto. lia. }
      assert (X2 : forall fuel, extents_loop v k dirty fuel stop stop (Some c1) s1 = ([Some c1], inl tt, s1)).
      { intros [|]; cbn [extents_loop]; rewrite Z.ltb_irrefl; auto. }
      rewrite X2.
      destruct (combine lx offset stop cur out1 stop c1 [c1] (fun i f => f = flags_of F ctx i) PL NL LT PC R1) as (Q1 & Q2 & Q3); auto.
      { constructor. }
      { intros i f A. split; auto. intros Q. exfalso. apply at_byte_range in A; auto. cbn [opt total] in *. lia. }
      exists (out1 ++ [c1]), s1. split; [rewrite map_app; reflexivity|]. auto.
    + replace (Z.min stop (offset + total lx)) with (offset + Z.min n n2) in * by lia.
      destruct (IH fuel (Some c1) s1 r) as (E & s' & Y1 & Y2 & Y3 & Y4 & Y5); auto; try lia.
      rewrite Y1.
      destruct (combine lx offset stop cur out1 _ c1 E (fun i f => f = flags_of F ctx i) PL NL LT PC R1) as (Q1 & Q2 & Q3); auto.
      exists (out1 ++ E), s'. split; [rewrite map_app; reflexivity|]. auto.
Qed.

(* ---- the API ---- *)

Lemma convert_spec dirty E : forall start, positive E ->
  exists X, convert dirty start (map Some E) = (X, inl tt) /\ tiles start (start + total E) X
    /\ Forall (fun e => start <= start_of e) X
    /\ forall e i, In e X -> start_of e <= i < start_of e + length_of e ->
         exists f, at_byte E (i - start) f /\ says e f.
Proof.
  induction E as [|x E IH]; intros start P; cbn [map convert].
  - exists []. cbn [total]. rewrite Z.add_0_r. split; auto. split; [constructor|]. split; [constructor|]. contradiction.
  - inversion P as [|y z P1 P2]; subst y z.
    destruct (IH (start + e_length x) P2) as (X & C & T & S0 & B). rewrite C. eexists. split; [reflexivity|].
    split; [|split].
    + constructor; [destruct dirty; auto|destruct dirty; cbn; auto|].
      replace (start + total (x :: E)) with (start + e_length x + total E) by (cbn; lia).
      destruct dirty; auto.
    + constructor; [destruct dirty; cbn; lia|]. eapply Forall_impl; [|exact S0]. cbn. intros; lia.
    + intros e i [<-|I] R.
      * exists (e_flags x). split; [constructor; destruct dirty; cbn in R; lia|].
        unfold ext_dirty, ext_zero, ext_hole. change STATE_ZERO with (2 ^ 1). change EXTENT_BACKING with (2 ^ 3).
        change EXTENT_DIRTY with (2 ^ 2). rewrite !land_pow2 by lia. rewrite !negb_involutive. destruct dirty; cbn; auto.
      * destruct (B e i I R) as (f & A & SY). exists f. split; auto.
        replace (i - start) with (e_length x + (i - (start + e_length x))) by lia. constructor. auto.
Qed.
