(** * Proofs for the resources of connections. *)

From Coq Require Import List Bool ZArith Lia Arith.
From Verif Require Import ResourceModel ResourceSpec.
Import ListNotations.
Local Open Scope nat_scope.

(** ** Lists and dicts *)

Lemma nth_upd_eq : forall A (l : list A) n v a,
  nth_error l n = Some a -> nth_error (upd l n v) n = Some v.
Proof.
  induction l as [|b l IH]; intros [|n] v a H; cbn in *; try discriminate;
    eauto.
Qed.

Lemma nth_upd_ne : forall A (l : list A) n m v,
  n <> m -> nth_error (upd l n v) m = nth_error l m.
Proof.
  induction l as [|b l IH]; intros [|n] [|m] v H; cbn; auto; try congruence.
Qed.

Lemma upd_length : forall A (l : list A) n v,
  List.length (upd l n v) = List.length l.
Proof.
  induction l as [|b l IH]; intros [|n] v; cbn; auto.
Qed.

Lemma nth_upd_inv : forall A (l : list A) n m v a,
  nth_error (upd l n v) m = Some a ->
  (m = n /\ a = v /\ exists b, nth_error l n = Some b) \/
  (m <> n /\ nth_error l m = Some a).
Proof.
  intros A l n m v a H.
  destruct (Nat.eq_dec m n) as [->|N].
  - left. split; [auto|].
    destruct (nth_error l n) as [b|] eqn:E.
    + rewrite (nth_upd_eq _ _ _ _ _ E) in H. injection H as H. eauto.
    + apply nth_error_None in E.
      assert (X : nth_error (upd l n v) n = None)
        by (apply nth_error_None; rewrite upd_length; auto).
      congruence.
  - right. rewrite nth_upd_ne in H by auto. auto.
Qed.

Lemma nth_snoc_inv : forall A (l : list A) v m a,
  nth_error (l ++ [v]) m = Some a ->
  (m = List.length l /\ a = v) \/ nth_error l m = Some a.
Proof.
  intros A l v m a H.
  destruct (lt_dec m (List.length l)) as [L|L].
  - rewrite nth_error_app1 in H by auto. auto.
  - rewrite nth_error_app2 in H by lia.
    remember (m - List.length l) as d eqn:D.
    destruct d as [|d]; cbn in H.
    + injection H as H. left. split; [lia|auto].
    + destruct d; discriminate.
Qed.

Lemma nth_snoc_old : forall A (l : list A) v m a,
  nth_error l m = Some a -> nth_error (l ++ [v]) m = Some a.
Proof.
  intros A l v m a H.
  rewrite nth_error_app1; auto.
  apply nth_error_Some. congruence.
Qed.

Lemma nth_snoc_new : forall A (l : list A) v,
  nth_error (l ++ [v]) (List.length l) = Some v.
Proof.
  intros A l v. rewrite nth_error_app2 by lia.
  rewrite Nat.sub_diag. reflexivity.
Qed.

Lemma nth_lt : forall A (l : list A) n a,
  nth_error l n = Some a -> n < List.length l.
Proof. intros A l n a H. apply nth_error_Some. congruence. Qed.

Lemma dget_in : forall d k v, dget d k = Some v -> In (k, v) d.
Proof.
  induction d as [|[a b] d IH]; intros k v H; cbn in *; [discriminate|].
  destruct (Nat.eqb_spec a k) as [->|N]; [injection H as ->|]; auto.
Qed.

Lemma in_dget : forall d k v,
  NoDup (map fst d) -> In (k, v) d -> dget d k = Some v.
Proof.
  induction d as [|[a b] d IH]; intros k v N H; cbn in *; [tauto|].
  inversion N as [|? ? N1 N2]; subst.
  destruct H as [H|H].
  - injection H as -> ->. rewrite Nat.eqb_refl. reflexivity.
  - destruct (Nat.eqb_spec a k) as [->|E]; [|auto].
    destruct N1. apply in_map_iff. exists (k, v). auto.
Qed.

Lemma dget_none : forall d k v, dget d k = None -> ~ In (k, v) d.
Proof.
  induction d as [|[a b] d IH]; intros k v H I; cbn in *; [tauto|].
  destruct (Nat.eqb_spec a k) as [->|E]; [discriminate|].
  destruct I as [I|I]; [congruence|]. eapply IH; eauto.
Qed.

Lemma dset_keys : forall d k v a,
  In a (map fst (dset d k v)) <-> a = k \/ In a (map fst d).
Proof.
  induction d as [|[b w] d IH]; intros k v a; cbn.
  - split; [intros [H|[]]|intros [H|[]]]; auto.
  - destruct (Nat.eqb_spec b k) as [->|N]; cbn.
    + split; [intros [H|H]|intros [H|[H|H]]]; auto.
    + rewrite IH. split; [intros [H|[H|H]]|intros [H|[H|H]]]; auto.
Qed.

Lemma dset_nodup : forall d k v,
  NoDup (map fst d) -> NoDup (map fst (dset d k v)).
Proof.
  induction d as [|[b w] d IH]; intros k v N; cbn.
  - constructor; [cbn; tauto|constructor].
  - inversion N as [|? ? N1 N2]; subst.
    destruct (Nat.eqb_spec b k) as [->|E]; cbn.
    + constructor; auto.
    + constructor; auto. rewrite dset_keys. intros [H|H]; auto.
Qed.

Lemma dset_in : forall d k v a b,
  In (a, b) (dset d k v) -> (a = k /\ b = v) \/ In (a, b) d.
Proof.
  induction d as [|[e w] d IH]; intros k v a b H; cbn in *.
  - destruct H as [H|[]]. injection H as -> ->. auto.
  - destruct (Nat.eqb_spec e k) as [->|E].
    + destruct H as [H|H]; [injection H as -> ->; auto|auto].
    + destruct H as [H|H]; [injection H as -> ->; auto|].
      apply IH in H. destruct H; auto.
Qed.

Lemma dset_new : forall d k v, In (k, v) (dset d k v).
Proof.
  induction d as [|[e w] d IH]; intros k v; cbn; auto.
  destruct (Nat.eqb_spec e k) as [->|E]; cbn; auto.
Qed.

Lemma dset_old : forall d k v a b,
  In (a, b) d -> In (a, b) (dset d k v) \/ a = k.
Proof.
  induction d as [|[e w] d IH]; intros k v a b H; cbn in *; [tauto|].
  destruct (Nat.eqb_spec e k) as [->|E].
  - destruct H as [H|H]; [injection H as -> ->; auto|cbn; auto].
  - destruct H as [H|H]; [cbn; auto|].
    apply (IH k v) in H. cbn. destruct H; auto.
Qed.

Lemma ddel_in : forall d k a b,
  In (a, b) (ddel d k) -> In (a, b) d.
Proof.
  induction d as [|[e w] d IH]; intros k a b H; cbn in *; [tauto|].
  destruct (Nat.eqb_spec e k); [auto|].
  destruct H as [H|H]; eauto.
Qed.

Lemma ddel_gone : forall d k b,
  NoDup (map fst d) -> ~ In (k, b) (ddel d k).
Proof.
  induction d as [|[e w] d IH]; intros k b N H; cbn in *; [tauto|].
  inversion N as [|? ? N1 N2]; subst.
  destruct (Nat.eqb_spec e k) as [->|E].
  - apply N1. apply in_map_iff. exists (k, b). auto.
  - destruct H as [H|H]; [congruence|]. eapply IH; eauto.
Qed.

Lemma ddel_keep : forall d k a b,
  In (a, b) d -> a <> k -> In (a, b) (ddel d k).
Proof.
  induction d as [|[e w] d IH]; intros k a b H N; cbn in *; [tauto|].
  destruct (Nat.eqb_spec e k) as [->|E].
  - destruct H as [H|H]; [congruence|auto].
  - destruct H as [H|H]; cbn; auto.
Qed.

Lemma ddel_keys : forall d k a,
  In a (map fst (ddel d k)) -> In a (map fst d).
Proof.
  intros d k a H. apply in_map_iff in H. destruct H as [[u v] [E H]].
  cbn in E. subst u. apply ddel_in in H. apply in_map_iff. exists (a, v). auto.
Qed.

Lemma ddel_nodup : forall d k,
  NoDup (map fst d) -> NoDup (map fst (ddel d k)).
Proof.
  induction d as [|[e w] d IH]; intros k N; cbn; [constructor|].
  inversion N as [|? ? N1 N2]; subst.
  destruct (Nat.eqb_spec e k); [auto|]. cbn. constructor; auto.
  intro H. apply ddel_keys in H. auto.
Qed.

Lemma closes_app : forall a b x, closes (a ++ b) x = closes a x + closes b x.
Proof.
  intros a b x. unfold closes. rewrite filter_app, app_length. reflexivity.
Qed.

(** ** The invariant *)

Definition over (p : pc) : Prop :=
  match p with Closing _ | Done => True | _ => False end.

Definition registered (n : rcon) (u t : nat) : Prop :=
  match c_pc n with
  | Closing ts => In t ts
  | Done => False
  | _ => In (u, t) (c_reg n)
  end.

Definition swapped (tiks : list tik) (log : list ev) (c t : nat) (k : tik)
  : Prop :=
  exists t' x' b k', t' <> t /\ In (EServed c t' x' b) log /\
    nth_error tiks t' = Some k' /\ t_uuid k' = t_uuid k.

Definition held (tiks : list tik) (log : list ev) (n : rcon) (c t x : nat)
  (k : tik) : Prop :=
  c_pc n = Pending t x \/ In (ENoTimeout x) log \/
  In (ECloseError x) log \/ registered n (t_uuid k) t \/
  swapped tiks log c t k.

Record inv (s : state) : Prop := Inv {
  iN : forall t k, nth_error (s_tiks s) t = Some k ->
       NoDup (map fst (t_conns k));
  iA : forall t k c x, nth_error (s_tiks s) t = Some k ->
       In (c, x) (t_conns k) ->
       exists b, nth_error (s_ctxs s) x = Some b /\ x_con b = c /\
                 x_tik b = t;
  iB : forall c t x, In (EOpened c t x) (s_log s) <->
       exists b, nth_error (s_ctxs s) x = Some b /\ x_con b = c /\
                 x_tik b = t;
  iC : forall x, closes (s_log s) x =
       match nth_error (s_ctxs s) x with
       | Some b => if x_backend b then 0 else 1
       | None => 0
       end;
  iD : forall x b, nth_error (s_ctxs s) x = Some b -> x_backend b = true ->
       In (ENoBuffer x) (s_log s) \/ In (ECloseError x) (s_log s) \/
       exists k, nth_error (s_tiks s) (x_tik b) = Some k /\
                 In (x_con b, x) (t_conns k);
  iE : forall t k c x, nth_error (s_tiks s) t = Some k ->
       In (c, x) (t_conns k) ->
       exists n, nth_error (s_cons s) c = Some n /\
                 held (s_tiks s) (s_log s) n c t x k;
  iF : forall t k c x n b, nth_error (s_tiks s) t = Some k ->
       In (c, x) (t_conns k) -> nth_error (s_cons s) c = Some n ->
       nth_error (s_ctxs s) x = Some b -> x_backend b = false ->
       t_canceled k = true \/ over (c_pc n);
  iG : forall t k, nth_error (s_tiks s) t = Some k ->
       t_canceled k = true -> In (ECanceled t) (s_log s);
  iH : forall c n t x, nth_error (s_cons s) c = Some n ->
       c_pc n = Pending t x ->
       exists k, nth_error (s_tiks s) t = Some k /\ In (c, x) (t_conns k);
  iS : forall c t x, In (EServed c t x false) (s_log s) ->
       In (ECanceled t) (s_log s);
  iT : forall c t x b, In (EServed c t x b) (s_log s) ->
       In (EOpened c t x) (s_log s);
  iL : forall c, In (EFinished c) (s_log s) ->
       exists n, nth_error (s_cons s) c = Some n /\ c_pc n = Done
}.

Lemma init_inv : inv init.
Proof.
  constructor; cbn; intros;
    try (match goal with H : nth_error [] ?i = Some _ |- _ =>
           destruct i; discriminate end); try tauto.
  - split; [tauto|]. intros (b & H & _). destruct x; discriminate.
  - destruct x; reflexivity.
Qed.

Lemma held_mono : forall tiks log es n c t x k,
  held tiks log n c t x k -> held tiks (es ++ log) n c t x k.
Proof.
  intros tiks log es n c t x k [H|[H|[H|[H|H]]]].
  - left; auto.
  - right; left. apply in_or_app; auto.
  - right; right; left. apply in_or_app; auto.
  - do 3 right; left; auto.
  - do 4 right. destruct H as (t' & x' & b & k' & A & B & C & D).
    exists t', x', b, k'. split; [auto|]. split; [|auto].
    apply in_or_app; auto.
Qed.

(** Tickets that keep their uuids keep what was swapped. *)
Lemma held_tiks : forall tiks tiks' log n c t x k k',
  (forall i a, nth_error tiks i = Some a ->
     exists a', nth_error tiks' i = Some a' /\ t_uuid a' = t_uuid a) ->
  t_uuid k' = t_uuid k ->
  held tiks log n c t x k -> held tiks' log n c t x k'.
Proof.
  intros tiks tiks' log n c t x k k' T U [H|[H|[H|[H|H]]]].
  - left; auto.
  - right; left; auto.
  - right; right; left; auto.
  - do 3 right; left. unfold registered in *. rewrite U. auto.
  - do 4 right. destruct H as (t' & x' & b & q & A & B & C & D).
    destruct (T _ _ C) as (q' & C' & D').
    exists t', x', b, q'. split; [auto|]. split; [auto|]. split; [auto|].
    congruence.
Qed.

(** ** Closing a context *)

Lemma close_same : forall s x o,
  s_tiks (fst (close_ctx s x o)) = s_tiks s /\
  s_cons (fst (close_ctx s x o)) = s_cons s.
Proof.
  intros s x o. unfold close_ctx.
  destruct (nth_error (s_ctxs s) x) as [b|]; [|auto].
  destruct (x_backend b); [destruct o|]; auto.
Qed.

(** What closing leaves: the context is closed, or an error was seen. *)
Lemma close_log : forall s x o, exists es,
  s_log (fst (close_ctx s x o)) = es ++ s_log s /\
  (forall e, In e es -> e = EClosed x \/ e = ECloseError x) /\
  (snd (close_ctx s x o) = true -> In (ECloseError x) es) /\
  (forall b, nth_error (s_ctxs (fst (close_ctx s x o))) x = Some b ->
     snd (close_ctx s x o) = false -> x_backend b = false).
Proof.
  intros s x o. unfold close_ctx.
  destruct (nth_error (s_ctxs s) x) as [b|] eqn:E.
  - destruct (x_backend b) eqn:B; [destruct o|]; cbn.
    + exists [EClosed x]. split; [auto|]. split; [|split].
      * intros e [H|[]]; auto.
      * discriminate.
      * intros b' H _. rewrite (nth_upd_eq _ _ _ _ _ E) in H.
        injection H as <-. reflexivity.
    + exists [ECloseError x; EClosed x]. split; [auto|]. split; [|split].
      * intros e [H|[H|[]]]; auto.
      * cbn; auto.
      * intros; discriminate.
    + exists [ECloseError x]. split; [auto|]. split; [|split].
      * intros e [H|[]]; auto.
      * cbn; auto.
      * intros; discriminate.
    + exists []. split; [auto|]. split; [|split].
      * cbn; tauto.
      * discriminate.
      * intros b' H _. rewrite (nth_upd_eq _ _ _ _ _ E) in H.
        injection H as <-. reflexivity.
  - exists []. cbn. split; [auto|]. split; [tauto|]. split; [discriminate|].
    intros; congruence.
Qed.

(** The contexts after closing one. *)
Lemma close_ctxs : forall s x o y b,
  nth_error (s_ctxs (fst (close_ctx s x o))) y = Some b ->
  exists b0, nth_error (s_ctxs s) y = Some b0 /\ x_con b = x_con b0 /\
    x_tik b = x_tik b0 /\ (x_backend b = true -> x_backend b0 = true) /\
    (y <> x -> x_backend b = x_backend b0).
Proof.
  intros s x o y b. unfold close_ctx.
  destruct (nth_error (s_ctxs s) x) as [b1|] eqn:E.
  - destruct (x_backend b1) eqn:B; [destruct o|]; cbn; intro H;
      apply nth_upd_inv in H; destruct H as [(-> & -> & b2 & H)|(N & H)];
      try (exists b; repeat split; auto; fail);
      exists b1; cbn; repeat split; auto; try congruence; discriminate.
  - cbn. intro H. exists b. repeat split; auto.
Qed.

Lemma close_ctxs_back : forall s x o y b0,
  nth_error (s_ctxs s) y = Some b0 ->
  exists b, nth_error (s_ctxs (fst (close_ctx s x o))) y = Some b /\
    x_con b = x_con b0 /\ x_tik b = x_tik b0.
Proof.
  intros s x o y b0 H. unfold close_ctx.
  destruct (nth_error (s_ctxs s) x) as [b1|] eqn:E; [|eauto].
  destruct (Nat.eq_dec y x) as [->|N].
  - assert (b1 = b0) by congruence. subst b1.
    destruct (x_backend b0); [destruct o|]; cbn;
      (rewrite (nth_upd_eq _ _ _ _ _ E); eexists; split; [reflexivity|auto]).
  - destruct (x_backend b1); [destruct o|]; cbn;
      (rewrite nth_upd_ne by auto; eauto).
Qed.

Lemma close_count : forall s x o, inv s ->
  forall y, closes (s_log (fst (close_ctx s x o))) y =
    match nth_error (s_ctxs (fst (close_ctx s x o))) y with
    | Some b => if x_backend b then 0 else 1
    | None => 0
    end.
Proof.
  intros s x o I y. pose proof (iC _ I y) as C. unfold close_ctx.
  destruct (nth_error (s_ctxs s) x) as [b1|] eqn:E; [|auto].
  destruct (Nat.eq_dec y x) as [->|N].
  - rewrite E in C.
    destruct (x_backend b1) eqn:B; [destruct o|];
      cbn [fst s_log set_ctxs s_ctxs];
      rewrite (nth_upd_eq _ _ _ _ _ E); rewrite closes_app, C;
      cbn [x_backend]; unfold closes; cbn;
      rewrite ?Nat.eqb_refl; reflexivity.
  - assert (F : Nat.eqb x y = false) by (apply Nat.eqb_neq; auto).
    destruct (x_backend b1) eqn:B; [destruct o|];
      cbn [fst s_log set_ctxs s_ctxs];
      rewrite nth_upd_ne by auto; rewrite closes_app, C;
      unfold closes; cbn; rewrite ?F; reflexivity.
Qed.

Lemma close_inv : forall s x o,
  inv s ->
  (forall t k c n, nth_error (s_tiks s) t = Some k ->
     In (c, x) (t_conns k) -> nth_error (s_cons s) c = Some n ->
     t_canceled k = true \/ over (c_pc n)) ->
  inv (fst (close_ctx s x o)).
Proof.
  intros s x o I P.
  destruct (close_same s x o) as [ST SC].
  destruct (close_log s x o) as (es & SL & ES & RE & RO).
  constructor; rewrite ?ST, ?SC.
  - apply (iN _ I).
  - intros t k c y H1 H2. destruct (iA _ I _ _ _ _ H1 H2) as (b & Hb & B1 & B2).
    destruct (close_ctxs_back s x o y b Hb) as (b' & Hb' & C1 & C2).
    exists b'. split; [auto|]. split; congruence.
  - intros c t y. rewrite SL. split.
    + intro H. apply in_app_or in H. destruct H as [H|H].
      * destruct (ES _ H); discriminate.
      * apply (iB _ I) in H. destruct H as (b & Hb & B1 & B2).
        destruct (close_ctxs_back s x o y b Hb) as (b' & Hb' & C1 & C2).
        exists b'. split; [auto|]. split; congruence.
    + intros (b & Hb & B1 & B2). apply in_or_app. right. apply (iB _ I).
      destruct (close_ctxs _ _ _ _ _ Hb) as (b0 & H0 & C1 & C2 & _).
      exists b0. split; [auto|]. split; congruence.
  - apply close_count; auto.
  - intros y b H1 H2. rewrite SL.
    destruct (close_ctxs _ _ _ _ _ H1) as (b0 & H0 & C1 & C2 & C3 & _).
    destruct (iD _ I _ _ H0 (C3 H2)) as [H|[H|H]].
    + left. apply in_or_app; auto.
    + right; left. apply in_or_app; auto.
    + right; right. rewrite C1, C2. auto.
  - intros t k c y H1 H2. destruct (iE _ I _ _ _ _ H1 H2) as (n & Hn & HH).
    exists n. split; [auto|]. rewrite SL. apply held_mono; auto.
  - intros t k c y n b H1 H2 H3 H4 H5.
    destruct (Nat.eq_dec y x) as [->|N]; [eauto|].
    destruct (close_ctxs _ _ _ _ _ H4) as (b0 & H0 & _ & _ & _ & C4).
    apply (iF _ I _ _ _ _ _ _ H1 H2 H3 H0). rewrite <- C4; auto.
  - intros t k H1 H2. rewrite SL. apply in_or_app. right.
    apply (iG _ I _ _ H1 H2).
  - apply (iH _ I).
  - intros c t y H. rewrite SL in *. apply in_or_app. right.
    apply in_app_or in H. destruct H as [H|H].
    + destruct (ES _ H); discriminate.
    + apply (iS _ I _ _ _ H).
  - intros c t y w H. rewrite SL in *. apply in_or_app. right.
    apply in_app_or in H. destruct H as [H|H].
    + destruct (ES _ H); discriminate.
    + apply (iT _ I _ _ _ _ H).
  - intros c H. rewrite SL in H. apply in_app_or in H.
    destruct H as [H|H].
    + destruct (ES _ H); discriminate.
    + apply (iL _ I _ H).
Qed.

Lemma close_all_same : forall d s os,
  s_tiks (close_all s d os) = s_tiks s /\
  s_cons (close_all s d os) = s_cons s.
Proof.
  induction d as [|[c x] d IH]; intros s os; cbn; [auto|].
  destruct (close_ctx s x (hd Cok os)) as [s1 r] eqn:E.
  pose proof (close_same s x (hd Cok os)) as [A B]. rewrite E in A, B.
  cbn in A, B.
  destruct r; [auto|]. destruct (IH s1 (tl os)) as [C D].
  rewrite C, D. auto.
Qed.

Lemma close_all_inv : forall d s os t k,
  inv s -> nth_error (s_tiks s) t = Some k -> t_canceled k = true ->
  (forall c x, In (c, x) d -> In (c, x) (t_conns k)) ->
  inv (close_all s d os).
Proof.
  induction d as [|[c x] d IH]; intros s os t k I T K D; cbn; [auto|].
  destruct (close_ctx s x (hd Cok os)) as [s1 r] eqn:E.
  assert (I1 : inv s1).
  { replace s1 with (fst (close_ctx s x (hd Cok os))) by (rewrite E; auto).
    apply close_inv; auto.
    intros t' k' c' n H1 H2 H3. left.
    destruct (iA _ I _ _ _ _ T (D c x (or_introl eq_refl)))
      as (b & Hb & B1 & B2).
    destruct (iA _ I _ _ _ _ H1 H2) as (b' & Hb' & B1' & B2').
    assert (t' = t) by congruence. subst t'. congruence. }
  destruct r; [auto|].
  pose proof (close_same s x (hd Cok os)) as [A _]. rewrite E in A. cbn in A.
  apply (IH s1 (tl os) t k); auto.
  - rewrite A; auto.
  - intros c' x' H. apply D. right; auto.
Qed.

(** ** A context that is not put in a ticket *)

Lemma add_ctx_inv : forall s c t (bk bf : bool) es,
  inv s ->
  let x := List.length (s_ctxs s) in
  In (EOpened c t x) es ->
  (forall e, In e es -> e = EOpened c t x \/ e = ENoBuffer x \/
     e = EClosed x \/ e = ECloseError x) ->
  closes es x = (if bk then 0 else 1) ->
  (bk = true -> In (ENoBuffer x) es \/ In (ECloseError x) es) ->
  inv (set_ctxs s (s_ctxs s ++ [Bctx c t bk bf]) es).
Proof.
  intros s c t bk bf es I x EO ES EC EB.
  assert (FRESH : forall y, y <> x -> closes es y = 0).
  { intros y N. clear - ES N. induction es as [|e es IH]; [reflexivity|].
    unfold closes in *. cbn.
    assert (X : is_close y e = false).
    { destruct (ES e (or_introl eq_refl)) as [->|[->|[->| ->]]]; cbn; auto.
      apply Nat.eqb_neq; auto. }
    rewrite X. apply IH. intros e' H. apply ES. right; auto. }
  constructor; cbn [set_ctxs s_tiks s_ctxs s_cons s_log].
  - apply (iN _ I).
  - intros t' k c' y H1 H2. destruct (iA _ I _ _ _ _ H1 H2) as (b & Hb & B).
    exists b. split; [|auto]. apply nth_snoc_old; auto.
  - intros c' t' y. split.
    + intro H. apply in_app_or in H. destruct H as [H|H].
      * destruct (ES _ H) as [E|[E|[E|E]]]; try discriminate.
        injection E as -> -> ->. exists (Bctx c t bk bf).
        split; [apply nth_snoc_new|auto].
      * apply (iB _ I) in H. destruct H as (b & Hb & B).
        exists b. split; [|auto]. apply nth_snoc_old; auto.
    + intros (b & Hb & B1 & B2). apply in_or_app.
      apply nth_snoc_inv in Hb. destruct Hb as [[-> ->]|Hb].
      * cbn in *. subst. left; auto.
      * right. apply (iB _ I). eauto.
  - intro y. rewrite closes_app, (iC _ I y).
    destruct (Nat.eq_dec y x) as [->|N].
    + unfold x at 2 3. rewrite nth_snoc_new.
      assert (X : nth_error (s_ctxs s) (List.length (s_ctxs s)) = None)
        by (apply nth_error_None; lia).
      rewrite X. rewrite EC. cbn. lia.
    + rewrite FRESH by auto.
      destruct (nth_error (s_ctxs s) y) as [b|] eqn:E.
      * rewrite (nth_snoc_old _ _ _ _ _ E). reflexivity.
      * assert (X : nth_error (s_ctxs s ++ [Bctx c t bk bf]) y = None).
        { apply nth_error_None. apply nth_error_None in E.
          rewrite app_length. cbn. unfold x in N. lia. }
        rewrite X. reflexivity.
  - intros y b H1 H2. apply nth_snoc_inv in H1. destruct H1 as [[-> ->]|H1].
    + cbn in H2. destruct (EB H2) as [H|H].
      * left. apply in_or_app; auto.
      * right; left. apply in_or_app; auto.
    + destruct (iD _ I _ _ H1 H2) as [H|[H|H]].
      * left. apply in_or_app; auto.
      * right; left. apply in_or_app; auto.
      * right; right; auto.
  - intros t' k c' y H1 H2. destruct (iE _ I _ _ _ _ H1 H2) as (n & Hn & HH).
    exists n. split; [auto|]. apply held_mono; auto.
  - intros t' k c' y n b H1 H2 H3 H4 H5.
    apply nth_snoc_inv in H4. destruct H4 as [[-> ->]|H4].
    + destruct (iA _ I _ _ _ _ H1 H2) as (b & Hb & _).
      apply nth_lt in Hb. lia.
    + apply (iF _ I _ _ _ _ _ _ H1 H2 H3 H4 H5).
  - intros t' k H1 H2. apply in_or_app. right. apply (iG _ I _ _ H1 H2).
  - apply (iH _ I).
  - intros c' t' y H. apply in_or_app. right.
    apply in_app_or in H. destruct H as [H|H].
    + destruct (ES _ H) as [E|[E|[E|E]]]; discriminate.
    + apply (iS _ I _ _ _ H).
  - intros c' t' y w H. apply in_or_app. right.
    apply in_app_or in H. destruct H as [H|H].
    + destruct (ES _ H) as [E|[E|[E|E]]]; discriminate.
    + apply (iT _ I _ _ _ _ H).
  - intros c' H. apply in_app_or in H. destruct H as [H|H].
    + destruct (ES _ H) as [E|[E|[E|E]]]; discriminate.
    + apply (iL _ I _ H).
Qed.

(** The context opened for a canceled ticket is closed at once. *)
Lemma close_new : forall s c t d,
  let x := List.length (s_ctxs s) in
  exists (bk : bool) es,
  fst (close_ctx (set_ctxs s (s_ctxs s ++ [Bctx c t true true])
                    [EOpened c t x]) x d) =
    set_ctxs s (s_ctxs s ++ [Bctx c t bk false]) es /\
  In (EOpened c t x) es /\
  (forall e, In e es -> e = EOpened c t x \/ e = ENoBuffer x \/
     e = EClosed x \/ e = ECloseError x) /\
  closes es x = (if bk then 0 else 1) /\
  (bk = true -> In (ENoBuffer x) es \/ In (ECloseError x) es).
Proof.
  intros s c t d x.
  assert (U : forall v, upd (s_ctxs s ++ [Bctx c t true true]) x v =
                        s_ctxs s ++ [v]).
  { intro v. unfold x. generalize (s_ctxs s) as l.
    induction l as [|a l IH]; cbn; [reflexivity|]. f_equal. apply IH. }
  unfold close_ctx. cbn [set_ctxs s_ctxs].
  unfold x at 2. rewrite nth_snoc_new. cbn [x_backend x_con x_tik].
  destruct d; cbn [fst]; unfold set_ctxs; cbn [s_tiks s_ctxs s_cons s_log];
    rewrite U.
  - exists false, [EClosed x; EOpened c t x]. split; [reflexivity|].
    split; [cbn; auto|]. split; [|split].
    + intros e [H|[H|[]]]; auto.
    + unfold closes; cbn. rewrite Nat.eqb_refl. reflexivity.
    + discriminate.
  - exists false, [ECloseError x; EClosed x; EOpened c t x].
    split; [reflexivity|].
    split; [cbn; auto|]. split; [|split].
    + intros e [H|[H|[H|[]]]]; auto.
    + unfold closes; cbn. rewrite Nat.eqb_refl. reflexivity.
    + discriminate.
  - exists true, [ECloseError x; EOpened c t x]. split; [reflexivity|].
    split; [cbn; auto|]. split; [|split].
    + intros e [H|[H|[]]]; auto.
    + reflexivity.
    + cbn; auto.
Qed.

(** ** The steps *)

Lemma set_con_inv : forall s c n n' es,
  inv s -> nth_error (s_cons s) c = Some n ->
  (forall e, In e es ->
     (exists t x b, e = EServed c t x b /\
        (b = false -> In (ECanceled t) (s_log s)) /\
        In (EOpened c t x) (s_log s)) \/
     (exists x, e = ENoTimeout x) \/
     (e = EFinished c /\ c_pc n' = Done)) ->
  (forall t k x, nth_error (s_tiks s) t = Some k -> In (c, x) (t_conns k) ->
     held (s_tiks s) (s_log s) n c t x k ->
     held (s_tiks s) (es ++ s_log s) n' c t x k) ->
  (over (c_pc n) -> over (c_pc n')) ->
  (c_pc n = Done -> c_pc n' = Done) ->
  (forall t x, c_pc n' = Pending t x -> c_pc n = Pending t x) ->
  inv (set_con s c n' es).
Proof.
  intros s c n n' es I HC ES HE HO HD HP.
  assert (CL : forall y, closes es y = 0).
  { intro y. clear - ES. induction es as [|e es IH]; [reflexivity|].
    unfold closes in *. cbn.
    assert (X : is_close y e = false).
    { destruct (ES e (or_introl eq_refl))
        as [(t & x & b & -> & _)|[(x & ->)|[-> _]]]; reflexivity. }
    rewrite X. apply IH. intros e' H. apply ES. right; auto. }
  constructor; cbn [set_con s_tiks s_ctxs s_cons s_log].
  - apply (iN _ I).
  - apply (iA _ I).
  - intros c' t' y. rewrite <- (iB _ I). split; intro H.
    + apply in_app_or in H. destruct H as [H|H]; [|auto].
      destruct (ES _ H) as [(t & x & b & E & _)|[(x & E)|[E _]]];
        discriminate.
    + apply in_or_app; auto.
  - intro y. rewrite closes_app, CL. apply (iC _ I).
  - intros y b H1 H2. destruct (iD _ I _ _ H1 H2) as [H|[H|H]].
    + left. apply in_or_app; auto.
    + right; left. apply in_or_app; auto.
    + right; right; auto.
  - intros t k c' x H1 H2. destruct (iE _ I _ _ _ _ H1 H2) as (m & Hm & HH).
    destruct (Nat.eq_dec c' c) as [->|N].
    + exists n'. split; [eapply nth_upd_eq; eauto|].
      assert (m = n) by congruence. subst m. eauto.
    + exists m. split; [rewrite nth_upd_ne; auto|]. apply held_mono; auto.
  - intros t k c' x m b H1 H2 H3 H4 H5.
    apply nth_upd_inv in H3. destruct H3 as [(-> & -> & _)|(N & H3)].
    + destruct (iF _ I _ _ _ _ _ _ H1 H2 HC H4 H5); auto.
    + apply (iF _ I _ _ _ _ _ _ H1 H2 H3 H4 H5).
  - intros t k H1 H2. apply in_or_app. right. apply (iG _ I _ _ H1 H2).
  - intros c' m t x H1 H2.
    apply nth_upd_inv in H1. destruct H1 as [(-> & -> & _)|(N & H1)].
    + apply (iH _ I _ _ _ _ HC). auto.
    + apply (iH _ I _ _ _ _ H1 H2).
  - intros c' t' y H. apply in_or_app. right.
    apply in_app_or in H. destruct H as [H|H].
    + destruct (ES _ H) as [(t & x & b & E & F)|[(x & E)|[E _]]];
        try discriminate.
      injection E as -> -> -> <-. apply F; auto.
    + apply (iS _ I _ _ _ H).
  - intros c' t' y w H. apply in_or_app. right.
    apply in_app_or in H. destruct H as [H|H].
    + destruct (ES _ H) as [(t & x & b & E & F)|[(x & E)|[E _]]];
        try discriminate.
      injection E as -> -> -> <-. apply F.
    + apply (iT _ I _ _ _ _ H).
  - intros c' H. apply in_app_or in H. destruct H as [H|H].
    + destruct (ES _ H) as [(t & x & b & E & F)|[(x & E)|[E D]]];
        try discriminate.
      injection E as ->. exists n'. split; [eapply nth_upd_eq; eauto|auto].
    + destruct (iL _ I _ H) as (m & Hm & D).
      destruct (Nat.eq_dec c' c) as [->|N].
      * exists n'. split; [eapply nth_upd_eq; eauto|].
        assert (m = n) by congruence. subst m. auto.
      * exists m. split; [rewrite nth_upd_ne; auto|auto].
Qed.

(** A ticket with the same uuid and dict, canceled or not. *)
Lemma cancel_inv : forall s t k,
  inv s -> nth_error (s_tiks s) t = Some k ->
  inv (set_tik s t (Tik (t_uuid k) (t_timeout k) true (t_conns k))
               [ECanceled t]).
Proof.
  intros s t k I HT.
  assert (TT : forall i a, nth_error (s_tiks s) i = Some a ->
     exists a', nth_error (upd (s_tiks s) t
         (Tik (t_uuid k) (t_timeout k) true (t_conns k))) i = Some a' /\
       t_uuid a' = t_uuid a).
  { intros i a H. destruct (Nat.eq_dec i t) as [->|N].
    - assert (a = k) by congruence. subst a.
      eexists. split; [eapply nth_upd_eq; eauto|reflexivity].
    - exists a. split; [rewrite nth_upd_ne; auto|auto]. }
  assert (BACK : forall i a, nth_error (upd (s_tiks s) t
         (Tik (t_uuid k) (t_timeout k) true (t_conns k))) i = Some a ->
     exists a0, nth_error (s_tiks s) i = Some a0 /\
       t_uuid a = t_uuid a0 /\ t_conns a = t_conns a0 /\
       (t_canceled a = true -> i = t \/ t_canceled a0 = true) /\
       (t_canceled a0 = true -> t_canceled a = true)).
  { intros i a H. apply nth_upd_inv in H.
    destruct H as [(-> & -> & b & H)|(N & H)].
    - exists k. repeat split; auto.
    - exists a. repeat split; auto. }
  constructor; cbn [set_tik s_tiks s_ctxs s_cons s_log].
  - intros i a H. destruct (BACK _ _ H) as (a0 & H0 & _ & -> & _).
    apply (iN _ I _ _ H0).
  - intros i a c x H1 H2. destruct (BACK _ _ H1) as (a0 & H0 & _ & E & _).
    rewrite E in H2. apply (iA _ I _ _ _ _ H0 H2).
  - intros c' t' y. rewrite <- (iB _ I). cbn. split; [|auto].
    intros [H|H]; [discriminate|auto].
  - intro y. apply (iC _ I).
  - intros y b H1 H2. destruct (iD _ I _ _ H1 H2) as [H|[H|(q & Q1 & Q2)]].
    + left. right; auto.
    + right; left. right; auto.
    + right; right. destruct (Nat.eq_dec (x_tik b) t) as [E|N].
      * rewrite E in *. assert (q = k) by congruence. subst q.
        eexists. split; [eapply nth_upd_eq; eauto|auto].
      * exists q. split; [rewrite nth_upd_ne; auto|auto].
  - intros i a c x H1 H2. destruct (BACK _ _ H1) as (a0 & H0 & U & E & _).
    rewrite E in H2. destruct (iE _ I _ _ _ _ H0 H2) as (n & Hn & HH).
    exists n. split; [auto|].
    apply (held_mono _ _ [ECanceled t]).
    eapply held_tiks; [exact TT|exact U|exact HH].
  - intros i a c x n b H1 H2 H3 H4 H5.
    destruct (BACK _ _ H1) as (a0 & H0 & _ & E & _ & CA).
    rewrite E in H2. destruct (iF _ I _ _ _ _ _ _ H0 H2 H3 H4 H5); auto.
  - intros i a H1 H2. destruct (BACK _ _ H1) as (a0 & H0 & _ & _ & CA & _).
    destruct (CA H2) as [->|C]; [left; auto|].
    right. apply (iG _ I _ _ H0 C).
  - intros c n t' x H1 H2. destruct (iH _ I _ _ _ _ H1 H2) as (q & Q1 & Q2).
    destruct (Nat.eq_dec t' t) as [->|N].
    + assert (q = k) by congruence. subst q.
      eexists. split; [eapply nth_upd_eq; eauto|auto].
    + exists q. split; [rewrite nth_upd_ne; auto|auto].
  - intros c t' y [H|H]; [discriminate|]. right. apply (iS _ I _ _ _ H).
  - intros c t' y w [H|H]; [discriminate|]. right. apply (iT _ I _ _ _ _ H).
  - intros c [H|H]; [discriminate|]. apply (iL _ I _ H).
Qed.

(** Put a new context in the ticket. *)
Lemma attach_inv : forall s c t n k,
  inv s -> nth_error (s_cons s) c = Some n -> c_pc n = Idle ->
  nth_error (s_tiks s) t = Some k -> dget (t_conns k) c = None ->
  t_canceled k = false ->
  let x := List.length (s_ctxs s) in
  inv (St (upd (s_tiks s) t
             (Tik (t_uuid k) (t_timeout k) false (dset (t_conns k) c x)))
          (s_ctxs s ++ [Bctx c t true true])
          (upd (s_cons s) c (Rcon (Pending t x) (c_reg n)))
          (EOpened c t x :: s_log s)).
Proof.
  intros s c t n k I HC HP HT HG HK x.
  set (k' := Tik (t_uuid k) (t_timeout k) false (dset (t_conns k) c x)).
  assert (TT : forall i a, nth_error (s_tiks s) i = Some a ->
     exists a', nth_error (upd (s_tiks s) t k') i = Some a' /\
       t_uuid a' = t_uuid a).
  { intros i a H. destruct (Nat.eq_dec i t) as [->|N].
    - assert (a = k) by congruence. subst a.
      eexists. split; [eapply nth_upd_eq; eauto|reflexivity].
    - exists a. split; [rewrite nth_upd_ne; auto|auto]. }
  assert (BACK : forall i a c' y, nth_error (upd (s_tiks s) t k') i = Some a ->
     In (c', y) (t_conns a) ->
     (i = t /\ c' = c /\ y = x /\ a = k') \/
     exists a0, nth_error (s_tiks s) i = Some a0 /\ In (c', y) (t_conns a0) /\
       t_uuid a = t_uuid a0 /\ t_canceled a = t_canceled a0).
  { intros i a c' y H J. apply nth_upd_inv in H.
    destruct H as [(-> & -> & b & H)|(N & H)].
    - cbn in J. apply dset_in in J. destruct J as [[-> ->]|J]; [auto|].
      right. exists k. repeat split; auto.
    - right. exists a. repeat split; auto. }
  constructor; cbn [s_tiks s_ctxs s_cons s_log].
  - intros i a H. apply nth_upd_inv in H.
    destruct H as [(-> & -> & b & H)|(N & H)].
    + cbn. apply dset_nodup. apply (iN _ I _ _ HT).
    + apply (iN _ I _ _ H).
  - intros i a c' y H J. destruct (BACK _ _ _ _ H J)
      as [(-> & -> & -> & ->)|(a0 & H0 & J0 & _)].
    + exists (Bctx c t true true). split; [apply nth_snoc_new|auto].
    + destruct (iA _ I _ _ _ _ H0 J0) as (b & Hb & B).
      exists b. split; [|auto]. apply nth_snoc_old; auto.
  - intros c' t' y. split.
    + intros [H|H].
      * injection H as <- <- <-. exists (Bctx c t true true).
        split; [apply nth_snoc_new|auto].
      * apply (iB _ I) in H. destruct H as (b & Hb & B).
        exists b. split; [|auto]. apply nth_snoc_old; auto.
    + intros (b & Hb & B1 & B2).
      apply nth_snoc_inv in Hb. destruct Hb as [[-> ->]|Hb].
      * cbn in *. subst. left; auto.
      * right. apply (iB _ I). eauto.
  - intro y.
    change (closes (EOpened c t x :: s_log s) y) with (closes (s_log s) y).
    rewrite (iC _ I y).
    destruct (nth_error (s_ctxs s) y) as [b|] eqn:E.
    + rewrite (nth_snoc_old _ _ _ _ _ E). reflexivity.
    + destruct (nth_error (s_ctxs s ++ [Bctx c t true true]) y)
        as [b|] eqn:F; [|reflexivity].
      apply nth_snoc_inv in F. destruct F as [[_ ->]|F]; [reflexivity|].
      congruence.
  - intros y b H1 H2. apply nth_snoc_inv in H1. destruct H1 as [[-> ->]|H1].
    + right; right. exists k'. cbn. split; [eapply nth_upd_eq; eauto|].
      apply dset_new.
    + destruct (iD _ I _ _ H1 H2) as [H|[H|(q & Q1 & Q2)]].
      * left. right; auto.
      * right; left. right; auto.
      * right; right. destruct (Nat.eq_dec (x_tik b) t) as [E|N].
        -- rewrite E in *. assert (q = k) by congruence. subst q.
           exists k'. split; [eapply nth_upd_eq; eauto|]. cbn.
           destruct (dset_old _ c x _ _ Q2) as [D|D]; [auto|].
           rewrite D in Q2. destruct (dget_none _ _ y HG Q2).
        -- exists q. split; [rewrite nth_upd_ne; auto|auto].
  - intros i a c' y H J. destruct (BACK _ _ _ _ H J)
      as [(-> & -> & -> & ->)|(a0 & H0 & J0 & U & _)].
    + eexists. split; [eapply nth_upd_eq; eauto|]. left. reflexivity.
    + destruct (iE _ I _ _ _ _ H0 J0) as (m & Hm & HH).
      apply (held_tiks _ _ _ _ _ _ _ _ a TT U) in HH.
      apply (held_mono _ _ [EOpened c t x]) in HH.
      destruct (Nat.eq_dec c' c) as [->|N].
      * assert (m = n) by congruence. subst m.
        eexists. split; [eapply nth_upd_eq; eauto|].
        unfold held in *. destruct HH as [HH|[HH|[HH|[HH|HH]]]].
        -- congruence.
        -- auto.
        -- auto.
        -- do 3 right; left. unfold registered in *. rewrite HP in HH. auto.
        -- auto.
      * exists m. split; [rewrite nth_upd_ne; auto|auto].
  - intros i a c' y m b H J H3 H4 H5. destruct (BACK _ _ _ _ H J)
      as [(-> & -> & -> & ->)|(a0 & H0 & J0 & U & CA)].
    + apply nth_snoc_inv in H4. destruct H4 as [[_ ->]|H4]; [discriminate|].
      apply nth_lt in H4. unfold x in H4. lia.
    + rewrite CA.
      destruct (iA _ I _ _ _ _ H0 J0) as (b0 & Hb & _).
      assert (b = b0).
      { rewrite (nth_snoc_old _ _ _ _ _ Hb) in H4. congruence. }
      subst b0.
      destruct (Nat.eq_dec c' c) as [->|N].
      * destruct (iF _ I _ _ _ _ _ _ H0 J0 HC Hb H5) as [F|F]; [auto|].
        rewrite HP in F. destruct F.
      * rewrite nth_upd_ne in H3 by auto.
        apply (iF _ I _ _ _ _ _ _ H0 J0 H3 Hb H5).
  - intros i a H1 H2. right. apply nth_upd_inv in H1.
    destruct H1 as [(-> & -> & b & H)|(N & H)]; [discriminate|].
    apply (iG _ I _ _ H H2).
  - intros c' m t' y H1 H2.
    apply nth_upd_inv in H1. destruct H1 as [(-> & -> & _)|(N & H1)].
    + cbn in H2. injection H2 as <- <-.
      exists k'. split; [eapply nth_upd_eq; eauto|]. apply dset_new.
    + destruct (iH _ I _ _ _ _ H1 H2) as (q & Q1 & Q2).
      destruct (Nat.eq_dec t' t) as [->|M].
      * assert (q = k) by congruence. subst q.
        exists k'. split; [eapply nth_upd_eq; eauto|]. cbn.
        destruct (dset_old _ c x _ _ Q2) as [D|D]; [auto|congruence].
      * exists q. split; [rewrite nth_upd_ne; auto|auto].
  - intros c' t' y [H|H]; [discriminate|]. right. apply (iS _ I _ _ _ H).
  - intros c' t' y w [H|H]; [discriminate|]. right. apply (iT _ I _ _ _ _ H).
  - intros c' [H|H]; [discriminate|].
    destruct (iL _ I _ H) as (m & Hm & D).
    destruct (Nat.eq_dec c' c) as [->|N].
    + assert (m = n) by congruence. subst m. congruence.
    + exists m. split; [rewrite nth_upd_ne; auto|auto].
Qed.

(** Take a closed context out of the ticket. *)
Lemma detach_inv : forall s c t k x,
  inv s -> nth_error (s_tiks s) t = Some k ->
  dget (t_conns k) c = Some x ->
  (forall b, nth_error (s_ctxs s) x = Some b -> x_backend b = false) ->
  (forall n u y, nth_error (s_cons s) c = Some n -> c_pc n <> Pending u y) ->
  inv (set_tik s t (Tik (t_uuid k) (t_timeout k) (t_canceled k)
                        (ddel (t_conns k) c)) []).
Proof.
  intros s c t k x I HT HG HX HN.
  set (k' := Tik (t_uuid k) (t_timeout k) (t_canceled k)
                 (ddel (t_conns k) c)).
  assert (TT : forall i a, nth_error (s_tiks s) i = Some a ->
     exists a', nth_error (upd (s_tiks s) t k') i = Some a' /\
       t_uuid a' = t_uuid a).
  { intros i a H. destruct (Nat.eq_dec i t) as [->|N].
    - assert (a = k) by congruence. subst a.
      eexists. split; [eapply nth_upd_eq; eauto|reflexivity].
    - exists a. split; [rewrite nth_upd_ne; auto|auto]. }
  assert (BACK : forall i a, nth_error (upd (s_tiks s) t k') i = Some a ->
     exists a0, nth_error (s_tiks s) i = Some a0 /\
       (forall c' y, In (c', y) (t_conns a) -> In (c', y) (t_conns a0)) /\
       t_uuid a = t_uuid a0 /\ t_canceled a = t_canceled a0).
  { intros i a H. apply nth_upd_inv in H.
    destruct H as [(-> & -> & b & H)|(N & H)].
    - exists k. repeat split; auto. intros c' y. apply ddel_in.
    - exists a. repeat split; auto. }
  assert (KEEP : forall i q c' y, nth_error (s_tiks s) i = Some q ->
     In (c', y) (t_conns q) -> (i <> t \/ c' <> c) ->
     exists q', nth_error (upd (s_tiks s) t k') i = Some q' /\
       In (c', y) (t_conns q')).
  { intros i q c' y H J D. destruct (Nat.eq_dec i t) as [->|N].
    - assert (q = k) by congruence. subst q.
      exists k'. split; [eapply nth_upd_eq; eauto|]. cbn.
      apply ddel_keep; [auto|]. destruct D; congruence.
    - exists q. split; [rewrite nth_upd_ne; auto|auto]. }
  constructor; cbn [set_tik s_tiks s_ctxs s_cons s_log app].
  - intros i a H. apply nth_upd_inv in H.
    destruct H as [(-> & -> & b & H)|(N & H)].
    + cbn. apply ddel_nodup. apply (iN _ I _ _ HT).
    + apply (iN _ I _ _ H).
  - intros i a c' y H J. destruct (BACK _ _ H) as (a0 & H0 & S & _).
    apply (iA _ I _ _ _ _ H0 (S _ _ J)).
  - apply (iB _ I).
  - apply (iC _ I).
  - intros y b H1 H2. destruct (iD _ I _ _ H1 H2) as [H|[H|(q & Q1 & Q2)]].
    + auto.
    + auto.
    + right; right. apply (KEEP _ _ _ _ Q1 Q2).
      destruct (Nat.eq_dec (x_tik b) t) as [E|N]; [|auto].
      right. intro E2. rewrite E, E2 in *.
      assert (q = k) by congruence. subst q.
      apply (in_dget _ _ _ (iN _ I _ _ HT)) in Q2.
      assert (y = x) by congruence. subst y.
      rewrite (HX _ H1) in H2. discriminate.
  - intros i a c' y H J. destruct (BACK _ _ H) as (a0 & H0 & S & U & _).
    destruct (iE _ I _ _ _ _ H0 (S _ _ J)) as (m & Hm & HH).
    exists m. split; [auto|]. eapply held_tiks; eauto.
  - intros i a c' y m b H J H3 H4 H5.
    destruct (BACK _ _ H) as (a0 & H0 & S & U & CA). rewrite CA.
    apply (iF _ I _ _ _ _ _ _ H0 (S _ _ J) H3 H4 H5).
  - intros i a H1 H2. destruct (BACK _ _ H1) as (a0 & H0 & _ & _ & CA).
    apply (iG _ I _ _ H0). congruence.
  - intros c' m t' y H1 H2. destruct (iH _ I _ _ _ _ H1 H2) as (q & Q1 & Q2).
    apply (KEEP _ _ _ _ Q1 Q2).
    right. intros ->. apply (HN _ _ _ H1 H2).
  - apply (iS _ I).
  - apply (iT _ I).
  - apply (iL _ I).
Qed.

Lemma remove_same : forall s t c o,
  s_cons (remove_context s t c o) = s_cons s.
Proof.
  intros s t c o. unfold remove_context.
  destruct (nth_error (s_tiks s) t) as [k|]; [|auto].
  destruct (dget (t_conns k) c) as [x|]; [|auto].
  pose proof (close_same s x o) as [A B].
  destruct (close_ctx s x o) as [s1 r]. cbn in A, B.
  destruct r; auto.
Qed.

Lemma remove_inv : forall s t c o n,
  inv s -> nth_error (s_cons s) c = Some n -> over (c_pc n) ->
  inv (remove_context s t c o).
Proof.
  intros s t c o n I HC HO. unfold remove_context.
  destruct (nth_error (s_tiks s) t) as [k|] eqn:HT; [|auto].
  destruct (dget (t_conns k) c) as [x|] eqn:HG; [|auto].
  assert (IN : In (c, x) (t_conns k)) by (apply dget_in; auto).
  assert (I1 : inv (fst (close_ctx s x o))).
  { apply close_inv; auto. intros t' k' c' m H1 H2 H3. right.
    destruct (iA _ I _ _ _ _ HT IN) as (b & Hb & B1 & _).
    destruct (iA _ I _ _ _ _ H1 H2) as (b' & Hb' & B1' & _).
    assert (c' = c) by congruence. subst c'. congruence. }
  pose proof (close_same s x o) as [A B].
  destruct (close_log s x o) as (es & _ & _ & _ & RO).
  destruct (close_ctx s x o) as [s1 r]. cbn in *.
  destruct r; [auto|].
  apply (detach_inv s1 c t k x); auto.
  - rewrite A; auto.
  - rewrite B. intros m u y H E. assert (m = n) by congruence. subst m.
    rewrite E in HO. destruct HO.
Qed.

(** After the closer of ticket [t]: what is still attached for this
    connection had an error. *)
Lemma removed : forall s t c o n,
  inv s -> nth_error (s_cons s) c = Some n -> over (c_pc n) ->
  forall k x, nth_error (s_tiks (remove_context s t c o)) t = Some k ->
  In (c, x) (t_conns k) ->
  In (ECloseError x) (s_log (remove_context s t c o)).
Proof.
  intros s t c o n I HC HO k x. unfold remove_context.
  destruct (nth_error (s_tiks s) t) as [k0|] eqn:HT.
  - destruct (dget (t_conns k0) c) as [y|] eqn:HG.
    + pose proof (close_same s y o) as [A B].
      destruct (close_log s y o) as (es & SL & _ & RE & _).
      destruct (close_ctx s y o) as [s1 r]. cbn in *.
      destruct r; cbn [set_tik s_tiks s_log].
      * rewrite A. intros H J. assert (k = k0) by congruence. subst k.
        apply (in_dget _ _ _ (iN _ I _ _ HT)) in J.
        assert (y = x) by congruence. subst y.
        rewrite SL. apply in_or_app. left; auto.
      * rewrite A. intros H J. rewrite (nth_upd_eq _ _ _ _ _ HT) in H.
        injection H as <-. cbn in J.
        destruct (ddel_gone _ _ _ (iN _ I _ _ HT) J).
    + intros H J. assert (k = k0) by congruence. subst k.
      destruct (dget_none _ _ _ HG J).
  - intros H. congruence.
Qed.

Theorem step_inv : forall s a s', inv s -> step s a = Some s' -> inv s'.
Proof.
  intros s a s' I H. destruct a as [|u z|t|t os|c t o|c|c|c o]; cbn in H.
  - (* AConnect *)
    injection H as <-.
    constructor; cbn [s_tiks s_ctxs s_cons s_log].
    + apply (iN _ I).
    + apply (iA _ I).
    + apply (iB _ I).
    + apply (iC _ I).
    + apply (iD _ I).
    + intros t k c x H1 H2. destruct (iE _ I _ _ _ _ H1 H2) as (n & Hn & HH).
      exists n. split; [apply nth_snoc_old|]; auto.
    + intros t k c x n b H1 H2 H3 H4 H5.
      destruct (iE _ I _ _ _ _ H1 H2) as (m & Hm & _).
      assert (n = m).
      { rewrite (nth_snoc_old _ _ _ _ _ Hm) in H3. congruence. }
      subst n. apply (iF _ I _ _ _ _ _ _ H1 H2 Hm H4 H5).
    + apply (iG _ I).
    + intros c n t x H1 H2. apply nth_snoc_inv in H1.
      destruct H1 as [[_ ->]|H1]; [discriminate|].
      apply (iH _ I _ _ _ _ H1 H2).
    + apply (iS _ I).
    + apply (iT _ I).
    + intros c H. destruct (iL _ I _ H) as (n & Hn & D).
      exists n. split; [apply nth_snoc_old|]; auto.
  - (* AAdd *)
    injection H as <-.
    assert (TT : forall i a, nth_error (s_tiks s) i = Some a ->
       exists a', nth_error (s_tiks s ++ [Tik u z false []]) i = Some a' /\
         t_uuid a' = t_uuid a).
    { intros i a H. exists a. split; [apply nth_snoc_old|]; auto. }
    constructor; cbn [s_tiks s_ctxs s_cons s_log].
    + intros i a H. apply nth_snoc_inv in H. destruct H as [[_ ->]|H].
      * constructor.
      * apply (iN _ I _ _ H).
    + intros i a c x H J. apply nth_snoc_inv in H.
      destruct H as [[_ ->]|H]; [destruct J|].
      apply (iA _ I _ _ _ _ H J).
    + apply (iB _ I).
    + apply (iC _ I).
    + intros y b H1 H2. destruct (iD _ I _ _ H1 H2) as [H|[H|(q & Q1 & Q2)]];
        auto.
      right; right. exists q. split; [apply nth_snoc_old|]; auto.
    + intros i a c x H J. apply nth_snoc_inv in H.
      destruct H as [[_ ->]|H]; [destruct J|].
      destruct (iE _ I _ _ _ _ H J) as (n & Hn & HH).
      exists n. split; [auto|]. eapply held_tiks; eauto.
    + intros i a c x n b H J H3 H4 H5. apply nth_snoc_inv in H.
      destruct H as [[_ ->]|H]; [destruct J|].
      apply (iF _ I _ _ _ _ _ _ H J H3 H4 H5).
    + intros i a H J. apply nth_snoc_inv in H.
      destruct H as [[_ ->]|H]; [discriminate|].
      apply (iG _ I _ _ H J).
    + intros c n t x H1 H2. destruct (iH _ I _ _ _ _ H1 H2) as (q & Q1 & Q2).
      exists q. split; [apply nth_snoc_old|]; auto.
    + apply (iS _ I).
    + apply (iT _ I).
    + apply (iL _ I).
  - (* ACancel *)
    destruct (nth_error (s_tiks s) t) as [k|] eqn:HT; [|discriminate].
    injection H as <-. apply cancel_inv; auto.
  - (* ACancelClose *)
    destruct (nth_error (s_tiks s) t) as [k|] eqn:HT; [|discriminate].
    destruct (t_canceled k) eqn:K; [|discriminate].
    injection H as <-. eapply close_all_inv; eauto.
  - (* AGet *)
    destruct (nth_error (s_cons s) c) as [n|] eqn:HC; [|discriminate].
    destruct (nth_error (s_tiks s) t) as [k|] eqn:HT; [|discriminate].
    destruct (c_pc n) eqn:HP; try discriminate.
    destruct (dget (t_conns k) c) as [x|] eqn:HG.
    + destruct (nth_error (s_ctxs s) x) as [b|] eqn:HX; [|discriminate].
      injection H as <-. eapply set_con_inv; eauto.
      * intros e [<-|[]]. left. exists t, x, (x_backend b).
        apply dget_in in HG.
        split; [auto|]. split.
        2: { apply (iB _ I). apply (iA _ I _ _ _ _ HT HG). }
        intro B.
        destruct (iF _ I _ _ _ _ _ _ HT HG HC HX B) as [F|F].
        -- apply (iG _ I _ _ HT F).
        -- rewrite HP in F. destruct F.
      * intros. apply (held_mono _ _ [EServed c t x (x_backend b)]). auto.
    + destruct o as [| |d].
      * injection H as <-. auto.
      * injection H as <-. apply add_ctx_inv; auto.
        -- cbn; auto.
        -- intros e [<-|[<-|[]]]; auto.
        -- cbn; auto.
      * destruct (t_canceled k) eqn:K.
        -- injection H as <-.
           destruct (close_new s c t d) as (bk & es & E & E1 & E2 & E3 & E4).
           rewrite E. apply add_ctx_inv; auto.
        -- injection H as <-.
           apply (attach_inv s c t n k I HC HP HT HG K).
  - (* ARegister *)
    destruct (nth_error (s_cons s) c) as [n|] eqn:HC; [|discriminate].
    destruct (c_pc n) as [|t x|ts|] eqn:HP; try discriminate.
    destruct (nth_error (s_tiks s) t) as [k|] eqn:HT; [|discriminate].
    destruct (nth_error (s_ctxs s) x) as [b|] eqn:HX; [|discriminate].
    assert (IN : In (c, x) (t_conns k)).
    { destruct (iH _ I _ _ _ _ HC HP) as (q & Q1 & Q2).
      assert (q = k) by congruence. subst q. auto. }
    destruct (timeout_ok (t_timeout k)) eqn:TO; injection H as <-.
    + eapply set_con_inv; eauto.
      * intros e [<-|[]]. left. exists t, x, (x_backend b).
        split; [auto|]. split.
        2: { apply (iB _ I). apply (iA _ I _ _ _ _ HT IN). }
        intro B.
        destruct (iF _ I _ _ _ _ _ _ HT IN HC HX B) as [F|F].
        -- apply (iG _ I _ _ HT F).
        -- rewrite HP in F. destruct F.
      * intros t' k' x' H1 H2 [HH|[HH|[HH|[HH|HH]]]].
        -- rewrite HP in HH. injection HH as <- <-.
           assert (k' = k) by congruence. subst k'.
           do 3 right; left. cbn. apply dset_new.
        -- right; left. right; auto.
        -- right; right; left. right; auto.
        -- unfold registered in HH. rewrite HP in HH.
           destruct (dset_old _ (t_uuid k) t _ _ HH) as [D|D].
           ++ do 3 right; left. cbn. auto.
           ++ destruct (Nat.eq_dec t' t) as [->|N].
              ** assert (k' = k) by congruence. subst k'.
                 do 3 right; left. cbn. apply dset_new.
              ** do 4 right. exists t, x, (x_backend b), k.
                 split; [auto|]. split; [left; auto|]. split; auto.
        -- do 4 right. destruct HH as (t2 & x2 & b2 & k2 & A & B & C & D).
           exists t2, x2, b2, k2. split; [auto|]. split; [right; auto|auto].
      * rewrite HP. cbn. auto.
      * rewrite HP. discriminate.
      * cbn. discriminate.
    + eapply set_con_inv; eauto.
      * intros e [<-|[]]. right; left. eauto.
      * intros t' k' x' H1 H2 [HH|[HH|[HH|[HH|HH]]]].
        -- rewrite HP in HH. injection HH as <- <-.
           right; left. left; auto.
        -- right; left. right; auto.
        -- right; right; left. right; auto.
        -- unfold registered in HH. rewrite HP in HH.
           do 3 right; left. cbn. auto.
        -- do 4 right. destruct HH as (t2 & x2 & b2 & k2 & A & B & C & D).
           exists t2, x2, b2, k2. split; [auto|]. split; [right; auto|auto].
      * rewrite HP. cbn. auto.
      * rewrite HP. discriminate.
      * cbn. discriminate.
  - (* AFinish *)
    destruct (nth_error (s_cons s) c) as [n|] eqn:HC; [|discriminate].
    destruct (c_pc n) eqn:HP; try discriminate. injection H as <-.
    eapply set_con_inv; eauto.
    + intros e [].
    + intros t' k' x' H1 H2 [HH|[HH|[HH|[HH|HH]]]].
      * congruence.
      * right; left; auto.
      * right; right; left; auto.
      * unfold registered in HH. rewrite HP in HH.
        do 3 right; left. cbn. apply in_map_iff.
        exists (t_uuid k', t'). auto.
      * do 4 right; auto.
    + rewrite HP. cbn. auto.
    + rewrite HP. discriminate.
    + cbn. discriminate.
  - (* ACloser *)
    destruct (nth_error (s_cons s) c) as [n|] eqn:HC; [|discriminate].
    destruct (c_pc n) as [|t x|[|t ts]|] eqn:HP; try discriminate;
      injection H as <-.
    + eapply set_con_inv; eauto.
      * intros e [<-|[]]. right; right. auto.
      * intros t' k' x' H1 H2 [HH|[HH|[HH|[HH|HH]]]].
        -- congruence.
        -- right; left; right; auto.
        -- right; right; left; right; auto.
        -- unfold registered in HH. rewrite HP in HH. destruct HH.
        -- do 4 right. destruct HH as (t2 & x2 & b2 & k2 & A & B & C & D).
           exists t2, x2, b2, k2. split; [auto|]. split; [right; auto|auto].
      * cbn; auto.
      * cbn. discriminate.
    + assert (HO : over (c_pc n)) by (rewrite HP; cbn; auto).
      eapply set_con_inv.
      * eapply remove_inv; eauto.
      * rewrite remove_same. eauto.
      * intros e [].
      * intros t' k' x' H1 H2 [HH|[HH|[HH|[HH|HH]]]].
        -- congruence.
        -- right; left; auto.
        -- right; right; left; auto.
        -- unfold registered in HH. rewrite HP in HH.
           destruct HH as [<-|HH].
           ++ right; right; left. eapply removed; eauto.
           ++ do 3 right; left. cbn. auto.
        -- do 4 right; auto.
      * cbn; auto.
      * rewrite HP. discriminate.
      * cbn. discriminate.
Qed.

Theorem run_inv : forall l s s', inv s -> run s l = Some s' -> inv s'.
Proof.
  induction l as [|a l IH]; intros s s' I H; cbn in H.
  - injection H as <-. auto.
  - destruct (step s a) as [s1|] eqn:E; [|discriminate].
    eapply IH; [|eauto]. eapply step_inv; eauto.
Qed.

(** ** What the log says about the actions *)

Lemma close_uuid : forall s x o,
  s_tiks (fst (close_ctx s x o)) = s_tiks s.
Proof. intros. apply close_same. Qed.

Lemma upd_map : forall A B (f : A -> B) l n v a,
  nth_error l n = Some a -> f v = f a -> map f (upd l n v) = map f l.
Proof.
  induction l as [|b l IH]; intros [|n] v a H E; cbn in *; try discriminate.
  - injection H as ->. rewrite E. reflexivity.
  - f_equal. eapply IH; eauto.
Qed.

(** Ticket [t] keeps the uuid and timeout it was added with. *)
Lemma step_tiks : forall B (f : tik -> B) s a s',
  (forall u z w d w' d', f (Tik u z w d) = f (Tik u z w' d')) ->
  step s a = Some s' ->
  map f (s_tiks s') = map f (s_tiks s) ++
    match a with AAdd u z => [f (Tik u z false [])] | _ => [] end.
Proof.
  intros B f s a s' F H.
  assert (FT : forall k w d, f (Tik (t_uuid k) (t_timeout k) w d) = f k).
  { intros [u z w0 d0] w d. cbn. apply F. }
  destruct a as [|u z|t|t os|c t o|c|c|c o]; cbn in H; rewrite ?app_nil_r.
  - injection H as <-. reflexivity.
  - injection H as <-. cbn. rewrite map_app. reflexivity.
  - destruct (nth_error (s_tiks s) t) as [k|] eqn:HT; [|discriminate].
    injection H as <-. cbn. eapply upd_map; eauto.
  - destruct (nth_error (s_tiks s) t) as [k|] eqn:HT; [|discriminate].
    destruct (t_canceled k); [|discriminate].
    injection H as <-. rewrite (proj1 (close_all_same _ _ _)). reflexivity.
  - destruct (nth_error (s_cons s) c) as [n|]; [|discriminate].
    destruct (nth_error (s_tiks s) t) as [k|] eqn:HT; [|discriminate].
    destruct (c_pc n); try discriminate.
    destruct (dget (t_conns k) c) as [x|].
    + destruct (nth_error (s_ctxs s) x); [|discriminate].
      injection H as <-. reflexivity.
    + destruct o as [| |d]; try (injection H as <-; reflexivity).
      destruct (t_canceled k); injection H as <-.
      * rewrite close_uuid. reflexivity.
      * cbn. eapply upd_map; eauto.
  - destruct (nth_error (s_cons s) c) as [n|]; [|discriminate].
    destruct (c_pc n) as [|t x|ts|]; try discriminate.
    destruct (nth_error (s_tiks s) t) as [k|]; [|discriminate].
    destruct (nth_error (s_ctxs s) x); [|discriminate].
    destruct (timeout_ok (t_timeout k)); injection H as <-; reflexivity.
  - destruct (nth_error (s_cons s) c) as [n|]; [|discriminate].
    destruct (c_pc n); try discriminate. injection H as <-. reflexivity.
  - destruct (nth_error (s_cons s) c) as [n|]; [|discriminate].
    destruct (c_pc n) as [|t x|[|t ts]|]; try discriminate;
      injection H as <-; [reflexivity|].
    cbn. unfold remove_context.
    destruct (nth_error (s_tiks s) t) as [k|] eqn:HT; [|reflexivity].
    destruct (dget (t_conns k) c) as [x|]; [|reflexivity].
    pose proof (close_uuid s x o) as A.
    destruct (close_ctx s x o) as [s1 r]. cbn in A.
    destruct r; cbn; rewrite A; [reflexivity|]. eapply upd_map; eauto.
Qed.

Lemma run_uuids : forall l s s', run s l = Some s' ->
  map t_uuid (s_tiks s') = map t_uuid (s_tiks s) ++ uuids l.
Proof.
  induction l as [|a l IH]; intros s s' H; cbn in H.
  - injection H as <-. cbn. rewrite app_nil_r. reflexivity.
  - destruct (step s a) as [s1|] eqn:E; [|discriminate].
    rewrite (IH _ _ H).
    rewrite (step_tiks _ t_uuid _ _ _ (fun _ _ _ _ _ _ => eq_refl) E).
    rewrite <- app_assoc. f_equal.
Qed.

Lemma run_timeouts : forall l s s', run s l = Some s' ->
  map t_timeout (s_tiks s') = map t_timeout (s_tiks s) ++ timeouts l.
Proof.
  induction l as [|a l IH]; intros s s' H; cbn in H.
  - injection H as <-. cbn. rewrite app_nil_r. reflexivity.
  - destruct (step s a) as [s1|] eqn:E; [|discriminate].
    rewrite (IH _ _ H).
    rewrite (step_tiks _ t_timeout _ _ _ (fun _ _ _ _ _ _ => eq_refl) E).
    rewrite <- app_assoc. f_equal.
Qed.

Definition bad (e : ev) : bool :=
  match e with ENoBuffer _ | ECloseError _ => true | _ => false end.

Lemma close_ok_log : forall s x e,
  In e (s_log (fst (close_ctx s x Cok))) ->
  bad e = false \/ In e (s_log s).
Proof.
  intros s x e. unfold close_ctx.
  destruct (nth_error (s_ctxs s) x) as [b|]; [|auto].
  destruct (x_backend b); cbn; [|auto]. intros [<-|H]; auto.
Qed.

Lemma close_all_ok_log : forall d s os e,
  forallb (fun o => match o with Cok => true | _ => false end) os = true ->
  In e (s_log (close_all s d os)) -> bad e = false \/ In e (s_log s).
Proof.
  induction d as [|[c x] d IH]; intros s os e F H; cbn in H; [auto|].
  assert (HD : hd Cok os = Cok).
  { destruct os as [|[] os]; cbn in *; congruence. }
  assert (TL : forallb (fun o => match o with Cok => true | _ => false end)
                 (tl os) = true).
  { destruct os as [|[] os]; cbn in *; congruence. }
  rewrite HD in H. pose proof (close_ok_log s x e) as C.
  destruct (close_ctx s x Cok) as [s1 r]. cbn in C.
  destruct r; [auto|]. destruct (IH _ _ _ TL H); auto.
Qed.

Lemma step_kind : forall s a s' e, step s a = Some s' -> kind a = true ->
  In e (s_log s') -> bad e = false \/ In e (s_log s).
Proof.
  intros s a s' e H K J.
  destruct a as [|u z|t|t os|c t o|c|c|c o]; cbn in H.
  - injection H as <-. auto.
  - injection H as <-. auto.
  - destruct (nth_error (s_tiks s) t) as [k|]; [|discriminate].
    injection H as <-. destruct J as [<-|J]; auto.
  - destruct (nth_error (s_tiks s) t) as [k|]; [|discriminate].
    destruct (t_canceled k); [|discriminate].
    injection H as <-. eapply close_all_ok_log; eauto.
  - destruct (nth_error (s_cons s) c) as [n|]; [|discriminate].
    destruct (nth_error (s_tiks s) t) as [k|]; [|discriminate].
    destruct (c_pc n); try discriminate.
    destruct (dget (t_conns k) c) as [x|].
    + destruct (nth_error (s_ctxs s) x); [|discriminate].
      injection H as <-. destruct J as [<-|J]; auto.
    + destruct o as [| |d]; [injection H as <-; auto|discriminate|].
      destruct d; try discriminate.
      destruct (t_canceled k); injection H as <-.
      * apply close_ok_log in J. destruct J as [J|[<-|J]]; auto.
      * destruct J as [<-|J]; auto.
  - destruct (nth_error (s_cons s) c) as [n|]; [|discriminate].
    destruct (c_pc n) as [|t x|ts|]; try discriminate.
    destruct (nth_error (s_tiks s) t) as [k|]; [|discriminate].
    destruct (nth_error (s_ctxs s) x); [|discriminate].
    destruct (timeout_ok (t_timeout k)); injection H as <-;
      destruct J as [<-|J]; auto.
  - destruct (nth_error (s_cons s) c) as [n|]; [|discriminate].
    destruct (c_pc n); try discriminate. injection H as <-. auto.
  - destruct (nth_error (s_cons s) c) as [n|]; [|discriminate].
    destruct (c_pc n) as [|t x|[|t ts]|]; try discriminate;
      injection H as <-.
    + destruct J as [<-|J]; auto.
    + cbn in J. unfold remove_context in J.
      destruct (nth_error (s_tiks s) t) as [k|]; [|auto].
      destruct (dget (t_conns k) c) as [x|]; [|auto].
      destruct o; try discriminate.
      pose proof (close_ok_log s x e) as C.
      destruct (close_ctx s x Cok) as [s1 r]. cbn in C.
      destruct r; auto.
Qed.

Lemma run_kind : forall l s s' e, run s l = Some s' ->
  forallb kind l = true -> In e (s_log s') -> bad e = false \/ In e (s_log s).
Proof.
  induction l as [|a l IH]; intros s s' e H K J; cbn in H.
  - injection H as <-. auto.
  - destruct (step s a) as [s1|] eqn:E; [|discriminate].
    cbn in K. apply andb_prop in K. destruct K as [K1 K2].
    destruct (IH _ _ _ H K2 J) as [D|D]; [auto|].
    eapply step_kind; eauto.
Qed.

(** The socket refused a timeout: it was the timeout of the ticket. *)
Definition tinv (s : state) : Prop :=
  (forall x, In (ENoTimeout x) (s_log s) ->
     exists c t k, In (EOpened c t x) (s_log s) /\
       nth_error (s_tiks s) t = Some k /\ timeout_ok (t_timeout k) = false).

Lemma close_mono : forall s x o e,
  In e (s_log s) -> In e (s_log (fst (close_ctx s x o))).
Proof.
  intros s x o e H. destruct (close_log s x o) as (es & -> & _).
  apply in_or_app; auto.
Qed.

Lemma close_all_mono : forall d s os e,
  In e (s_log s) -> In e (s_log (close_all s d os)).
Proof.
  induction d as [|[c x] d IH]; intros s os e H; cbn; [auto|].
  pose proof (close_mono s x (hd Cok os) e H) as M.
  destruct (close_ctx s x (hd Cok os)) as [s1 r]. cbn in M.
  destruct r; auto.
Qed.

Lemma remove_mono : forall s t c o e,
  In e (s_log s) -> In e (s_log (remove_context s t c o)).
Proof.
  intros s t c o e H. unfold remove_context.
  destruct (nth_error (s_tiks s) t) as [k|]; [|auto].
  destruct (dget (t_conns k) c) as [x|]; [|auto].
  pose proof (close_mono s x o e H) as M.
  destruct (close_ctx s x o) as [s1 r]. cbn in M. destruct r; auto.
Qed.

Lemma close_no_timeout : forall s x o y,
  In (ENoTimeout y) (s_log (fst (close_ctx s x o))) ->
  In (ENoTimeout y) (s_log s).
Proof.
  intros s x o y H. destruct (close_log s x o) as (es & E & ES & _).
  rewrite E in H. apply in_app_or in H. destruct H as [H|H]; [|auto].
  destruct (ES _ H); discriminate.
Qed.

Lemma close_all_no_timeout : forall d s os y,
  In (ENoTimeout y) (s_log (close_all s d os)) ->
  In (ENoTimeout y) (s_log s).
Proof.
  induction d as [|[c x] d IH]; intros s os y H; cbn in H; [auto|].
  pose proof (close_no_timeout s x (hd Cok os) y) as M.
  destruct (close_ctx s x (hd Cok os)) as [s1 r]. cbn in M.
  destruct r; eauto.
Qed.

Lemma step_mono : forall s a s' e, step s a = Some s' ->
  In e (s_log s) -> In e (s_log s').
Proof.
  intros s a s' e H J.
  destruct a as [|u z|t|t os|c t o|c|c|c o]; cbn in H.
  - injection H as <-. auto.
  - injection H as <-. auto.
  - destruct (nth_error (s_tiks s) t) as [k|]; [|discriminate].
    injection H as <-. right; auto.
  - destruct (nth_error (s_tiks s) t) as [k|]; [|discriminate].
    destruct (t_canceled k); [|discriminate].
    injection H as <-. apply close_all_mono; auto.
  - destruct (nth_error (s_cons s) c) as [n|]; [|discriminate].
    destruct (nth_error (s_tiks s) t) as [k|]; [|discriminate].
    destruct (c_pc n); try discriminate.
    destruct (dget (t_conns k) c) as [x|].
    + destruct (nth_error (s_ctxs s) x); [|discriminate].
      injection H as <-. right; auto.
    + destruct o as [| |d]; [injection H as <-; auto| |].
      * injection H as <-. cbn. auto.
      * destruct (t_canceled k); injection H as <-.
        -- apply close_mono. right; auto.
        -- right; auto.
  - destruct (nth_error (s_cons s) c) as [n|]; [|discriminate].
    destruct (c_pc n) as [|t x|ts|]; try discriminate.
    destruct (nth_error (s_tiks s) t) as [k|]; [|discriminate].
    destruct (nth_error (s_ctxs s) x); [|discriminate].
    destruct (timeout_ok (t_timeout k)); injection H as <-; right; auto.
  - destruct (nth_error (s_cons s) c) as [n|]; [|discriminate].
    destruct (c_pc n); try discriminate. injection H as <-. auto.
  - destruct (nth_error (s_cons s) c) as [n|]; [|discriminate].
    destruct (c_pc n) as [|t x|[|t ts]|]; try discriminate;
      injection H as <-.
    + right; auto.
    + apply remove_mono. auto.
Qed.

Lemma step_no_timeout : forall s a s' x, step s a = Some s' ->
  In (ENoTimeout x) (s_log s') -> In (ENoTimeout x) (s_log s) \/
  exists c n t k, nth_error (s_cons s) c = Some n /\
    c_pc n = Pending t x /\ nth_error (s_tiks s) t = Some k /\
    timeout_ok (t_timeout k) = false.
Proof.
  intros s a s' x H J.
  destruct a as [|u z|t|t os|c t o|c|c|c o]; cbn in H.
  - injection H as <-. auto.
  - injection H as <-. auto.
  - destruct (nth_error (s_tiks s) t) as [k|]; [|discriminate].
    injection H as <-. destruct J as [J|J]; [discriminate|auto].
  - destruct (nth_error (s_tiks s) t) as [k|]; [|discriminate].
    destruct (t_canceled k); [|discriminate].
    injection H as <-. left. eapply close_all_no_timeout; eauto.
  - destruct (nth_error (s_cons s) c) as [n|]; [|discriminate].
    destruct (nth_error (s_tiks s) t) as [k|]; [|discriminate].
    destruct (c_pc n); try discriminate.
    destruct (dget (t_conns k) c) as [y|].
    + destruct (nth_error (s_ctxs s) y); [|discriminate].
      injection H as <-. destruct J as [J|J]; [discriminate|auto].
    + destruct o as [| |d]; [injection H as <-; auto| |].
      * injection H as <-. destruct J as [J|[J|J]]; try discriminate. auto.
      * destruct (t_canceled k); injection H as <-.
        -- apply close_no_timeout in J. destruct J as [J|J]; [discriminate|].
           auto.
        -- destruct J as [J|J]; [discriminate|auto].
  - destruct (nth_error (s_cons s) c) as [n|] eqn:HC; [|discriminate].
    destruct (c_pc n) as [|t y|ts|] eqn:HP; try discriminate.
    destruct (nth_error (s_tiks s) t) as [k|] eqn:HT; [|discriminate].
    destruct (nth_error (s_ctxs s) y); [|discriminate].
    destruct (timeout_ok (t_timeout k)) eqn:TO; injection H as <-;
      destruct J as [J|J]; try discriminate; auto.
    injection J as <-. right. exists c, n, t, k. auto.
  - destruct (nth_error (s_cons s) c) as [n|]; [|discriminate].
    destruct (c_pc n); try discriminate. injection H as <-. auto.
  - destruct (nth_error (s_cons s) c) as [n|]; [|discriminate].
    destruct (c_pc n) as [|t y|[|t ts]|]; try discriminate;
      injection H as <-.
    + destruct J as [J|J]; [discriminate|auto].
    + cbn in J. unfold remove_context in J.
      destruct (nth_error (s_tiks s) t) as [k|]; [|auto].
      destruct (dget (t_conns k) c) as [y|]; [|auto].
      pose proof (close_no_timeout s y o x) as C.
      destruct (close_ctx s y o) as [s1 r]. cbn in C.
      destruct r; auto.
Qed.

Lemma nth_map_some : forall A B (f : A -> B) l n a,
  nth_error l n = Some a -> nth_error (map f l) n = Some (f a).
Proof. intros A B f l n a H. apply map_nth_error. auto. Qed.

Lemma nth_map_inv : forall A B (f : A -> B) l n b,
  nth_error (map f l) n = Some b -> exists a, nth_error l n = Some a /\ f a = b.
Proof.
  induction l as [|x l IH]; intros [|n] b H; cbn in *; try discriminate.
  - injection H as <-. eauto.
  - eauto.
Qed.

Lemma step_tinv : forall s a s', inv s -> tinv s -> step s a = Some s' ->
  tinv s'.
Proof.
  intros s a s' I T H x J.
  assert (KEEP : forall t k, nth_error (s_tiks s) t = Some k ->
    exists k', nth_error (s_tiks s') t = Some k' /\
               t_timeout k' = t_timeout k).
  { intros t k HK.
    pose proof (step_tiks _ t_timeout _ _ _ (fun _ _ _ _ _ _ => eq_refl) H)
      as E.
    apply nth_map_inv. rewrite E.
    rewrite nth_error_app1.
    - apply nth_map_some; auto.
    - rewrite map_length. eapply nth_lt; eauto. }
  destruct (step_no_timeout _ _ _ _ H J) as [J0|(c & n & t & k & A & B & C & D)].
  - destruct (T _ J0) as (c & t & k & A & B & C).
    destruct (KEEP _ _ B) as (k' & B' & C').
    exists c, t, k'. split; [eapply step_mono; eauto|]. split; [auto|].
    rewrite C'. auto.
  - destruct (KEEP _ _ C) as (k' & B' & C').
    exists c, t, k'. split; [|split; [auto|rewrite C'; auto]].
    eapply step_mono; eauto. apply (iB _ I).
    destruct (iH _ I _ _ _ _ A B) as (q & Q1 & Q2).
    apply (iA _ I _ _ _ _ Q1 Q2).
Qed.

Lemma run_tinv : forall l s s', inv s -> tinv s -> run s l = Some s' ->
  tinv s'.
Proof.
  induction l as [|a l IH]; intros s s' I T H; cbn in H.
  - injection H as <-. auto.
  - destruct (step s a) as [s1|] eqn:E; [|discriminate].
    eapply IH; [| |eauto].
    + eapply step_inv; eauto.
    + eapply step_tinv; eauto.
Qed.

(** ** Buffers *)

Definition bufinv (s : state) : Prop :=
  (forall x b, nth_error (s_ctxs s) x = Some b ->
     (x_buffer b = true <->
      x_backend b = true /\ ~ In (ECloseError x) (s_log s) /\ ~ In (ENoBuffer x) (s_log s))) /\
  (forall x, In (ECloseError x) (s_log s) \/ In (ENoBuffer x) (s_log s) -> x < List.length (s_ctxs s)).

Definition quiet_ev (e : ev) : Prop :=
  match e with ECloseError _ | ENoBuffer _ => False | _ => True end.

Lemma in_quiet es l x : Forall quiet_ev es ->
  (In (ECloseError x) (es ++ l) <-> In (ECloseError x) l) /\ (In (ENoBuffer x) (es ++ l) <-> In (ENoBuffer x) l).
Proof.
  intros F. rewrite Forall_forall in F. rewrite !in_app_iff. split; (split; [intros [H|H]; [destruct (F _ H)|auto]|auto]).
Qed.

Lemma bufinv_keep s s' es : bufinv s -> s_ctxs s' = s_ctxs s -> s_log s' = es ++ s_log s -> Forall quiet_ev es -> bufinv s'.
Proof.
  intros [A B] C L F. unfold bufinv. rewrite C, L. split.
  - intros x b H. destruct (in_quiet es (s_log s) x F) as [-> ->]. auto.
  - intros x. destruct (in_quiet es (s_log s) x F) as [-> ->]. auto.
Qed.

Lemma bufinv_close s x o : bufinv s -> bufinv (fst (close_ctx s x o)).
Proof.
  intros [A B]. unfold close_ctx. destruct (nth_error (s_ctxs s) x) as [b|] eqn:E; [|split; auto].
  pose proof (nth_lt _ _ _ _ E) as LT. pose proof (A _ _ E) as AX.
  destruct (x_backend b) eqn:XB; [destruct o|]; cbn [fst]; unfold bufinv, set_ctxs; cbn [s_ctxs s_log app]; split.
  all: [>|intros y Y; rewrite upd_length; cbn [In] in Y;
      assert (Z : y = x \/ (In (ECloseError y) (s_log s) \/ In (ENoBuffer y) (s_log s))) by (clear - Y; intuition congruence);
      destruct Z as [Z|Z]; [rewrite Z; exact LT|exact (B _ Z)]
     | |intros y Y; rewrite upd_length; cbn [In] in Y;
      assert (Z : y = x \/ (In (ECloseError y) (s_log s) \/ In (ENoBuffer y) (s_log s))) by (clear - Y; intuition congruence);
      destruct Z as [Z|Z]; [rewrite Z; exact LT|exact (B _ Z)]
     | |intros y Y; rewrite upd_length; cbn [In] in Y;
      assert (Z : y = x \/ (In (ECloseError y) (s_log s) \/ In (ENoBuffer y) (s_log s))) by (clear - Y; intuition congruence);
      destruct Z as [Z|Z]; [rewrite Z; exact LT|exact (B _ Z)]
     | |intros y Y; rewrite upd_length; exact (B _ Y)].
  all: intros y b' H; apply nth_upd_inv in H; destruct H as [(-> & -> & _)|(N & H)]; cbn [x_buffer x_backend In];
    [|specialize (A _ _ H); rewrite A].
  - split; [discriminate|]. intros (X & _). discriminate.
  - split; intros (P & Q & R); (split; [auto|]); (split; intros I); try (destruct I as [I|I]; [discriminate|]); auto.
  - split; [discriminate|]. intros (X & _). discriminate.
  - split; intros (P & Q & R); (split; [auto|]); (split; intros I);
      try (repeat (destruct I as [I|I]; [try discriminate; try (injection I as I; congruence)|])); auto.
  - split; [discriminate|]. intros (_ & X & _). destruct X. auto.
  - split; intros (P & Q & R); (split; [auto|]); (split; intros I);
      try (repeat (destruct I as [I|I]; [try discriminate; try (injection I as I; congruence)|])); auto.
  - split; [discriminate|]. intros (X & _). discriminate.
  - reflexivity.
Qed.

Lemma bufinv_close_all d : forall s os, bufinv s -> bufinv (close_all s d os).
Proof.
  induction d as [|[c x] d IH]; intros s os V; cbn [close_all]; [auto|].
  pose proof (bufinv_close s x (hd Cok os) V) as V1. destruct (close_ctx s x (hd Cok os)) as [s1 r]. cbn [fst] in V1.
  destruct r; auto.
Qed.

Lemma bufinv_remove s t c o : bufinv s -> bufinv (remove_context s t c o).
Proof.
  intros V. unfold remove_context. destruct (nth_error (s_tiks s) t) as [k|]; [|auto]. destruct (dget (t_conns k) c) as [x|]; [|auto].
  pose proof (bufinv_close s x o V) as V1. destruct (close_ctx s x o) as [s1 r]. cbn [fst] in V1. destruct r; [auto|].
  eapply bufinv_keep with (es := []); eauto.
Qed.

Lemma bufinv_open s c t : bufinv s ->
  bufinv (set_ctxs s (s_ctxs s ++ [Bctx c t true true]) [EOpened c t (List.length (s_ctxs s))]) /\
  bufinv (set_ctxs s (s_ctxs s ++ [Bctx c t true false]) [ENoBuffer (List.length (s_ctxs s)); EOpened c t (List.length (s_ctxs s))]).
Proof.
  intros [A B]. split; unfold bufinv, set_ctxs; cbn [s_ctxs s_log app]; split.
  - intros x b H. apply nth_snoc_inv in H. destruct H as [(-> & ->)|H]; cbn [x_buffer x_backend In].
    + split; [intros _|auto]. split; [auto|]. split; intros [I|I]; try discriminate.
      * specialize (B (List.length (s_ctxs s)) (or_introl I)). lia.
      * specialize (B (List.length (s_ctxs s)) (or_intror I)). lia.
    + rewrite (A _ _ H). split; intros (P & Q & R); (split; [auto|]); (split; intros I); try (destruct I as [I|I]; [discriminate|]); auto.
  - intros x H. rewrite app_length. cbn.
    assert (x < List.length (s_ctxs s)) by (apply B; destruct H as [[H|H]|[H|H]]; try discriminate; auto). lia.
  - intros x b H. apply nth_snoc_inv in H. destruct H as [(-> & ->)|H]; cbn [x_buffer x_backend In].
    + split; [discriminate|]. intros (_ & _ & X). destruct X. auto.
    + pose proof (nth_lt _ _ _ _ H) as LT.
      rewrite (A _ _ H). split; intros (P & Q & R); (split; [auto|]); (split; intros I);
        try (repeat (destruct I as [I|I]; [try discriminate; try (injection I as I; lia)|])); auto.
  - intros x H. rewrite app_length. cbn. destruct H as [[H|[H|H]]|[H|[H|H]]]; try discriminate.
    + assert (x < List.length (s_ctxs s)) by auto. lia.
    + injection H as <-. lia.
    + assert (x < List.length (s_ctxs s)) by auto. lia.
Qed.

Lemma step_bufinv s a s' : bufinv s -> step s a = Some s' -> bufinv s'.
Proof.
  intros V E. destruct a as [|u n|t|t os|c t o|c|c|c o]; cbn [step] in E.
  - injection E as <-. eapply bufinv_keep with (es := []); eauto.
  - injection E as <-. eapply bufinv_keep with (es := []); eauto.
  - destruct (nth_error (s_tiks s) t) as [k|]; [|discriminate]. injection E as <-.
    eapply bufinv_keep with (es := [ECanceled t]); eauto. repeat constructor.
  - destruct (nth_error (s_tiks s) t) as [k|]; [|discriminate]. destruct (t_canceled k); [|discriminate]. injection E as <-. now apply bufinv_close_all.
  - destruct (nth_error (s_cons s) c) as [n|]; [|discriminate]. destruct (nth_error (s_tiks s) t) as [k|]; [|discriminate].
    destruct (c_pc n); try discriminate. destruct (dget (t_conns k) c) as [x|].
    + destruct (nth_error (s_ctxs s) x) as [b|]; [|discriminate]. injection E as <-.
      eapply bufinv_keep with (es := [EServed c t x (x_backend b)]); eauto. repeat constructor.
    + destruct (bufinv_open s c t V) as [V1 V2]. destruct o as [| |d].
      * injection E as <-. auto.
      * injection E as <-. auto.
      * destruct (t_canceled k); injection E as <-; [now apply bufinv_close|].
        eapply bufinv_keep with (es := []); [exact V1|reflexivity|reflexivity|constructor].
  - destruct (nth_error (s_cons s) c) as [n|]; [|discriminate]. destruct (c_pc n) as [|t x| |]; try discriminate.
    destruct (nth_error (s_tiks s) t) as [k|]; [|discriminate]. destruct (nth_error (s_ctxs s) x) as [b|]; [|discriminate].
    destruct (timeout_ok _); injection E as <-;
      [eapply bufinv_keep with (es := [EServed c t x (x_backend b)])|eapply bufinv_keep with (es := [ENoTimeout x])]; eauto; repeat constructor.
  - destruct (nth_error (s_cons s) c) as [n|]; [|discriminate]. destruct (c_pc n); try discriminate. injection E as <-.
    eapply bufinv_keep with (es := []); eauto.
  - destruct (nth_error (s_cons s) c) as [n|]; [|discriminate]. destruct (c_pc n) as [| |[|t r]|]; try discriminate; injection E as <-.
    + eapply bufinv_keep with (es := [EFinished c]); eauto. repeat constructor.
    + eapply bufinv_keep with (es := []); [apply (bufinv_remove s t c o V)|reflexivity|reflexivity|constructor].
Qed.

Lemma run_bufinv l : forall s s', bufinv s -> run s l = Some s' -> bufinv s'.
Proof.
  induction l as [|a l IH]; intros s s' V R; cbn in R; [injection R as <-; auto|].
  destruct (step s a) as [s1|] eqn:E; [|discriminate]. eapply IH; [|exact R]. eapply step_bufinv; eauto.
Qed.
