From Coq Require Import ZArith List Bool Lia String.
From Verif Require Import BytesLib UrlModel OvirtModel OvirtSpec.
Import ListNotations.
Open Scope Z_scope.

(* ---- sequences of events ---- *)

Lemma in_order_app l1 t1 l2 t2 : in_order l1 t1 -> in_order l2 t2 -> in_order (l1 ++ l2) (t1 ++ t2).
Proof.
  induction 1 as [t|e l t H IH|e l t H IH]; intros G; cbn [app].
  - induction t as [|x t IH]; cbn [app]; auto. apply in_order_skip; auto.
  - apply in_order_take; auto.
  - apply in_order_skip; auto.
Qed.
Lemma in_order_refl l : in_order l l.
Proof. induction l; constructor; auto. Qed.
Lemma in_order_l l t u : in_order l t -> in_order l (t ++ u).
Proof. intros H. rewrite <- (app_nil_r l). apply in_order_app; auto. constructor. Qed.
Lemma in_order_r l t u : in_order l t -> in_order l (u ++ t).
Proof. intros H. change l with ([] ++ l). apply in_order_app; auto. constructor. Qed.
Lemma count_app p t u : count p (t ++ u) = count p t + count p u.
Proof. unfold count. rewrite filter_app, zlen_app. lia. Qed.
Lemma count_nil p : count p [] = 0.
Proof. reflexivity. Qed.
Lemma count_cons p e t : count p (e :: t) = (if p e then 1 else 0) + count p t.
Proof. change (e :: t) with ([e] ++ t). rewrite count_app. unfold count at 1. cbn [filter]. destruct (p e); reflexivity. Qed.
Lemma count_0 p t : Forall (fun e => p e = false) t -> count p t = 0.
Proof. induction 1 as [|e t H F IH]; [reflexivity|]. rewrite count_cons, H, IH. reflexivity. Qed.
Lemma count_nonneg p t : 0 <= count p t.
Proof. apply zlen_nonneg. Qed.

(* ---- triples ---- *)

Definition wp {A} (m : M A) (P : list event -> A + exc -> Prop) : Prop :=
  forall w, P (snd (fst (m w))) (snd (m w)).

Lemma wp_use {A} (m : M A) P w w' t r : wp m P -> m w = (w', t, r) -> P t r.
Proof. intros H E. specialize (H w). rewrite E in H. exact H. Qed.
Lemma wp_ret {A} (a : A) (P : list event -> A + exc -> Prop) : P [] (inl a) -> wp (ret a) P.
Proof. intros H w. exact H. Qed.
Lemma wp_raise {A} x (P : list event -> A + exc -> Prop) : P [] (inr x) -> wp (raise x) P.
Proof. intros H w. exact H. Qed.
Lemma wp_bind {A B} (m : M A) (f : A -> M B) Q (P : list event -> B + exc -> Prop) :
  wp m Q ->
  (forall t a, Q t (inl a) -> wp (f a) (fun u r => P (t ++ u) r)) ->
  (forall t x, Q t (inr x) -> P t (inr x)) -> wp (bind m f) P.
Proof.
  intros H F X w. specialize (H w). unfold bind. destruct (m w) as [[w1 t1] [a|x]]; cbn in H |- *.
  - specialize (F _ _ H w1). destruct (f a w1) as [[w2 t2] r]; exact F.
  - auto.
Qed.
Lemma wp_try {A B} (m : M A) (f : A + exc -> M B) Q (P : list event -> B + exc -> Prop) :
  wp m Q -> (forall t r, Q t r -> wp (f r) (fun u r => P (t ++ u) r)) -> wp (try_ m f) P.
Proof.
  intros H F w. specialize (H w). unfold try_. destruct (m w) as [[w1 t1] r]; cbn in H |- *.
  specialize (F _ _ H w1). destruct (f r w1) as [[w2 t2] r']; exact F.
Qed.
Lemma wp_weaken {A} (m : M A) (P Q : list event -> A + exc -> Prop) :
  wp m P -> (forall t r, P t r -> Q t r) -> wp m Q.
Proof. intros H I w. apply I, H. Qed.
Lemma wp_show s (P : list event -> unit + exc -> Prop) : P [Shown (lit s)] (inl tt) -> wp (show s) P.
Proof. intros H w. exact H. Qed.

Section oracle.
Variable o : oracle.

Lemma wp_ask {A} c f (say : A -> answer) (P : list event -> A + exc -> Prop) :
  (forall a, P [Ev c (say a)] (inl a)) -> (forall x, P [Ev c (AExc x)] (inr x)) -> wp (ask o c f say) P.
Proof. intros H1 H2 w. unfold ask. cbn. destruct (f (w_i w)); auto. Qed.
Lemma wp_ask_unit c (P : list event -> unit + exc -> Prop) :
  P [Ev c AUnit] (inl tt) -> (forall x, P [Ev c (AExc x)] (inr x)) -> wp (ask_unit o c) P.
Proof. intros H1 H2. apply wp_ask; auto. intros []. auto. Qed.
Lemma wp_now (P : list event -> Z + exc -> Prop) : (forall z, P [] (inl z)) -> wp (now o) P.
Proof. intros H w. apply H. Qed.
Lemma wp_sleep (P : list event -> unit + exc -> Prop) : P [] (inl tt) -> wp (sleep o) P.
Proof. intros H w. apply H. Qed.

(* ---- the loops ---- *)

Definition disk_poll (e : event) : Prop := exists a, e = Ev CDiskGet a.

Definition disk_post (t : list event) (r : unit + exc) : Prop :=
  Forall disk_poll t /\ (r = inl tt -> in_order [Ev CDiskGet (AStatus DiskOk)] t).

Lemma wait_disk_loop_post fuel : forall deadline, wp (wait_disk_loop o fuel deadline) disk_post.
Proof.
  induction fuel as [|fuel IH]; intros d; cbn [wait_disk_loop].
  { apply wp_raise. split; [constructor|discriminate]. }
  eapply wp_bind; [apply wp_sleep with (P := fun t r => t = [] /\ r = inl tt); auto| |].
  2: { intros t x [_ E]. discriminate E. }
  intros t a [-> _]. cbn [app].
  eapply wp_bind; [apply wp_now with (P := fun t r => t = [] /\ exists z, r = inl z); eauto| |].
  2: { intros t x [_ (z & E)]. discriminate E. }
  intros t z [-> _]. cbn [app]. destruct (z >? d).
  { apply wp_raise. split; [constructor|discriminate]. }
  eapply wp_bind; [apply wp_ask with (P := fun t r => t = [Ev CDiskGet (match r with inl s => AStatus s | inr x => AExc x end)]); auto| |].
  2: { intros t x ->. split; [repeat econstructor|discriminate]. }
  intros t s ->. destruct s.
  - apply wp_ret. split; [repeat econstructor|]. intros _. apply in_order_refl.
  - apply wp_raise. split; [repeat econstructor|discriminate].
  - eapply wp_weaken; [apply IH|]. intros t r [F S]. split.
    + constructor; auto. eexists; reflexivity.
    + intros E. apply in_order_r. auto.
Qed.

Definition is_initializing (e : event) : Prop := e = Ev CGet (APhase Initializing).

Inductive create_end : list event -> unit + exc -> Prop :=
| CreateOk : create_end [Ev CGet (APhase Transferring)] (inl tt)
| CreateExc x : create_end [Ev CGet (AExc x)] (inr (match x with XNotFound => XRuntime | _ => x end))
| CreateFailed : create_end [Ev CGet (APhase FinishedFailure)] (inr XRuntime)
| CreateCancel p a x : create_end [Ev CGet (APhase p); Ev CCancel a] (inr x)
| CreateFuel : create_end [] (inr XNoFuel).

Definition create_post (fuel : nat) (t : list event) (r : unit + exc) : Prop :=
  exists pre e, t = pre ++ e /\ Forall is_initializing pre /\ create_end e r /\ (e = [] -> List.length pre = fuel).

Lemma create_post_end fuel e r : create_end e r -> (e = [] -> fuel = O) -> create_post fuel e r.
Proof. exists [], e. repeat split; auto. intros E. symmetry. auto. Qed.

Lemma create_loop_post fuel : forall deadline, wp (create_loop o fuel deadline) (create_post fuel).
Proof.
  induction fuel as [|fuel IH]; intros d; cbn [create_loop].
  { apply wp_raise. apply create_post_end; auto. constructor. }
  assert (C : forall p, wp (let! _ <- ask_unit o CCancel; @raise unit XRuntime)
                           (fun u r => create_post (S fuel) ([Ev CGet (APhase p)] ++ u) r)).
  { intros p. eapply wp_bind; [apply wp_ask_unit with (P := fun t r => exists a, t = [Ev CCancel a]); eauto| |].
    - intros t [] (a & ->). apply wp_raise. apply create_post_end; [|discriminate]. cbn. constructor.
    - intros t x (a & ->). apply create_post_end; [|discriminate]. cbn. constructor. }
  eapply wp_try; [apply wp_ask with (P := fun t r => t = [Ev CGet (match r with inl s => APhase s | inr x => AExc x end)]); auto|].
  intros t r ->. destruct r as [p|x].
  2: { destruct x; apply wp_raise, create_post_end; try discriminate;
       match goal with |- create_end ([Ev _ (AExc ?x)] ++ []) _ => apply (CreateExc x) end. }
  destruct p; cbn [is_phase negb]; auto; try (apply wp_raise, create_post_end; [constructor|discriminate]).
  2: { apply wp_ret, create_post_end; [constructor|discriminate]. }
  eapply wp_bind; [apply wp_now with (P := fun t r => t = [] /\ exists z, r = inl z); eauto| |].
  2: { intros t x [_ (z & E)]. discriminate E. }
  intros t z [-> _]. cbn [app]. destruct (z >? d); [apply C|].
  eapply wp_bind; [apply wp_sleep with (P := fun t r => t = [] /\ r = inl tt); auto| |].
  2: { intros t x [_ E]. discriminate E. }
  intros t a [-> _]. cbn [app]. eapply wp_weaken; [apply IH|].
  intros t r (pre & e & -> & F & E & L). exists (Ev CGet (APhase Initializing) :: pre), e.
  split; [reflexivity|]. split; [constructor; auto; reflexivity|]. split; auto.
  intros X. cbn [List.length]. f_equal. auto.
Qed.

(* the events of a poll *)
Definition poll_event (e : event) : Prop :=
  match e with Ev CGet _ | Ev CDiskGet _ => True | _ => False end.

Definition finalize_post (t : list event) (r : unit + exc) : Prop :=
  Forall poll_event t /\ (r = inl tt -> exists l, confirmation l /\ in_order l t).

Lemma finalize_loop_post fuel : forall deadline, wp (finalize_loop o fuel deadline) finalize_post.
Proof.
  induction fuel as [|fuel IH]; intros d; cbn [finalize_loop].
  { apply wp_raise. split; [constructor|discriminate]. }
  eapply wp_bind; [apply wp_sleep with (P := fun t r => t = [] /\ r = inl tt); auto| |].
  2: { intros t x [_ E]. discriminate E. }
  intros t a [-> _]. cbn [app].
  eapply wp_try; [apply wp_ask with (P := fun t r => t = [Ev CGet (match r with inl s => APhase s | inr x => AExc x end)]); auto|].
  intros t r ->. destruct r as [p|x].
  2: { assert (D : forall x, wp (@raise unit x) (fun u r => finalize_post ([Ev CGet (AExc x)] ++ u) r)).
       { intros y. apply wp_raise. split; [repeat constructor|discriminate]. }
       destruct x; auto.
       eapply wp_try; [apply wp_ask with (P := fun t r => t = [Ev CDiskGet (match r with inl s => AStatus s | inr x => AExc x end)]); auto|].
       intros t r ->. destruct r as [[]|[]]; try (apply wp_raise; split; [repeat constructor|discriminate]).
       apply wp_ret. split; [repeat constructor|]. intros _. eexists. split; [right; reflexivity|].
       apply in_order_refl. }
  assert (N : wp (let! t <- now o; if t >? d then raise XRuntime else finalize_loop o fuel d)
                 (fun u r => finalize_post ([Ev CGet (APhase p)] ++ u) r)).
  { eapply wp_bind; [apply wp_now with (P := fun t r => t = [] /\ exists z, r = inl z); eauto| |].
    2: { intros t x [_ (z & E)]. discriminate E. }
    intros t z [-> _]. cbn [app]. destruct (z >? d).
    { apply wp_raise. split; [repeat constructor|discriminate]. }
    eapply wp_weaken; [apply IH|]. intros t r [F S]. split; [constructor; cbn; auto|].
    intros E. destruct (S E) as (l & C & I). exists l. split; auto. apply in_order_skip; auto. }
  destruct p; cbn [is_phase]; auto.
  - apply wp_ret. split; [repeat constructor|]. intros _. eexists. split; [left; reflexivity|].
    apply in_order_refl.
  - apply wp_raise. split; [repeat constructor|discriminate].
Qed.

(* ---- the helpers ---- *)

Definition add_post (fuel : nat) (d : direction) (t : list event) (r : unit + exc) : Prop :=
  (exists x, t = [Ev (CAdd d) (AExc x)] /\ r = inr x) \/
  (exists u r' f, t = Ev (CAdd d) AUnit :: u ++ f /\ create_post fuel u r' /\
     match r' with
     | inr x => f = [] /\ r = inr x
     | inl _ => f = [Ev CFollow AUnit] /\ r = inl tt \/
                exists x, f = [Ev CFollow (AExc x)] /\ r = inr x
     end).

Lemma create_transfer_post fuel d timeout : wp (create_transfer o fuel d timeout) (add_post fuel d).
Proof.
  unfold create_transfer.
  eapply wp_bind; [apply wp_now with (P := fun t r => t = [] /\ exists z, r = inl z); eauto| |].
  2: { intros t x [_ (z & E)]. discriminate E. }
  intros t z [-> _]. cbn [app].
  eapply wp_bind; [apply wp_ask_unit with (P := fun t r => t = [Ev (CAdd d) (match r with inl _ => AUnit | inr x => AExc x end)]); auto| |].
  2: { intros t x ->. left. eauto. }
  intros t [] ->.
  eapply wp_bind; [apply create_loop_post| |].
  2: { intros t x P. right. exists t, (inr x), []. rewrite app_nil_r. repeat split; auto. }
  intros t [] P. apply wp_ask_unit; [|intros x]; right; exists t, (inl tt); eexists; (split; [reflexivity|]); split; auto.
  right. eauto.
Qed.

Definition end_post (t : list event) (r : unit + exc) : Prop :=
  exists a u, t = Ev CFinalize a :: u /\ Forall poll_event u /\
    (r = inl tt -> a = AUnit /\ exists l, confirmation l /\ in_order l u).

Lemma finalize_transfer_post fuel timeout : wp (finalize_transfer o fuel timeout) end_post.
Proof.
  unfold finalize_transfer.
  eapply wp_bind; [apply wp_now with (P := fun t r => t = [] /\ exists z, r = inl z); eauto| |].
  2: { intros t x [_ (z & E)]. discriminate E. }
  intros t z [-> _]. cbn [app].
  eapply wp_bind; [apply wp_ask_unit with (P := fun t r => t = [Ev CFinalize (match r with inl _ => AUnit | inr x => AExc x end)]); auto| |].
  2: { intros t x ->. exists (AExc x), []. repeat split; auto. discriminate. discriminate. }
  intros t [] ->. eapply wp_weaken; [apply finalize_loop_post|]. intros u r [F S].
  exists AUnit, u. repeat split; auto.
Qed.

(* events before a transfer is made *)
Definition early (e : event) : Prop :=
  match e with
  | Ev (CAdd _) _ | Ev CGet _ | Ev CFollow _ | Ev CCancel _ | Ev CFinalize _ | Ev (CTransfer _ _) _ => False
  | _ => True
  end.
Definition no_disk (e : event) : Prop :=
  match e with Ev (CAddDisk _) _ | Ev CDiskGet _ => False | _ => True end.
Definition early_post {A} (t : list event) (r : A + exc) : Prop :=
  Forall (fun e => early e /\ no_disk e) t.

Lemma find_host_post : wp (find_host o) early_post.
Proof.
  unfold find_host.
  eapply wp_bind; [apply wp_ask with (P := fun t r => early_post t r); repeat constructor| |].
  2: { auto. }
  intros t a E1. destruct a; try (apply wp_ret; unfold early_post in *; rewrite app_nil_r; exact E1).
  eapply wp_bind; [apply wp_ask with (P := fun t r => early_post t r); repeat constructor| |].
  2: { intros t' x E2. apply Forall_app. auto. }
  intros t' n E2. destruct n as [|n].
  { apply wp_raise. unfold early_post in *. rewrite app_nil_r. apply Forall_app. auto. }
  eapply wp_bind; [apply wp_ask with (P := fun t r => early_post t r); repeat constructor| |].
  2: { intros t2 x E3. unfold early_post in *. rewrite !Forall_app. auto. }
  intros t2 n2 E3. assert (G : early_post (A := bool) (t ++ t' ++ t2 ++ []) (inl true)).
  { unfold early_post in *. rewrite !Forall_app. auto. }
  destruct n2; apply wp_ret; exact G.
Qed.

Lemma early_app {A B} t u (r : A + exc) (r' : B + exc) :
  early_post t r -> Forall (fun e => early e /\ no_disk e) u -> early_post (t ++ u) r'.
Proof. intros H1 H2. apply Forall_app. auto. Qed.
Lemma early_early {A} t (r : A + exc) : early_post t r -> Forall early t.
Proof. apply Forall_impl. intros e [H _]. exact H. Qed.

Lemma wp_early_ask {A} c f (say : A -> answer) :
  (forall a, early (Ev c a) /\ no_disk (Ev c a)) -> wp (ask o c f say) early_post.
Proof. intros H. apply wp_ask; intros; repeat constructor; apply H. Qed.
Lemma wp_early_unit c : (forall a, early (Ev c a) /\ no_disk (Ev c a)) -> wp (ask_unit o c) early_post.
Proof. intros H. apply wp_early_ask. auto. Qed.

(* ---- preparing an upload ---- *)

Lemma bytes_eqb_spec a : forall b, bytes_eqb a b = true <-> a = b.
Proof.
  induction a as [|x a IH]; intros [|y b]; cbn [bytes_eqb]; try (split; [discriminate|discriminate]).
  { split; auto. }
  rewrite Bool.andb_true_iff, IH. split.
  - intros [E ->]. apply Byte.byte_dec_bl in E. subst. reflexivity.
  - intros [= -> ->]. split; auto. apply Byte.byte_dec_lb. reflexivity.
Qed.

Local Opaque sub lit.
(* What is known about the image when the options of the disk are chosen. *)
Definition options_post (a : args) (t : list event) (d : disk_info) : Prop :=
  exists i, In (Ev CInfo (AInfo i)) t /\ i_format i <> OtherFormat /\
    d_provisioned d = i_virtual i /\
    d_name d = (match a_name a with Some n => n | None => stem (basename (i_filename i)) end) /\
    ((d_content d = Iso /\ i_format i = Raw /\ d_format d = Raw /\ d_sparse d = false /\
      d_is_zero d = false /\ d_initial d = None /\
      exists data, In (Ev CRead (AData data)) t /\ sub 32768 8 data = ISO_MAGIC)
     \/
     (d_content d = Data /\ d_format d = (if is_qcow2 (a_format a) then Qcow2 else Raw) /\
      d_sparse d = a_sparse a /\ d_is_zero d = is_qcow2 (a_format a) || a_sparse a /\
      (i_format i = Raw -> exists data, In (Ev CRead (AData data)) t /\ sub 32768 8 data <> ISO_MAGIC) /\
      (if is_qcow2 (a_format a) && a_sparse a
       then exists n, d_initial d = Some n /\ In (Ev CMeasure (ASize n)) t
       else d_initial d = None))).

Lemma options_app a t u d : options_post a t d -> options_post a (t ++ u) d.
Proof.
  intros (i & I1 & I2 & I3 & I4 & I5). exists i. split; [apply in_or_app; auto|].
  do 3 (split; auto). destruct I5 as [(A1 & A2 & A3 & A4 & A5 & A6 & data & A7 & A8)|(A1 & A2 & A3 & A4 & A5 & A6)].
  - left. do 6 (split; auto). exists data. split; auto. apply in_or_app; auto.
  - right. do 4 (split; auto). split.
    + intros X. destruct (A5 X) as (data & A7 & A8). exists data. split; auto. apply in_or_app; auto.
    + destruct (_ && _); auto. destruct A6 as (n & A6 & A7). exists n. split; auto. apply in_or_app; auto.
Qed.

Lemma options_app_r a u t d : options_post a t d -> options_post a (u ++ t) d.
Proof.
  intros (i & I1 & I2 & I3 & I4 & I5). exists i. split; [apply in_or_app; auto|].
  do 3 (split; auto). destruct I5 as [(A1 & A2 & A3 & A4 & A5 & A6 & data & A7 & A8)|(A1 & A2 & A3 & A4 & A5 & A6)].
  - left. do 6 (split; auto). exists data. split; auto. apply in_or_app; auto.
  - right. do 4 (split; auto). split.
    + intros X. destruct (A5 X) as (data & A7 & A8). exists data. split; auto. apply in_or_app; auto.
    + destruct (_ && _); auto. destruct A6 as (n & A6 & A7). exists n. split; auto. apply in_or_app; auto.
Qed.

Lemma is_iso_post f : wp (is_iso o f) (fun t r => early_post t r /\
  forall b, r = inl b ->
    (f = Raw /\ exists data, In (Ev CRead (AData data)) t /\
       (b = true <-> sub 32768 8 data = ISO_MAGIC)) \/ (f <> Raw /\ b = false)).
Proof.
  unfold is_iso. destruct f.
  - eapply wp_bind; [apply wp_ask with (P := fun t r => t = [Ev CRead (match r with inl s => AData s | inr x => AExc x end)]); auto| |].
    + intros t data ->. apply wp_ret. split; [repeat constructor|]. intros b [= <-]. left.
      split; auto. exists data. split; [left; reflexivity|]. apply bytes_eqb_spec.
    + intros t x ->. split; [repeat constructor|]. discriminate.
  - apply wp_ret. split; [constructor|]. intros b [= <-]. right. split; auto. discriminate.
  - apply wp_ret. split; [constructor|]. intros b [= <-]. right. split; auto. discriminate.
Qed.

Lemma prepare_post a : wp (prepare o a) (fun t r => early_post t r /\
  forall d, r = inl d -> options_post a t d).
Proof.
  unfold prepare.
  eapply wp_bind; [apply wp_ask with (P := fun t r => t = [Ev CInfo (match r with inl s => AInfo s | inr x => AExc x end)]); auto| |].
  2: { intros t x ->. split; [repeat constructor|]. discriminate. }
  intros t i ->. destruct (i_format i) eqn:FI.
  3: { apply wp_raise. split; [repeat constructor|discriminate]. }
  - eapply wp_bind; [apply is_iso_post| |].
    2: { intros t x [E _]. split; [|discriminate]. constructor; [split; exact I|exact E]. }
    intros t iso [E S]. specialize (S _ eq_refl) as [(_ & data & R & B)|[N _]]; [|congruence].
    destruct iso; cbn [is_qcow2 andb orb].
    + eapply wp_bind; [apply wp_ret with (P := fun t r => t = [] /\ r = inl None); auto| |].
      2: { intros u x [_ Y]. discriminate Y. }
      intros u ini [-> [= ->]]. apply wp_ret. rewrite !app_nil_r. split.
      { constructor; [split; exact I|exact E]. }
      intros d [= <-]. exists i. split; [left; reflexivity|]. rewrite FI. split; [discriminate|].
      cbn. split; auto. split; auto. left. do 6 (split; auto). exists data. split; [right; auto|tauto].
    + assert (B' : sub 32768 8 data <> ISO_MAGIC) by (intros X; apply B in X; discriminate).
      eapply wp_bind; [instantiate (1 := fun u r => early_post u r /\ (r = inl None /\ is_qcow2 (a_format a) && a_sparse a = false \/ is_qcow2 (a_format a) && a_sparse a = true /\ forall v, r = inl v -> exists n, v = Some n /\ In (Ev CMeasure (ASize n)) u))| |].
      * destruct (is_qcow2 (a_format a) && a_sparse a) eqn:Q.
        -- eapply wp_bind; [apply wp_ask with (P := fun t r => t = [Ev CMeasure (match r with inl s => ASize s | inr x => AExc x end)]); auto| |].
           ++ intros u n ->. apply wp_ret. split; [repeat constructor|]. right. split; auto. intros v [= <-]. exists n. split; auto. left. reflexivity.
           ++ intros u x ->. split; [repeat constructor|]. right. split; auto. discriminate.
        -- apply wp_ret. split; [constructor|]. auto.
      * intros u ini [EU S]. apply wp_ret. rewrite app_nil_r. split.
        { constructor; [split; exact I|]. apply Forall_app. split; [exact E|exact EU]. }
        intros d [= <-]. exists i. split; [left; reflexivity|]. rewrite FI. split; [discriminate|].
        cbn. split; auto. split; auto. right. do 4 (split; auto). split.
        { intros _. exists data. split; auto. right. apply in_or_app. auto. }
        destruct S as [[[= ->] ->]|[-> S]]; auto.
        destruct (S _ eq_refl) as (n & -> & J). exists n. split; auto. right. apply in_or_app. auto.
      * intros u x [EU _]. split; [|discriminate]. constructor; [split; exact I|]. apply Forall_app. split; [exact E|exact EU].
  - eapply wp_bind; [apply is_iso_post| |].
    2: { intros t x [E _]. split; [|discriminate]. constructor; [split; exact I|exact E]. }
    intros t iso [E S]. specialize (S _ eq_refl) as [(N & _)|[_ ->]]; [congruence|].
    eapply wp_bind; [instantiate (1 := fun u r => early_post u r /\ (r = inl None /\ is_qcow2 (a_format a) && a_sparse a = false \/ is_qcow2 (a_format a) && a_sparse a = true /\ forall v, r = inl v -> exists n, v = Some n /\ In (Ev CMeasure (ASize n)) u))| |].
    + destruct (is_qcow2 (a_format a) && a_sparse a) eqn:Q.
      -- eapply wp_bind; [apply wp_ask with (P := fun t r => t = [Ev CMeasure (match r with inl s => ASize s | inr x => AExc x end)]); auto| |].
         ++ intros u n ->. apply wp_ret. split; [repeat constructor|]. right. split; auto. intros v [= <-]. exists n. split; auto. left. reflexivity.
         ++ intros u x ->. split; [repeat constructor|]. right. split; auto. discriminate.
      -- apply wp_ret. split; [constructor|]. auto.
    + intros u ini [EU S]. apply wp_ret. rewrite app_nil_r. split.
      { constructor; [split; exact I|]. apply Forall_app. split; [exact E|exact EU]. }
      intros d [= <-]. exists i. split; [left; reflexivity|]. rewrite FI. split; [discriminate|].
      cbn. split; auto. split; auto. right. do 4 (split; auto). split; [discriminate|].
      destruct S as [[[= ->] ->]|[-> S]]; auto.
      destruct (S _ eq_refl) as (n & -> & J). exists n. split; auto. right. apply in_or_app. auto.
    + intros u x [EU _]. split; [|discriminate]. constructor; [split; exact I|]. apply Forall_app. split; [exact E|exact EU].
Qed.

Lemma add_disk_post fuel d timeout : wp (add_disk o fuel d timeout) (fun t r =>
  exists a u, t = Ev (CAddDisk d) a :: u /\ Forall disk_poll u /\
    (r = inl tt -> a = AUnit /\ in_order [Ev CDiskGet (AStatus DiskOk)] u)).
Proof.
  unfold add_disk.
  eapply wp_bind; [apply wp_ask_unit with (P := fun t r => t = [Ev (CAddDisk d) (match r with inl _ => AUnit | inr x => AExc x end)]); auto| |].
  2: { intros t x ->. exists (AExc x), []. repeat split; auto; discriminate. }
  intros t [] ->. unfold wait_for_disk.
  eapply wp_bind; [apply wp_now with (P := fun t r => t = [] /\ exists z, r = inl z); eauto| |].
  2: { intros t x [_ (z & E)]. discriminate E. }
  intros t z [-> _]. cbn [app]. eapply wp_weaken; [apply wait_disk_loop_post|].
  intros u r [F S]. exists AUnit, u. repeat split; auto.
Qed.

(* ---- a session: what happens between connecting and closing ---- *)

Inductive session (fuel : nat) (K : list event -> bool -> Prop) (dir : direction) : list event -> unit + exc -> Prop :=
| SEarly pre x : Forall early pre -> session fuel K dir pre (inr x)
| SAdd pre u x : Forall early pre -> add_post fuel dir u (inr x) -> session fuel K dir (pre ++ u) (inr x)
| SInterrupted pre u s z x : dir = Upload -> Forall early pre -> add_post fuel dir u (inl tt) ->
    is_exception x = false ->
    session fuel K dir (pre ++ u ++ [Shown s; Ev (CTransfer dir z) (AExc x)]) (inr x)
| SCancelled pre u s z x s' a y : dir = Upload -> Forall early pre -> add_post fuel dir u (inl tt) ->
    is_exception x = true ->
    session fuel K dir (pre ++ u ++ [Shown s; Ev (CTransfer dir z) (AExc x); Shown s'; Ev CCancel a]) (inr y)
| SEnd pre u s z s' v r : Forall early pre -> K pre z -> add_post fuel dir u (inl tt) -> end_post v r ->
    session fuel K dir (pre ++ u ++ [Shown s; Ev (CTransfer dir z) AUnit; Shown s'] ++ v) r
| SEndFailed pre u s z x s' v r y : dir = Download -> Forall early pre -> add_post fuel dir u (inl tt) ->
    end_post v r ->
    session fuel K dir (pre ++ u ++ [Shown s; Ev (CTransfer dir z) (AExc x); Shown s'] ++ v) (inr y).

Lemma session_weaken fuel (K K' : list event -> bool -> Prop) dir t r :
  (forall p z, K p z -> K' p z) -> session fuel K dir t r -> session fuel K' dir t r.
Proof.
  intros H. destruct 1; [eapply SEarly|eapply SAdd|eapply SInterrupted|eapply SCancelled|eapply SEnd|eapply SEndFailed]; eauto.
Qed.

Definition upload_pre (d : disk_info) (pre : list event) (z : bool) : Prop :=
  z = d_is_zero d /\ in_order [Ev (CAddDisk d) AUnit; Ev CDiskGet (AStatus DiskOk)] pre /\
  count is_add_disk pre = 1.

Lemma disk_poll_early t : Forall disk_poll t -> Forall early t.
Proof. apply Forall_impl. intros e (a & ->). exact I. Qed.
Lemma shown_early s : early (Shown s).
Proof. exact I. Qed.
Lemma count_disk_poll t : Forall disk_poll t -> count is_add_disk t = 0.
Proof. intros H. apply count_0. eapply Forall_impl; [|exact H]. intros e (a & ->). reflexivity. Qed.
Lemma count_early_disk t : Forall (fun e => early e /\ no_disk e) t -> count is_add_disk t = 0.
Proof.
  intros H. apply count_0. eapply Forall_impl; [|exact H]. intros [c a|s] [_ E]; [|reflexivity].
  destruct c; cbn in *; auto. destruct E.
Qed.

Ltac shown := eapply wp_bind; [apply wp_show with (P := fun t r => exists s, t = [Shown s] /\ r = inl tt); eauto
                              | |intros ? ? (? & _ & ?); discriminate].

Ltac shown_exact :=
  match goal with |- wp (bind (show ?s) _) _ =>
    eapply wp_bind; [apply (wp_show s (fun t r => t = [Shown (lit s)] /\ r = inl tt)); auto
                    | |intros ? ? [_ ?]; discriminate] end.

Lemma upload_session fuel a d : wp (
      let! _ <- show "creating disk" ;
      let! _ <- add_disk o fuel d (a_disk_timeout a) ;
      let! _ <- show "creating transfer" ;
      let! _ <- find_host o ;
      let! _ <- create_transfer o fuel Upload CREATE_TIMEOUT ;
      let! _ <- try_
        (let! _ <- show "uploading image" ;
         ask_unit o (CTransfer Upload (d_is_zero d)))
        (fun r => match r with
                  | inl _ => ret tt
                  | inr x =>
                      if is_exception x then
                        let! _ <- show "cancelling transfer" ;
                        let! _ <- cancel_transfer o ; raise x
                      else raise x
                  end) ;
      let! _ <- show "finalizing transfer" ;
      finalize_transfer o fuel FINALIZE_TIMEOUT) (session fuel (upload_pre d) Upload).
Proof.
  shown. intros t0 [] (s0 & -> & _).
  eapply wp_bind; [apply add_disk_post| |].
  2: { intros t x (b & u & -> & F & _). apply SEarly. constructor; [exact I|]. constructor; [exact I|].
       apply disk_poll_early. auto. }
  intros t [] (b & u & -> & F & S). destruct (S eq_refl) as [-> OK]. clear S.
  shown. intros t1 [] (s1 & -> & _).
  eapply wp_bind; [apply find_host_post| |].
  2: { intros t x E. apply SEarly. constructor; [exact I|]. constructor; [exact I|].
       apply Forall_app. split; [apply disk_poll_early; auto|]. constructor; [exact I|].
       eapply early_early; exact E. }
  intros t2 h E2.
  remember (Shown s0 :: Ev (CAddDisk d) AUnit :: u ++ Shown s1 :: t2) as pre eqn:DP.
  assert (EP : Forall early pre).
  { subst pre. constructor; [exact I|]. constructor; [exact I|].
    apply Forall_app. split; [apply disk_poll_early; auto|]. constructor; [exact I|]. eapply early_early; exact E2. }
  assert (KP : upload_pre d pre (d_is_zero d)).
  { split; auto. subst pre. split.
    - apply in_order_skip, in_order_take. apply in_order_l. auto.
    - rewrite !count_cons, count_app, count_cons, (count_disk_poll u), (count_early_disk t2) by auto. reflexivity. }
  assert (RW : forall v, [Shown s0] ++ (Ev (CAddDisk d) AUnit :: u) ++ [Shown s1] ++ t2 ++ v = pre ++ v).
  { intros v. subst pre. cbn [app]. rewrite <- app_assoc. reflexivity. }
  clear DP.
  eapply wp_bind; [apply create_transfer_post| |].
  2: { intros t x P. rewrite RW. apply SAdd; auto. }
  intros t [] P.
  eapply wp_bind; [instantiate (1 := fun v r => (r = inl tt /\ exists s, v = [Shown s; Ev (CTransfer Upload (d_is_zero d)) AUnit])
     \/ exists y, r = inr y /\ session fuel (upload_pre d) Upload (pre ++ t ++ v) r)| |].
  - eapply wp_try; [instantiate (1 := fun v r => exists s, v = [Shown s; Ev (CTransfer Upload (d_is_zero d)) (match r with inl _ => AUnit | inr x => AExc x end)])|].
    + shown. intros t4 [] (s4 & -> & _). apply wp_ask_unit; [|intros x]; exists s4; reflexivity.
    + intros v r (s & ->). destruct r as [[]|x].
      * apply wp_ret. left. split; auto. exists s. reflexivity.
      * destruct (is_exception x) eqn:IX.
        -- shown. intros t5 [] (s5 & -> & _). unfold cancel_transfer.
           eapply wp_bind; [apply wp_ask_unit with (P := fun t r => exists a, t = [Ev CCancel a]); eauto| |].
           ++ intros t6 [] (a6 & ->). apply wp_raise. right. eexists. split; [reflexivity|]. apply SCancelled; auto.
           ++ intros t6 y (a6 & ->). right. eexists. split; [reflexivity|]. apply SCancelled; auto.
        -- apply wp_raise. right. eexists. split; [reflexivity|]. apply SInterrupted; auto.
  - intros v [] [[_ (s & ->)]|(y & E & _)]; [|discriminate E].
    shown. intros t5 [] (s5 & -> & _). eapply wp_weaken; [apply finalize_transfer_post|].
    intros v r EP'. rewrite RW. apply (SEnd _ _ _ pre t s (d_is_zero d) s5 v r); auto.
  - intros v x [[E _]|(y & E & S)]; [discriminate E|]. rewrite RW. auto.
Qed.

Lemma wp_finally {A} (m : M A) f Q R (P : list event -> A + exc -> Prop) :
  wp m Q -> wp f R ->
  (forall t r u, Q t r -> R u (inl tt) -> P (t ++ u) r) ->
  (forall t r u x, Q t r -> R u (inr x) -> P (t ++ u) (inr x)) -> wp (finally m f) P.
Proof.
  intros HM HF P1 P2. eapply wp_try; [exact HM|]. intros t r HQ.
  eapply wp_bind; [exact HF| |intros u x HR; eapply P2; eassumption].
  intros u [] HR. destruct r as [a|x]; [apply wp_ret|apply wp_raise]; rewrite app_nil_r; apply P1; auto.
Qed.

Lemma download_session fuel : wp (
      let! _ <- ask_unit o CFindDisk ;
      let! _ <- ask_unit o CFindDomain ;
      let! _ <- find_host o ;
      let! _ <- create_transfer o fuel Download CREATE_TIMEOUT ;
      finally
        (let! _ <- show "downloading image" ;
         ask_unit o (CTransfer Download false))
        (let! _ <- show "finalizing transfer" ;
         finalize_transfer o fuel FINALIZE_TIMEOUT))
  (session fuel (fun pre z => z = false /\ count is_add_disk pre = 0) Download).
Proof.
  eapply wp_bind; [apply wp_early_unit; repeat constructor| |].
  2: { intros t x E. apply SEarly. eapply early_early; exact E. }
  intros t0 [] E0.
  eapply wp_bind; [apply wp_early_unit; repeat constructor| |].
  2: { intros t x E. apply SEarly. apply Forall_app. split; eapply early_early; eassumption. }
  intros t1 [] E1.
  eapply wp_bind; [apply find_host_post| |].
  2: { intros t x E. apply SEarly. rewrite !Forall_app. repeat split; eapply early_early; eassumption. }
  intros t2 h E2. remember (t0 ++ t1 ++ t2) as pre eqn:DP.
  assert (RW : forall v, t0 ++ t1 ++ t2 ++ v = pre ++ v) by (intros v; subst pre; rewrite !app_assoc; reflexivity).
  assert (EP : Forall early pre).
  { subst pre. rewrite !Forall_app. repeat split; eapply early_early; eassumption. }
  assert (KP : count is_add_disk pre = 0).
  { apply count_early_disk. subst pre. rewrite !Forall_app. auto. }
  clear DP.
  eapply wp_bind; [apply create_transfer_post| |].
  2: { intros t x P. rewrite RW. apply SAdd; auto. }
  intros t [] P.
  eapply wp_finally; [instantiate (1 := fun v r => exists s, v = [Shown s; Ev (CTransfer Download false) (match r with inl _ => AUnit | inr x => AExc x end)])
                     |instantiate (1 := fun v r => exists s u, v = Shown s :: u /\ end_post u r)| |].
  - shown. intros t4 [] (s4 & -> & _). apply wp_ask_unit; [|intros x]; exists s4; reflexivity.
  - shown. intros t4 [] (s4 & -> & _). eapply wp_weaken; [apply finalize_transfer_post|]. intros v r E. exists s4, v. auto.
  - intros v r u (s & ->) (s' & w & -> & E). rewrite RW. destruct r as [[]|x].
    + apply (SEnd _ _ _ pre t s false s' w (inl tt)); auto.
    + apply (SEndFailed _ _ _ pre t s false x s' w (inl tt) x); auto.
  - intros v r u x (s & ->) (s' & w & -> & E). rewrite RW. destruct r as [[]|y].
    + apply (SEnd _ _ _ pre t s false s' w (inr x)); auto.
    + apply (SEndFailed _ _ _ pre t s false y s' w (inr x) x); auto.
Qed.

(* ---- whole commands ---- *)

(* [pre]: before connecting; then a session, if any; then the end. *)
Definition command_post (fuel : nat) (K : list event -> list event -> bool -> Prop) (dir : direction) (done : string)
  (t : list event) (r : unit + exc) : Prop :=
  (exists pre x, t = pre ++ [Shown (lit "command failed")] /\ Forall early pre /\ r = inr x) \/
  (exists pre s r1 a e, t = pre ++ s ++ [Ev CClose a; Shown (lit e)] /\
     Forall (fun e => early e /\ no_disk e) pre /\ session fuel (K pre) dir s r1 /\
     ((r = inl tt /\ r1 = inl tt /\ e = done) \/ (exists x, r = inr x /\ e = "command failed"%string))).

Lemma closing_post {A} (m : M A) Q : wp m Q ->
  wp (closing o m) (fun t r => exists u r1 a, t = u ++ [Ev CClose a] /\ Q u r1 /\
    ((a = AUnit /\ r = r1) \/ exists x, r = inr x)).
Proof.
  intros H. unfold closing. eapply wp_finally; [exact H|apply wp_ask_unit with (P := fun t r => t = [Ev CClose (match r with inl _ => AUnit | inr x => AExc x end)]); auto| |].
  - intros t r u Q1 ->. exists t, r, AUnit. repeat split; auto.
  - intros t r u x Q1 ->. exists t, r, (AExc x). repeat split; eauto.
Qed.

Lemma upload_post fuel a : wp (upload_disk o fuel a)
  (command_post fuel (fun pre p z => exists d, options_post a pre d /\ upload_pre d p z) Upload "upload completed").
Proof.
  unfold upload_disk, with_progress. shown. intros t0 [] (s0 & -> & _).
  eapply wp_try.
  - instantiate (1 := fun t r => (exists x, r = inr x /\ Forall early t) \/
      (exists pre s r1 a' e, t = pre ++ s ++ Ev CClose a' :: e /\
        Forall (fun e => early e /\ no_disk e) pre /\
        session fuel (fun p z => exists d, options_post a pre d /\ upload_pre d p z) Upload s r1 /\
        ((r = inl tt /\ r1 = inl tt /\ e = [Shown (lit "upload completed")]) \/ (exists x, r = inr x /\ e = [])))).
    eapply wp_bind; [apply prepare_post| |].
    2: { intros t x [E _]. left. exists x. split; auto. eapply early_early; exact E. }
    intros t d [E S]. specialize (S _ eq_refl).
    eapply wp_bind; [apply wp_early_unit; repeat constructor| |].
    2: { intros t1 x E1. left. exists x. split; auto. apply Forall_app. split; eapply early_early; eassumption. }
    intros t1 [] E1.
    eapply wp_bind; [apply closing_post; apply upload_session| |].
    + intros t2 [] (u & r1 & b & -> & SE & [[-> <-]|[x ?]]); [|discriminate].
      apply wp_show. right. exists (t ++ t1), u, (inl tt), AUnit, [Shown (lit "upload completed")].
      split; [rewrite <- !app_assoc; reflexivity|]. split; [apply Forall_app; auto|]. split; [|auto].
      assert (OP : options_post a (t ++ t1) d) by (apply options_app; auto).
      eapply session_weaken; [|exact SE]. intros p z U. exists d. auto.
    + intros t2 x (u & r1 & b & -> & SE & EE). right. exists (t ++ t1), u, r1, b, [].
      split; [rewrite <- !app_assoc; reflexivity|]. split; [apply Forall_app; auto|]. split; [|right; eauto].
      assert (OP : options_post a (t ++ t1) d) by (apply options_app; auto).
      eapply session_weaken; [|exact SE]. intros p z U. exists d. auto.
  - intros t r [(x & -> & E)|(pre & s & r1 & a' & e & -> & EP & SE & [(-> & -> & ->)|(x & -> & ->)])].
    + shown_exact. intros t1 [] [-> _]. apply wp_raise. left. exists (Shown s0 :: t), x.
      rewrite app_nil_r. repeat split; auto. constructor; [exact I|auto].
    + apply wp_ret. right. exists (Shown s0 :: pre), s, (inl tt), a', "upload completed"%string.
      rewrite app_nil_r. split; [reflexivity|]. split; [constructor; [split; exact I|auto]|].
      split; [|auto]. eapply session_weaken; [|exact SE]. intros p z (d & O & U). exists d. split; auto.
      apply (options_app_r a [Shown s0]). auto.
    + shown_exact. intros t1 [] [-> _]. apply wp_raise. right.
      exists (Shown s0 :: pre), s, r1, a', "command failed"%string.
      rewrite app_nil_r. cbn [app]. rewrite <- !app_assoc. split; [reflexivity|].
      split; [constructor; [split; exact I|auto]|]. split; [|right; eauto].
      eapply session_weaken; [|exact SE]. intros p z (d & O & U). exists d. split; auto.
      apply (options_app_r a [Shown s0]). auto.
Qed.

Lemma download_post fuel : wp (download_disk o fuel)
  (command_post fuel (fun _ p z => z = false /\ count is_add_disk p = 0) Download "download completed").
Proof.
  unfold download_disk, with_progress. shown. intros t0 [] (s0 & -> & _).
  eapply wp_try.
  - instantiate (1 := fun t r => (exists x, r = inr x /\ Forall early t) \/
      (exists pre s r1 a' e, t = pre ++ s ++ Ev CClose a' :: e /\
        Forall (fun e => early e /\ no_disk e) pre /\
        session fuel (fun p z => z = false /\ count is_add_disk p = 0) Download s r1 /\
        ((r = inl tt /\ r1 = inl tt /\ e = [Shown (lit "download completed")]) \/ (exists x, r = inr x /\ e = [])))).
    eapply wp_bind; [apply wp_early_unit; repeat constructor| |].
    2: { intros t1 x E1. left. exists x. split; auto. eapply early_early; eassumption. }
    intros t1 [] E1.
    eapply wp_bind; [apply closing_post; apply download_session| |].
    + intros t2 [] (u & r1 & b & -> & SE & [[-> <-]|[x ?]]); [|discriminate].
      apply wp_show. right. exists t1, u, (inl tt), AUnit, [Shown (lit "download completed")].
      split; [rewrite <- !app_assoc; reflexivity|]. split; [exact E1|]. auto.
    + intros t2 x (u & r1 & b & -> & SE & EE). right. exists t1, u, r1, b, [].
      split; [rewrite <- ?app_assoc; reflexivity|]. split; [exact E1|]. split; [auto|right; eauto].
  - intros t r [(x & -> & E)|(pre & s & r1 & a' & e & -> & EP & SE & [(-> & -> & ->)|(x & -> & ->)])].
    + shown_exact. intros t1 [] [-> _]. apply wp_raise. left. exists (Shown s0 :: t), x.
      rewrite app_nil_r. repeat split; auto. constructor; [exact I|auto].
    + apply wp_ret. right. exists (Shown s0 :: pre), s, (inl tt), a', "download completed"%string.
      rewrite app_nil_r. split; [reflexivity|]. split; [constructor; [split; exact I|auto]|]. auto.
    + shown_exact. intros t1 [] [-> _]. apply wp_raise. right.
      exists (Shown s0 :: pre), s, r1, a', "command failed"%string.
      rewrite app_nil_r. cbn [app]. rewrite <- !app_assoc. split; [reflexivity|].
      split; [constructor; [split; exact I|auto]|]. split; [auto|right; eauto].
Qed.
End oracle.
