(* Lemmas about opening images. *)
From Coq Require Import ZArith List Bool String Lia Arith.
From Verif Require Import UrlModel OpenModel OpenSpec.
Import ListNotations.
Open Scope Z_scope.

Lemma str_eqb_eq a b : str_eqb a b = true <-> a = b.
Proof. unfold str_eqb. destruct (list_eq_dec Z.eq_dec a b); split; congruence. Qed.
Lemma str_eqb_refl a : str_eqb a a = true.
Proof. apply str_eqb_eq. reflexivity. Qed.

Lemma existsb_in s l : existsb (str_eqb s) l = true <-> In s l.
Proof.
  rewrite existsb_exists. split.
  - intros (x & H & E). apply str_eqb_eq in E. subst. exact H.
  - intros H. exists s. split; [exact H|apply str_eqb_refl].
Qed.

(* Opening without O_CREAT and O_TRUNC. *)
Lemma os_open_done w p fl fd w' : f_creat fl = false -> f_trunc fl = false -> os_open w p fl false = Done fd w' \/ (exists d, os_open w p fl d = Done fd w') ->
  fd = next w /\ w' = World (files w) ((fd, (p, fl)) :: fds w) (S (next w)) /\ exists f, files w p = Some f.
Proof.
  intros C T H. assert (H' : exists d, os_open w p fl d = Done fd w') by (destruct H; eauto). clear H. destruct H' as (d & H).
  unfold os_open in H. destruct d; [discriminate|]. rewrite C, T in H.
  destruct (files w p) as [[k x]|] eqn:E; [|discriminate]. cbn [kind_of] in H.
  destruct k, (f_access fl); try discriminate; injection H as <- <-; eauto.
Qed.

Lemma os_open_raises w p fl d e w' : os_open w p fl d = Raises e w' -> w' = w.
Proof.
  unfold os_open. destruct d; [congruence|]. destruct (files w p) as [[k x]|].
  - cbn [kind_of]. destruct k, (f_access fl); congruence.
  - destruct (f_creat fl); congruence.
Qed.

Lemma flags_of_plain mode fl : mode = lit "r" \/ mode = lit "r+" -> flags_of mode true false = Some fl ->
  f_creat fl = false /\ f_trunc fl = false /\ f_direct fl = true /\ f_access fl = (if str_eqb mode (lit "r") then RO else RW).
Proof. intros [->| ->] H; injection H as <-; repeat split. Qed.

Lemma filter_below n (l : list (nat * (str * flags))) : (forall fd d, In (fd, d) l -> (fd < n)%nat) ->
  filter (fun x => negb (Nat.eqb (fst x) n)) l = l.
Proof.
  induction l as [|[fd d] l IH]; intros H; [reflexivity|]. cbn [filter fst].
  destruct (Nat.eqb_spec fd n) as [->|N]; cbn [negb].
  - specialize (H n d (or_introl eq_refl)). lia.
  - f_equal. apply IH. intros fd' d' I. apply (H fd' d'). right. exact I.
Qed.

Lemma close_new w d n : sound w ->
  fds (os_close (World (files w) ((next w, d) :: fds w) n) (next w)) = fds w.
Proof.
  intros S. unfold os_close. cbn [fds filter fst]. rewrite Nat.eqb_refl. cbn [negb]. apply filter_below. exact S.
Qed.

(* util.open in the modes of tickets *)
Lemma util_open_cases w p mode d : mode = lit "r" \/ mode = lit "r+" ->
  match util_open w p mode true false d with
  | Done fio w' =>
      io_fd fio = next w /\ io_mode fio = fileio_mode mode /\
      (exists k c, files w p = Some (File k c) /\ k <> Directory) /\
      exists fl, w' = World (files w) ((next w, (p, fl)) :: fds w) (S (next w)) /\
        f_creat fl = false /\ f_trunc fl = false /\ f_direct fl = true /\ f_access fl = (if str_eqb mode (lit "r") then RO else RW)
  | Raises e w' => w' = w \/ (exists c fl, files w p = Some (File Directory c) /\ w' = World (files w) ((next w, (p, fl)) :: fds w) (S (next w)))
  end.
Proof.
  intros M. unfold util_open. destruct (flags_of mode true false) as [fl|] eqn:F; [|auto].
  destruct (flags_of_plain _ _ M F) as (C & T & D & A).
  destruct (os_open w p fl d) as [fd w1|e w1] eqn:O.
  - destruct (os_open_done w p fl fd w1 C T) as (-> & -> & [k c] & E); [eauto|]. cbn [files]. rewrite E.
    destruct k; [..|right; eauto]; cbn [io_fd io_mode]; (repeat (split; [reflexivity|]));
      (split; [eexists _, _; split; [reflexivity|discriminate]|]); exists fl; auto.
  - left. eapply os_open_raises. exact O.
Qed.

Lemma mode_of t : (if existsb (str_eqb (lit "write")) (t_ops t) then lit "r+" else lit "r") = lit "r" \/
                  (if existsb (str_eqb (lit "write")) (t_ops t) then lit "r+" else lit "r") = lit "r+".
Proof. destruct (existsb (str_eqb (lit "write")) (t_ops t)); auto. Qed.

Lemma span_all f s : Forall (fun c => f c = true) s -> span f s = (s, []).
Proof. induction 1 as [|c s H _ IH]; cbn [span]; [reflexivity|]. rewrite H, IH. reflexivity. Qed.

Lemma filter_all {A} (f : A -> bool) s : Forall (fun c => f c = true) s -> filter f s = s.
Proof. induction 1 as [|c s H _ IH]; cbn [filter]; [reflexivity|]. rewrite H, IH. reflexivity. Qed.
