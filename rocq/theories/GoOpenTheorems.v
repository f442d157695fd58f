(* Opening an image in the Go program. *)
From Coq Require Import ZArith List Bool String Lia.
From Verif Require Import UrlModel GoOpenModel GoOpenSpec GoOpenProofs.
Import ListNotations.
Open Scope Z_scope.

(* An image that is opened is the one that was named: an existing file with
   this name, a server with this URL, or a file given by a file URL. *)
Theorem go_opens_named y s l : connect y s = (Opened, l) ->
  (stat y s = Exists /\ exists fmt, info y s = Some fmt /\
     l = [Run (info_argv s); Create; Activate (nbd_argv s fmt)]) \/
  (stat y s = NotExist /\ (has_scheme (lit "nbd") s \/ has_scheme (lit "nbd+unix") s) /\ l = [Create; Uri s]) \/
  (stat y s = NotExist /\ has_scheme (lit "https") s /\ l = [Https s]) \/
  (stat y s = NotExist /\ has_scheme (lit "file") s /\ exists p fmt, info y p = Some fmt /\
     l = [Run (info_argv p); Create; Activate (nbd_argv p fmt)]).
Proof.
  assert (F : forall p, connectFile y p = (Opened, l) -> exists fmt, info y p = Some fmt /\
     l = [Run (info_argv p); Create; Activate (nbd_argv p fmt)]).
  { intros p. unfold connectFile. destruct (info y p) as [fmt|]; [|discriminate]. unfold ConnectFile.
    destruct (h_create y), (h_meta y), (h_connect y), (h_size y); cbn; try discriminate.
    intros H. injection H as <-. eauto. }
  unfold connect. destruct (stat y s); [auto| |discriminate].
  intros H. right. destruct (connectURL_cases _ _ _ _ H) as [[X _]|[[C S]|[(_ & -> & S)|(p & C & S)]]]; [discriminate| | |].
  - left. split; auto. split; auto. revert C. unfold Connect.
    destruct (h_create y), (h_meta y), (h_connect y), (h_size y); cbn; try discriminate. intros X. injection X as <-. reflexivity.
  - auto.
  - right. right. split; auto. destruct (F p C) as (fmt & I & E). eauto 6.
Qed.

(* Whatever happens, qemu-nbd is only run for a file qemu-img looked at, with
   the format found there, and read only. *)
Theorem go_never_writes y s argv : In (Activate argv) (snd (connect y s)) ->
  exists f fmt, info y f = Some fmt /\ argv = lit "qemu-nbd" :: lit "--read-only" :: lit "--persistent" ::
    lit "--shared" :: lit "8" :: lit "--format" :: fmt :: [f] /\ (stat y s = Exists -> f = s).
Proof.
  assert (F : forall p, In (Activate argv) (snd (connectFile y p)) -> exists fmt, info y p = Some fmt /\ argv = nbd_argv p fmt).
  { intros p I. destruct (connectFile y p) as [r l] eqn:C.
    destruct (connectFile_events _ _ _ _ C _ I) as [X|[X|[X|(fmt & A & X)]]]; try discriminate.
    injection X as ->. eauto. }
  unfold connect. destruct (stat y s) eqn:St.
  - intros I. destruct (F s I) as (fmt & A & ->). exists s, fmt. auto.
  - intros I. destruct (connectURL y s) as [r l] eqn:C.
    destruct (connectURL_cases _ _ _ _ C) as [[_ ->]|[[D _]|[(_ & -> & _)|(p & D & _)]]].
    + destruct I.
    + destruct (Connect_events _ _ _ _ D _ I) as [X|[X|X]]; discriminate.
    + destruct I as [X|[]]. discriminate.
    + cbn in I. rewrite (surjective_pairing (connectFile y p)) in D. injection D as _ D. rewrite <- D in I.
      destruct (F p I) as (fmt & A & ->). exists p, fmt. split; auto. split; auto. discriminate.
  - intros [].
Qed.

(* An existing file is opened if the programs work. *)
Theorem go_file_opened y f fmt : stat y f = Exists -> info y f = Some fmt ->
  (fst (connect y f) = Opened <-> h_create y = true /\ h_meta y = true /\ h_connect y = true /\ h_size y = true).
Proof.
  intros S I. unfold connect. rewrite S. unfold connectFile. rewrite I. unfold ConnectFile.
  destruct (h_create y), (h_meta y), (h_connect y), (h_size y); cbn; intuition discriminate.
Qed.

(* The URL of a server is passed on as it is. *)
Theorem go_nbd_opened y sch u : (sch = lit "nbd" \/ sch = lit "nbd+unix") -> stat y u = NotExist -> authority_url y sch u ->
  h_create y = true -> h_meta y = true -> h_connect y = true -> h_size y = true ->
  connect y u = (Opened, [Create; Uri u]).
Proof.
  intros K S A C M N Z. unfold connect. rewrite S. destruct A as [a host path query].
  unfold connectURL.
  assert (K' : known sch) by (unfold known; tauto).
  rewrite (parse_scheme y sch a host path query path) by (auto using unescape_none).
  destruct K as [-> | ->]; cbn; unfold Connect; rewrite C, M, N, Z; reflexivity.
Qed.

Theorem go_https_opened y u : stat y u = NotExist -> authority_url y (lit "https") u ->
  connect y u = (Opened, [Https u]).
Proof.
  intros S A. unfold connect. rewrite S. destruct A as [a host path query].
  unfold connectURL.
  assert (K' : known (lit "https")) by (unfold known; tauto).
  rewrite (parse_scheme y (lit "https") a host path query path) by (auto using unescape_none).
  reflexivity.
Qed.

(* A file URL with a quoted path opens the file with this path, whatever bytes
   are in its name. *)
Theorem go_file_url y p : let u := lit "file://" ++ quoted (47 :: p) in
  Forall (fun c => 0 <= c < 256) p -> stat y u = NotExist -> stat y (47 :: p) = Exists ->
  connect y u = connect y (47 :: p).
Proof.
  intros u B S E. unfold connect. rewrite S, E. unfold u, connectURL.
  assert (B' : Forall (fun c => 0 <= c < 256) (47 :: p)) by (constructor; [lia|auto]).
  assert (P : parse y (lit "file" ++ lit "://" ++ [] ++ quoted (47 :: p) ++ []) = Some (lit "file", 47 :: p)).
  { apply parse_scheme; auto.
    - unfold known. tauto.
    - cbn. repeat (constructor; [left; reflexivity|]). constructor.
    - apply Forall_forall. intros c I. exact (proj1 (quoted_chars _ c B' I)).
    - intros I. apply (quoted_chars _ _ B') in I. lia.
    - apply unescape_quoted. exact B'.
    - right. exists (quoted p). reflexivity. }
  rewrite app_nil_r in P. change (lit "file" ++ lit "://" ++ [] ++ quoted (47 :: p)) with (lit "file://" ++ quoted (47 :: p)) in P.
  rewrite P. reflexivity.
Qed.

(* Anything else is an error, and nothing is run. *)
Theorem go_unsupported y s : stat y s = NotExist ->
  (forall sch, In sch [lit "nbd"; lit "nbd+unix"; lit "https"; lit "file"] -> ~ has_scheme sch s) ->
  connect y s = (Failed, []).
Proof.
  intros S N. unfold connect. rewrite S. destruct (connectURL y s) as [r l] eqn:C.
  destruct (connectURL_cases _ _ _ _ C) as [[-> ->]|[[_ [H|H]]|[(_ & _ & H)|(p & _ & H)]]]; auto; exfalso; revert H; apply N; cbn; auto.
Qed.

(* An opened image has at most one handle; a failure leaves none, if it is not
   the size that cannot be read. *)
Theorem go_handles_partial y s : (h_size y = true -> fst (connect y s) <> Opened -> handles (snd (connect y s)) = 0) /\
  0 <= handles (snd (connect y s)) <= 1.
Proof.
  assert (F : forall p, (h_size y = true -> fst (connectFile y p) <> Opened -> handles (snd (connectFile y p)) = 0) /\
     0 <= handles (snd (connectFile y p)) <= 1).
  { intros p. unfold connectFile. destruct (info y p) as [fmt|]; [|cbn; split; [auto|lia]]. unfold ConnectFile.
    destruct (h_create y), (h_meta y), (h_connect y), (h_size y); cbn; split; try lia; try discriminate; try congruence; auto. }
  unfold connect. destruct (stat y s); [apply F| |cbn; split; [auto|lia]].
  destruct (connectURL y s) as [r l] eqn:C. cbn.
  destruct (connectURL_cases _ _ _ _ C) as [[-> ->]|[[D _]|[(-> & -> & _)|(p & D & _)]]]; cbn.
  - split; [auto|lia].
  - revert D. unfold Connect.
    destruct (h_create y), (h_meta y), (h_connect y), (h_size y); cbn; intros D; injection D as <- <-; cbn;
      split; try lia; try discriminate; try congruence; auto.
  - split; [congruence|lia].
  - specialize (F p). rewrite D in F. exact F.
Qed.

(* ---- cases ---- *)

(* A system with the file disk.qcow2 and the file /a b, where all works. *)
Definition works (size_ok : bool) : sys :=
  Sys (fun f => if str_eqb f (lit "disk.qcow2") || str_eqb f (lit "/a b") || str_eqb f (lit "-r") || str_eqb f (lit "fd:1")
                then Exists else NotExist)
    (fun f => Some (lit "qcow2")) (fun _ => true) true true true size_ok.

(* The claim that a failure leaves no handle is false. *)
Theorem go_handle_leak_refuted : exists y s, fst (connect y s) = Failed /\ handles (snd (connect y s)) = 1.
Proof. exists (works false), (lit "disk.qcow2"). vm_compute. auto. Qed.

(* The name of an existing file need not be taken as a file by the qemu
   programs. *)
Theorem go_file_name_refuted : exists y f g, fst (connect y f) = Opened /\ fst (connect y g) = Opened /\
  stat y f = Exists /\ stat y g = Exists /\ In (Run (info_argv f)) (snd (connect y f)) /\
  qemu_operand (last (info_argv f) []) = MOption /\ In (Run (info_argv g)) (snd (connect y g)) /\
  qemu_operand (last (info_argv g) []) = MProtocol.
Proof.
  exists (works true), (lit "-r"), (lit "fd:1").
  repeat (split; [vm_compute; auto|]). vm_compute. reflexivity.
Qed.

(* It is, if it is an absolute path. *)
Theorem go_file_name_partial y f argv : stat y (47 :: f) = Exists ->
  In (Run argv) (snd (connect y (47 :: f))) \/ In (Activate argv) (snd (connect y (47 :: f))) ->
  qemu_operand (last argv []) = MFile (47 :: f).
Proof.
  intros S. unfold connect. rewrite S. destruct (connectFile y (47 :: f)) as [r l] eqn:C. cbn [snd].
  intros [I|I]; destruct (connectFile_events _ _ _ _ C _ I) as [X|[X|[X|(fmt & _ & X)]]]; try discriminate;
    injection X as ->; reflexivity.
Qed.

(* A file URL without slashes, or with a host, opens another file. *)
Theorem go_file_url_refuted : exists y,
  connect y (lit "file:disk.qcow2") = (Opened, [Run (info_argv []); Create; Activate (nbd_argv [] (lit "qcow2"))]) /\
  connect y (lit "file://disk.qcow2/x") = (Opened, [Run (info_argv (lit "/x")); Create; Activate (nbd_argv (lit "/x") (lit "qcow2"))]).
Proof. exists (works true). vm_compute. auto. Qed.

Example go_open_case :
  connect (works true) (lit "disk.qcow2") =
    (Opened, [Run (info_argv (lit "disk.qcow2")); Create; Activate (nbd_argv (lit "disk.qcow2") (lit "qcow2"))]) /\
  connect (works true) (lit "NBD://host:10809/x") = (Opened, [Create; Uri (lit "NBD://host:10809/x")]) /\
  connect (works true) (lit "nbd+unix:///?socket=/tmp/s") = (Opened, [Create; Uri (lit "nbd+unix:///?socket=/tmp/s")]) /\
  connect (works true) (lit "https://host:54322/images/x") = (Opened, [Https (lit "https://host:54322/images/x")]) /\
  connect (works true) (lit "file:///a%20b") = connect (works true) (lit "/a b") /\
  connect (works true) (lit "http://host/x") = (Failed, []) /\
  connect (works true) (lit "nodisk") = (Failed, []) /\
  quoted (lit "/a b") = lit "/a%20b".
Proof. repeat (split; [vm_compute; reflexivity|]). vm_compute. reflexivity. Qed.

(* The hypotheses of go_nbd_opened and go_https_opened. *)
Example authority_url_case :
  authority_url (works true) (lit "nbd+unix") (lit "nbd+unix:///?socket=/tmp/s") /\
  authority_url (works true) (lit "https") (lit "HTTPS://host:54322/images/x").
Proof.
  assert (V : forall s, forallb (fun c => (32 <=? c) && negb (c =? 127) && negb (c =? 35)) s = true -> Forall visible s).
  { intros s H. apply Forall_forall. intros c I. rewrite forallb_forall in H. specialize (H c I). unfold visible. lia. }
  assert (NI : forall c s, existsb (Z.eqb c) s = false -> ~ In c s).
  { intros c s H I. assert (T : existsb (Z.eqb c) s = true) by (apply existsb_exists; exists c; split; [exact I|apply Z.eqb_refl]). congruence. }
  split.
  - change (lit "nbd+unix:///?socket=/tmp/s") with (lit "nbd+unix" ++ lit "://" ++ [] ++ lit "/" ++ lit "?socket=/tmp/s").
    apply AuthorityUrl; try (apply V; reflexivity); try (apply NI; reflexivity); auto.
    + cbn. repeat (constructor; [left; reflexivity|]). constructor.
    + right. exists []. reflexivity.
    + right. eexists. reflexivity.
  - change (lit "HTTPS://host:54322/images/x") with (lit "HTTPS" ++ lit "://" ++ lit "host:54322" ++ lit "/images/x" ++ []).
    apply AuthorityUrl; try (apply V; reflexivity); try (apply NI; reflexivity); auto.
    + cbn. repeat (constructor; [right; lia|]). constructor.
    + right. eexists. reflexivity.
Qed.

(* The hypotheses of go_unsupported and go_file_url. *)
Example unsupported_case :
  stat (works true) (lit "http://host/x") = NotExist /\ ~ has_scheme (lit "https") (lit "http://host/x") /\
  stat (works true) (lit "file://" ++ quoted (lit "/a b")) = NotExist /\ stat (works true) (47 :: lit "a b") = Exists.
Proof.
  split; [reflexivity|]. split; [|split; reflexivity].
  intros (a & r & E & S).
  assert (K : forall x y (a b : str), Forall2 same_letter (x :: a) (y :: b) -> same_letter x y /\ Forall2 same_letter a b).
  { intros x y a' b H. inversion H; auto. }
  do 5 (destruct a as [|? a]; [inversion S|]; apply K in S as [? S]).
  inversion S; subst. cbn in E. injection E. intros. subst. unfold same_letter in *. lia.
Qed.

Print Assumptions go_opens_named.
Print Assumptions go_never_writes.
Print Assumptions go_file_opened.
Print Assumptions go_nbd_opened.
Print Assumptions go_https_opened.
Print Assumptions go_file_url.
Print Assumptions go_unsupported.
Print Assumptions go_handles_partial.
Print Assumptions go_handle_leak_refuted.
Print Assumptions go_file_name_refuted.
Print Assumptions go_file_name_partial.
Print Assumptions go_file_url_refuted.
