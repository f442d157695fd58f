(* Lemmas about the admin client. *)
From Coq Require Import ZArith Lia List Bool String.
From Verif Require Import UrlModel ControlModel ControlSpec ControlTheorems AdminModel AdminSpec.
Import ListNotations.
Open Scope Z_scope.

Lemma span_all (f : Z -> bool) s : Forall (fun c => f c = true) s -> UrlModel.span f s = (s, []).
Proof. induction 1 as [|c s F _ IH]; cbn; auto. rewrite F, IH. auto. Qed.

Lemma skip_app p s : skip p (p ++ s) = Some s.
Proof. induction p as [|c p IH]; cbn; auto. rewrite Z.eqb_refl. auto. Qed.

Lemma unquote_plain s : Forall (fun c => c <> 37) s -> unquote_bytes s = s.
Proof.
  induction 1 as [|c s N _ IH]; auto. cbn [unquote_bytes].
  destruct s as [|a [|b r]]; cbn in *; destruct c as [|c|c]; repeat (try (destruct c as [c|c|]); try congruence); auto.
Qed.

Section Admin.
Variable v : env.
Variable utf8 : list Z -> str.
Hypothesis ascii : keeps_ascii utf8.
Variable parse_query : str -> list (str * str).

(* A path without special characters arrives as it is. *)
Lemma path_arrives s : Forall plain_char s -> split_query s = (s, []) /\ unquote utf8 s = s.
Proof.
  intros P. split.
  - unfold split_query. rewrite span_all; auto. eapply Forall_impl; [|exact P]. unfold plain_char. cbn. intros c H.
    destruct (Z.eqb_spec c 63); cbn; lia.
  - unfold unquote. rewrite unquote_plain by (eapply Forall_impl; [|exact P]; unfold plain_char; cbn; lia).
    apply ascii. eapply Forall_impl; [|exact P]. unfold plain_char. cbn. lia.
Qed.

Lemma uri_plain id : Forall plain_char id -> Forall plain_char (ticket_uri id).
Proof. intros P. unfold ticket_uri. apply Forall_app. split; auto. repeat constructor; vm_compute; discriminate. Qed.

Lemma uri_sendable s : Forall plain_char s -> sendable s = true.
Proof.
  intros P. apply forallb_forall. rewrite Forall_forall in P. intros c I. specialize (P c I). unfold plain_char in P.
  apply andb_true_intro. split; apply Z.ltb_lt; lia.
Qed.

Definition to_request (m : verb) (id : str) (body : option json) : option ControlModel.request :=
  match m with
  | VGet => Some (Get id) | VPut => Some (Put id body) | VPatch => Some (Patch id body)
  | VDelete => Some (Delete id) | VPost => None
  end.

Lemma serve_ticket now unused m id body d r : Forall plain_char id -> to_request m id body = Some r ->
  serve v utf8 parse_query now unused m (ticket_uri id) body d =
  (fst (handle v now unused r (d_tickets d)), Daemon (snd (handle v now unused r (d_tickets d))) (d_profiler d)).
Proof.
  intros P R. destruct (path_arrives _ (uri_plain id P)) as (S & U). unfold serve. rewrite S, U.
  unfold ticket_uri. rewrite skip_app. rewrite span_all.
  2:{ eapply Forall_impl; [|exact P]. unfold plain_char. cbn. intros c H. unfold NEWLINE. destruct (Z.eqb_spec c 10); cbn; auto. lia. }
  cbn [fst]. unfold to_request in R. destruct m; try discriminate; injection R as <-;
    destruct (handle _ _ _ _ _); auto.
Qed.

Lemma request_ticket o m id body d r : Forall plain_char id -> to_request m id body = Some r ->
  request v utf8 parse_query o m (ticket_uri id) body d =
  match o with
  | NotSent => (inr ClientError, d)
  | Lost now unused => (inr ClientError, Daemon (snd (handle v now unused r (d_tickets d))) (d_profiler d))
  | Answered now unused => (inl (fst (handle v now unused r (d_tickets d))), Daemon (snd (handle v now unused r (d_tickets d))) (d_profiler d))
  end.
Proof.
  intros P R. unfold request. rewrite (uri_sendable _ (uri_plain id P)). cbn [negb].
  destruct o; auto; rewrite (serve_ticket _ _ _ _ _ _ _ P R); auto.
Qed.

End Admin.
