From Coq Require Import List Bool Arith Lia.
From Verif Require Import SessionModel SessionSpec SessionProofs.
Import ListNotations.

(* ---- C85: the connection of an NBD client ---- *)

Lemma session_cases sys hs us raises r w : calm sys -> session sys hs us raises start = (r, w) ->
  (exists e wi, init sys hs start = (inr e, wi) /\ w = wi /\ r = inr e /\ w_open w = false /\
     (w_log w = [] \/ w_log w = [ECreate; EClose] \/ Dead MAbort w)) \/
  (exists wi x w1, init sys hs start = (inl tt, wi) /\ body sys us raises wi = (x, w1) /\ (exists h, Dead (MDisc h) w) /\
     match x with
     | inl _ => r = inl tt \/ r = inr XSocket
     | inr e => r = inr e \/ r = inr XAttribute
     end /\ (after_calls sys w1 -> r = match x with inl _ => inl tt | inr e => inr e end)).
Proof.
  intros K E. unfold session, bind in E. destruct (init sys hs start) as [i wi] eqn:I.
  destruct (init_ok sys hs _ _ _ K I eq_refl eq_refl) as [(-> & L)|((e & ->) & O & D)].
  2:{ injection E as <- <-. left. exists e, wi. auto 10. }
  right. destruct (body sys us raises wi) as [x w1] eqn:B. exists wi, x, w1. split; auto. split; auto.
  apply body_ok in B; auto; [|left; auto].
  destruct x as [u|e]; unfold exit_ in E; destruct (close sys w1) as [c w2] eqn:C; apply close_mid in C as (C1 & C2 & C3); auto.
  - destruct C2 as [-> | ->]; injection E as <- <-; (split; [auto|split; [auto|]]); intros A; auto.
  - destruct C2 as [-> | ->]; injection E as <- <-; (split; [auto|split; [auto|]]); intros A; auto. apply C3 in A. discriminate.
Qed.

(* After a session, whatever was done and failed in it, the socket is closed:
   it was never created, or it was closed once, at the end. *)
Theorem session_closes_the_socket :
  forall sys hs us raises r w, calm sys -> session sys hs us raises start = (r, w) ->
  w_open w = false /\ (w_log w = [] \/ closed_once (w_log w)).
Proof.
  intros sys hs us raises r w K E.
  apply session_cases in E as [(e & wi & _ & _ & _ & O & [L|[L|D]])|(wi & x & w1 & _ & _ & (h & D) & _)]; auto.
  - split; auto. right. exists []. rewrite L. auto.
  - split; auto. right. apply D.
  - split; [apply D|]. right. apply D.
Qed.
Print Assumptions session_closes_the_socket.

(* The server is told when the session ends, once, and nothing is sent after
   it: by CMD_DISC if a client was created, else by OPT_ABORT if the server was
   connected. *)
Theorem session_says_goodbye :
  forall sys hs us raises r w, calm sys -> session sys hs us raises start = (r, w) ->
  (fst (init sys hs start) = inl tt -> exists h, ended_by (MDisc h) (w_log w)) /\
  (fst (init sys hs start) <> inl tt ->
     (forall e, In e (w_log w) -> ~ sending e) \/ ended_by MAbort (w_log w)).
Proof.
  intros sys hs us raises r w K E.
  apply session_cases in E as [(e & wi & -> & _ & _ & O & D)|(wi & x & w1 & -> & _ & (h & D) & _)]; auto; cbn [fst].
  - split; [discriminate|]. intros _. destruct D as [L|[L|D]].
    + left. rewrite L. intros _ [].
    + left. rewrite L. intros e1 [<-|[<-|[]]] [].
    + right. apply D.
  - split; [|congruence]. intros _. exists h. apply D.
Qed.
Print Assumptions session_says_goodbye.

(* A session succeeds only if the client was created and the code using it did
   not raise.  Exceptions of creating it are raised; an exception of the code
   using the client is raised if closing the client does not fail. *)
Theorem session_errors :
  forall sys hs us raises r w, calm sys -> session sys hs us raises start = (r, w) ->
  (forall e, fst (init sys hs start) = inr e -> r = inr e) /\
  (forall wi e w1, init sys hs start = (inl tt, wi) -> body sys us raises wi = (inr e, w1) ->
     r <> inl tt /\ ((forall n, w_call w1 <= n -> sys n = None) -> r = inr e)) /\
  (forall wi w1, init sys hs start = (inl tt, wi) -> body sys us raises wi = (inl tt, w1) ->
     (forall n, w_call w1 <= n -> sys n = None) -> r = inl tt).
Proof.
  intros sys hs us raises r w K E.
  apply session_cases in E as [(e & wi & -> & -> & -> & O & D)|(wi & x & w1 & -> & B & (h & D) & R & A)]; auto; cbn [fst].
  - split; [congruence|]. split; intros; congruence.
  - split; [intros; congruence|]. split.
    + intros wi' e w1' [= <-] B'. rewrite B' in B. injection B as <- <-. split; [destruct R as [-> | ->]; discriminate|exact A].
    + intros wi' w1' [= <-] B'. rewrite B' in B. injection B as <- <-. exact A.
Qed.
Print Assumptions session_errors.

(* Closing a client again does nothing. *)
Theorem close_again :
  forall sys hs us raises r w, calm sys -> session sys hs us raises start = (r, w) ->
  fst (init sys hs start) = inl tt -> close sys w = (inl tt, w).
Proof.
  intros sys hs us raises r w K E I.
  apply session_cases in E as [(e & wi & H & _)|(wi & x & w1 & H & _ & (h & D) & _)]; auto; rewrite H in I; [discriminate|].
  destruct (close sys w) as [y w2] eqn:C. eapply close_dead in C as (-> & ->); eauto.
Qed.
Print Assumptions close_again.

(* ---- examples ---- *)

Definition fine : nat -> option exc := fun _ => None.
Definition broken (k : nat) (e : exc) : nat -> option exc := fun n => if n =? k then Some e else None.

Example session_ex :
  calm fine /\
  session fine [Receives; Sends 1; Receives] [UCommand [Sends 2; Receives]; UClose; UTry [Sends 3]] None start
    = (inl tt, W false [ECreate; ESend (MData 1) true; ESend (MData 2) true; ESend (MDisc 1) true; EShutdown; EClose] 10 CLOSED 3).
Proof. split; [intros n; discriminate|reflexivity]. Qed.

(* The handshake fails, connecting fails, and sending CMD_DISC fails. *)
Example failing_ex :
  calm (broken 4 XError) /\
  session (broken 4 XError) [Receives; Sends 1; Receives] [] None start
    = (inr XError, W false [ECreate; ESend (MData 1) true; ESend MAbort true; EShutdown; EClose] 8 CLOSED 0) /\
  session (broken 1 XSocket) [] [] None start = (inr XSocket, W false [ECreate; EClose] 3 CONNECTING 0) /\
  session (broken 2 XSocket) [] [] None start
    = (inl tt, W false [ECreate; ESend (MDisc 0) false; EShutdown; EClose] 5 CLOSED 1).
Proof. split; [intros n; unfold broken; destruct (n =? 4); discriminate|]. repeat split. Qed.

(* ---- findings ---- *)

(* "Don't hide excpetions in user code" (nbd.py:1252): if closing fails too,
   AttributeError is raised instead of the exception of the code. *)
Theorem exception_of_user_code_refuted :
  exists sys hs us e, calm sys /\
    (exists wi w1, init sys hs start = (inl tt, wi) /\ body sys us (Some e) wi = (inr e, w1)) /\
    fst (session sys hs us (Some e) start) = inr XAttribute /\ e <> XAttribute.
Proof.
  exists (broken 4 XSocket), [], [], XError.
  split; [intros n; unfold broken; destruct (n =? 4); discriminate|].
  split; [do 2 eexists; split; reflexivity|]. split; [reflexivity|discriminate].
Qed.
Print Assumptions exception_of_user_code_refuted.

(* ProtocolError is documented as "failing entire connection" (nbd.py:1132), but
   the connection stays in use: the next command is sent. *)
Theorem failed_connection_is_closed_refuted :
  exists sys hs l1 l2 n w, calm sys /\
    (exists wi w1, init sys hs start = (inl tt, wi) /\ command sys l1 wi = (inr XError, w1)) /\
    session sys hs [UTry l1; UCommand l2] None start = (inl tt, w) /\
    l2 = [Sends n] /\ In (ESend (MData n) true) (w_log w).
Proof.
  exists (broken 3 XError), [], [Sends 1; Receives], [Sends 2], 2,
    (snd (session (broken 3 XError) [] [UTry [Sends 1; Receives]; UCommand [Sends 2]] None start)).
  split; [intros n; unfold broken; destruct (n =? 3); discriminate|].
  split; [do 2 eexists; split; reflexivity|]. split; [vm_compute; reflexivity|]. split; [reflexivity|]. vm_compute. auto.
Qed.
Print Assumptions failed_connection_is_closed_refuted.

(* If sending CMD_DISC is interrupted, the socket is left open. *)
Theorem interrupted_close_refuted :
  exists sys hs w, session sys hs [] None start = (inr XBase, w) /\ w_open w = true.
Proof. exists (broken 2 XBase), [], (snd (session (broken 2 XBase) [] [] None start)). split; vm_compute; reflexivity. Qed.
Print Assumptions interrupted_close_refuted.
