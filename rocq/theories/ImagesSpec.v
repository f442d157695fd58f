(* What is expected from requests for image data. *)
From Coq Require Import ZArith List Bool Ascii String.
From Verif Require Import BytesLib HeaderModel HeaderSpec HttpModel OpsModel OpsTheorems ImagesModel.
Import ListNotations.
Open Scope Z_scope.

(* Byte number i of an image, if there is one. *)
Definition byte_at (img : list byte) (i : Z) : option byte :=
  if (0 <=? i) && (i <? zlen img) then Some (getb img i) else None.

(* What the code relies on when a backend is opened (buffer_size is checked to
   be positive nowhere; its default is 8 MiB). *)
Definition good_backend (v : ienv) : Prop :=
  forall bs buf, i_open v = Backend bs buf -> 0 < bs /\ bs <= zlen buf /\ zlen buf mod bs = 0.

(* The ticket gives access of kind op to [0, size). *)
Definition access (v : ienv) (q : ireq) (op : string) (size : Z) : Prop :=
  i_auth v (q_id q) op = Some size.

(* The ticket does not give this access, or was canceled when the backend was
   opened (AuthorizationError from Ticket.add_context). *)
Definition no_access (v : ienv) (q : ireq) (op : string) : Prop :=
  i_auth v (q_id q) op = None \/ i_open v = NoBackend true.

(* Operations are canceled only by Ticket.cancel, which marks the ticket first
   (auth.py:299-310), so that an operation canceled before it ends finds the
   ticket canceled in _remove_operation. *)
Definition cancel_consistent (v : ienv) : Prop :=
  i_canceled v = false ->
  (forall i, wo_cancel (i_write v) i = false) /\ (forall i, ra_cancel (i_read v i) = false).

(* The operation reads or writes only inside of [0, limit). *)
Definition op_inside (limit : Z) (o : operation) : Prop :=
  match o with
  | OpRead offset size | OpWrite offset size _ | OpZero offset size _ =>
      0 <= offset /\ 0 <= size /\ offset + size <= limit
  | OpFlush => True
  end.

(* The first byte a GET request asks for. *)
Definition asks_from (q : ireq) (n : Z) : Prop :=
  match q_range q with
  | None => n = 0
  | Some h => exists f h', (h = h' \/ h = h' ++ [ascii_of_N 10]) /\ range_form h' f /\
                           match f with From m => n = m | FromTo m _ => n = m | Suffix m => n = 0 end
  end.

(* The client asks to close the connection. *)
Definition asks_to_close (q : ireq) : Prop :=
  lookup (q_query q) (lits "close") = Some (lits "y").

(* Member name of a message is the integer n, or is missing and n is the
   default.  (For the server true is 1 and false is 0.) *)
Definition int_member (msg : list (str * json)) (name : string) (default : option Z) (n : Z) : Prop :=
  0 <= n /\
  match lookup msg (lits name) with
  | None => default = Some n
  | Some v => v = JInt n \/ (v = JBool true /\ n = 1) \/ (v = JBool false /\ n = 0)
  end.

(* Member name of a message is true; or it is missing, or false. *)
Definition flag_member (msg : list (str * json)) (name : string) (b : bool) : Prop :=
  match lookup msg (lits name) with
  | None => b = false
  | Some v => v = JBool b
  end.

(* The request fails with a status, without any effect on the image. *)
Definition nothing_done (img : list byte) (a : answer) (status : Z) : Prop :=
  a_err a = Some (EHttp status) /\ a_img a = img /\ a_sent a = [] /\ a_log a = [] /\
  a_op a = None /\ a_length a = None /\ a_crange a = None.

(* A reason to answer 403: no access, or the ticket was canceled before the
   operation was added to it, or before it was removed. *)
Definition forbidden (v : ienv) (q : ireq) (op : string) : Prop :=
  no_access v q op \/ i_refused v = true \/ i_canceled v = true.

(* The same environment, the ticket is not canceled. *)
Definition not_canceled (v : ienv) : ienv :=
  IEnv (i_lim v) (i_auth v) (i_open v) false (i_canceled v) (i_read v) (i_write v) (i_fuel v).
