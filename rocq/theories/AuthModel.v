(* Model of the ticket store: ovirt_imageio/_internal/auth.py Authorizer and
   the attributes of Ticket used for authorization. *)
From Coq Require Import ZArith List Bool String.
Import ListNotations.
Open Scope Z_scope.

(* util.monotonic_time() (util.py) returns a float number of seconds.  Here
   time is an integer number of ticks, with [ticks] ticks per second.
   Simplification: float rounding is not modelled. *)
Definition ticks : Z := 1000000000.

(* int(util.monotonic_time()) in auth.py:33, 189, 277; the clock is not
   negative, so int() rounds down. *)
Definition int_time (now : Z) : Z := now / ticks.

(* Attributes used by auth.py:427-451. *)
Record ticket := Ticket {
  t_ops : list string;      (* auth.py:26 *)
  t_timeout : Z;            (* auth.py:28 *)
  t_expires : Z;            (* auth.py:34, 190, 278, in seconds *)
  t_canceled : bool         (* auth.py:69, 302 *)
}.

(* auth.py:392, self._tickets: dict from uuid to ticket. *)
Definition store := string -> option ticket.

(* dict assignment / deletion *)
(* Used for auth.py:394-418. *)
Definition set (s : store) (u : string) (t : option ticket) : store :=
  fun v => if String.eqb v u then t else s v.

(* auth.py:390-392, the dict of __init__. *)
Definition empty : store := fun _ => None.

(* auth.py:244-249, Ticket.may. *)
Definition may (ops : list string) (op : string) : bool :=
  if String.eqb op "read"
  then existsb (String.eqb "read") ops || existsb (String.eqb "write") ops
  else existsb (String.eqb op) ops.

(* What happens to the store. *)
(* The calls of auth.py:394-425 and of Ticket: 276-278 extend, 183-191 touch. *)
Inductive action :=
| Add (u : string) (ops : list string) (timeout : Z)  (* PUT /tickets/u *)
| Extend (u : string) (timeout : Z)                   (* PATCH /tickets/u *)
| Touch (u : string)      (* an operation ended, or OPTIONS /images/u *)
| Cancel (u : string)     (* DELETE /tickets/u started *)
| Remove (u : string)     (* DELETE /tickets/u: cancel returned True *)
| Clear.                  (* DELETE /tickets/ *)

(* One action at time [now].  Simplification: all the actions are atomic,
   races between them are in AuthRaceModel.v. *)
Definition act (s : store) (now : Z) (a : action) : store :=
  match a with
  | Add u ops timeout =>
      (* auth.py:394-401 with 26-34: a ticket with the same uuid is replaced *)
      set s u (Some (Ticket ops timeout (int_time now + timeout) false))
  | Extend u timeout =>
      (* handlers/tickets.py:71-79, auth.py:276-278 *)
      match s u with
      | Some t => set s u (Some (Ticket (t_ops t) (t_timeout t)
                                        (int_time now + timeout) (t_canceled t)))
      | None => s
      end
  | Touch u =>
      (* auth.py:183-191 *)
      match s u with
      | Some t => set s u (Some (Ticket (t_ops t) (t_timeout t)
                                        (int_time now + t_timeout t) (t_canceled t)))
      | None => s
      end
  | Cancel u =>
      (* auth.py:299-302 *)
      match s u with
      | Some t => set s u (Some (Ticket (t_ops t) (t_timeout t) (t_expires t) true))
      | None => s
      end
  | Remove u =>
      (* auth.py:403-415 *)
      set s u None
  | Clear =>
      (* auth.py:417-418 *)
      empty
  end.

(* A history of timed actions, oldest first. *)
(* No code: any sequence of these calls (auth.py:388-451). *)
Definition history := list (Z * action).

(* No code: any sequence of these calls (auth.py:388-451). *)
Definition run (h : history) : store :=
  fold_left (fun s na => act s (fst na) (snd na)) h empty.

(* The outcomes of auth.py:427-451. *)
Inductive auth_result :=
| Granted
| NoSuchTicket | WasCanceled | Expired | Forbidden.  (* AuthorizationError *)

(* auth.py:427-451, Authorizer.authorize. *)
Definition authorize (s : store) (now : Z) (u op : string) : auth_result :=
  match s u with
  | None => NoSuchTicket
  | Some t =>
      if t_canceled t then WasCanceled
      else if t_expires t * ticks <=? now then Expired
      else if negb (may (t_ops t) op) then Forbidden
      else Granted
  end.
