(* What is expected from the HTTP server, independent of its helpers. *)
From Coq Require Import ZArith List Bool Ascii String.
From Verif Require Import BytesLib HeaderModel HttpModel.
Import ListNotations.
Open Scope Z_scope.

(* The length a client declares: a missing header declares no body. *)
Inductive declares (lim : option Z) : option str -> Z -> Prop :=
| no_header : declares lim None 0
| header v n : content_length lim (Some v) = inl (Some n) -> declares lim (Some v) n.

(* The program makes no call that reads the body. *)
Fixpoint no_reads (p : prog) : Prop :=
  match p with
  | Call (ARead _) _ | Call (AReadInto _) _ => False
  | Call _ k => forall r, no_reads (k r)
  | _ => True
  end.

(* The program never asks for a negative number of bytes, and does not read
   again after a failed read. *)
Fixpoint careful (p : prog) : Prop :=
  match p with
  | Call (ARead n) k =>
      (forall m, n = Some m -> 0 <= m)
      /\ (forall x, careful (k (inl x))) /\ (forall e, no_reads (k (inr e)))
  | Call (AReadInto n) k =>
      (forall x, careful (k (inl x))) /\ (forall e, no_reads (k (inr e)))
  | Call _ k => forall r, careful (k r)
  | _ => True
  end.

(* The bytes of the body the program gets, in order. *)
Fixpoint delivered (v : env) (h : head) (p : prog) (s : st) : list byte :=
  match p with
  | Call a k =>
      let '(s', r) := run_act v h a s in
      match a, r with
      | ARead _, inl (VBytes d) | AReadInto _, inl (VBytes d) => d
      | _, _ => []
      end ++ delivered v h (k r) s'
  | _ => []
  end.

(* Exactly one complete response: a head and as many bytes as it declares. *)
Definition data_of (e : event) : list byte := match e with Data d => d | _ => [] end.
Definition is_data (e : event) : Prop := match e with Data _ => True | _ => False end.
Definition one_response (l : list event) : Prop :=
  exists code len close datas,
    l = Head code len close :: datas /\ Forall is_data datas
    /\ zlen (flat_map data_of datas) = len.

(* Number of status lines sent before the first failure of the socket. *)
Fixpoint status_lines (l : list event) : nat :=
  match l with
  | [] => 0
  | Broken :: _ => 0
  | Head _ _ _ :: r => S (status_lines r)
  | Data _ :: r => status_lines r
  end.

(* A handler does its part for a body of n bytes: it is careful, and when it
   returns (the client having sent the body) it has read it, and has either
   sent a complete response or left the default empty one. *)
Definition all_read (n : Z) (s : st) : Prop :=
  match s_len s with Known (Some m) => m = 0 | _ => n = 0 end.
Definition does_its_part (v : env) (h : head) (n : Z) (p : prog) : Prop :=
  careful p /\
  forall k rest s, n <= zlen rest ->
    run v h p (start k h rest) = (s, inl tt) ->
    all_read n s /\
    (if s_started s then one_response (s_out s) else s_rlen s = 0).

(* A stream of requests: heads with encodings and bodies. *)
Record request := Request {
  q_head : head;
  q_text : list byte;     (* request line and header *)
  q_body : list byte
}.
Definition stream (l : list request) : list byte :=
  flat_map (fun q => q_text q ++ q_body q) l.

(* The parser of Python's http/server.py reads exactly the head. *)
Definition parses (parse : list byte -> parsed) (q : request) : Prop :=
  forall rest, parse (q_text q ++ rest) = PRequest (q_head q) rest.

(* The first route matching a path, and the groups matched. *)
Fixpoint first_route (l : list (pattern * service_handler)) (path : str)
  : option (service_handler * list str) :=
  match l with
  | [] => None
  | (p, x) :: l =>
      match pat_match p path with
      | Some g => Some (x, g)
      | None => first_route l path
      end
  end.

(* An id in a path: no slash, no newline. *)
Definition plain (s : str) : Prop :=
  Forall (fun c => c <> "/"%char /\ c <> ascii_of_N 10) s.

Definition starts_with (p s : str) : Prop := exists r, s = p ++ r.

(* The status an error is reported with. *)
Definition status_of (e : exc) : Z := match e with EHttp c => c | _ => 500 end.

(* No write to the socket fails, and the client is connected. *)
Definition healthy (v : env) : Prop :=
  (forall i, e_write v i = None) /\ (forall i, e_lost v i = false).

(* The API of the services: which methods of which resource each one serves. *)
Inductive service := RemoteService | LocalService | ControlService.
Definition image_api : list (service_handler * string) :=
  [(HImages, "GET"); (HImages, "PUT"); (HImages, "PATCH"); (HImages, "OPTIONS");
   (HExtents, "GET"); (HChecksum, "GET"); (HAlgorithms, "GET")]%string.
Definition api (s : service) : list (service_handler * string) :=
  match s with
  | RemoteService => (HInfo, "GET"%string) :: image_api
  | LocalService => image_api
  | ControlService =>
      [(HTickets, "GET"); (HTickets, "PUT"); (HTickets, "PATCH"); (HTickets, "DELETE");
       (HProfile, "GET"); (HProfile, "POST")]%string
  end.
(* Where the resources are; the groups are the arguments of the handler.
   Patterns are not anchored: more may follow. *)
Definition resource (x : service_handler) (path : str) (args : list str) : Prop :=
  exists rest,
  match x with
  | HImages => exists id, path = list_ascii_of_string "/images/" ++ id ++ rest /\ args = [id]
  | HExtents => exists id, path = list_ascii_of_string "/images/" ++ id ++ list_ascii_of_string "/extents" ++ rest /\ args = [id]
  | HChecksum => exists id, path = list_ascii_of_string "/images/" ++ id ++ list_ascii_of_string "/checksum" ++ rest /\ args = [id]
  | HAlgorithms => exists id,
      path = list_ascii_of_string "/images/" ++ id ++ list_ascii_of_string "/checksum/algorithms" ++ rest /\ args = [id]
  | HTickets => exists id, path = list_ascii_of_string "/tickets/" ++ id ++ rest /\ args = [id]
  | HInfo => path = list_ascii_of_string "/info/" ++ rest /\ args = []
  | HProfile => path = list_ascii_of_string "/profile/" ++ rest /\ args = []
  end.
