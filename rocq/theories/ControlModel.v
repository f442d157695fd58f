(* The control API: ticket descriptions, the ticket store, the /tickets/
   handler; one request at a time (races are in AuthRaceModel.v).
   Paths are relative to /repo/ovirt_imageio/_internal. *)
From Coq Require Import ZArith List Bool String.
From Verif Require Import UrlModel.
Import ListNotations.
Open Scope Z_scope.

(* A value loaded from JSON. An object is a list of pairs with different keys
   (json.loads() keeps the last of equal keys). Floats are opaque. *)
(* For json.loads in handlers/tickets.py:37-79. *)
Inductive json :=
| JNull
| JBool (b : bool)
| JInt (n : Z)
| JFloat (id : Z)
| JStr (s : str)
| JList (l : list json)
| JObj (d : list (str * json)).

(* Python semantics, no line of /repo. *)
Definition str_eqb (a b : str) : bool := if list_eq_dec Z.eq_dec a b then true else false.
(* Python semantics, no line of /repo. *)
Fixpoint lookup {A} (k : str) (d : list (str * A)) : option A :=
  match d with
  | [] => None
  | (k', x) :: r => if str_eqb k k' then Some x else lookup k r
  end.

(* The types used in checks; isinstance(value, type): True and False are
   instances of int. *)
(* For auth.py:369-385 and validate.py:25-46. *)
Inductive type := Tstr | Tint | Tlist | Tbool.
(* For auth.py:369-385 and validate.py:25-46. *)
Definition isinstance (v : json) (t : type) : bool :=
  match v, t with
  | JStr _, Tstr | JInt _, Tint | JBool _, Tint | JBool _, Tbool | JList _, Tlist => true
  | _, _ => false
  end.
(* A value in arithmetic: True is 1. *)
(* Python semantics, for auth.py:19-78 and validate.py:34-46. *)
Definition as_int (v : json) : Z :=
  match v with JInt n => n | JBool true => 1 | _ => 0 end.

(* errors.py:19-36, all InvalidTicket *)
Inductive invalid := NotADict | Missing (key : str) | BadValue (key : str).

(* auth.py:369-385 _required, _optional, _validate *)
Definition validate (key : str) (v : json) (t : type) : json + invalid :=
  if isinstance v t then inl v else inr (BadValue key).
Definition required (d : list (str * json)) (key : str) (t : type) : json + invalid :=
  match lookup key d with
  | None => inr (Missing key)
  | Some v => validate key v t
  end.
Definition optional (d : list (str * json)) (key : str) (t : type) (default : json) : json + invalid :=
  match lookup key d with
  | None => inl default
  | Some v => validate key v t
  end.

(* How transfers use the ticket: auth.py:62, 65, 73. Only what info() shows. *)
Record usage := Usage {
  u_ongoing : nat;                 (* len(_ongoing) *)
  u_connections : nat;             (* len(_connections) *)
  u_transferred : Z                (* the sum of transferred(), 227-242 *)
}.

(* auth.py:19-77 the attributes of a ticket. *)
Record ticket := Ticket {
  t_uuid : json;
  t_size : json;
  t_ops : json;
  t_timeout : json;
  t_inactivity : json;
  t_expires : Z;
  t_access : Z;
  t_url : json;
  t_transfer_id : json;
  t_filename : json;
  t_sparse : json;
  t_dirty : json;
  t_canceled : bool;
  t_usage : usage
}.

(* For auth.py:19-78: a value that was checked to be a str. *)
Definition text (v : json) : str := match v with JStr s => s | _ => [] end.

(* The environment: checks of netloc by urlparse() (see UrlModel.v), urlunparse()
   of the parsed URL, the default of the configuration (config.py:22), and the
   timeout for removing (config.py:169). *)
Record env := Env {
  e_netloc_ok : str -> bool;
  e_unparse : str -> str;
  e_inactivity : Z;
  e_remove_timeout : Z
}.

(* backends/__init__.py:15-20, 69-70 supports *)
Definition supports (scheme : str) : bool :=
  existsb (str_eqb scheme) [lit "file"; lit "http"; lit "https"; lit "nbd"].

Notation "'do' x <- m ; f" := (match m with inl x => f | inr e => inr e end)
  (at level 200, x name, m at level 100, f at level 200).

(* auth.py:19-77 Ticket.__init__; now is int(util.monotonic_time()) *)
Definition new_ticket (v : env) (now : Z) (description : json) : ticket + invalid :=
  match description with
  | JObj d =>
      do uuid <- required d (lit "uuid") Tstr ;
      do size <- required d (lit "size") Tint ;
      do ops <- required d (lit "ops") Tlist ;
      do timeout <- required d (lit "timeout") Tint ;
      do inactivity <- optional d (lit "inactivity_timeout") Tint (JInt (e_inactivity v)) ;
      do url <- required d (lit "url") Tstr ;
      match urlparse (e_netloc_ok v) (text url) with
      | None => inr (BadValue (lit "url"))
      | Some p =>
          if negb (supports (p_scheme p)) then inr (BadValue (lit "url"))
          else
            do transfer_id <- optional d (lit "transfer_id") Tstr JNull ;
            let transfer_id := match transfer_id with
                               | JNull => JStr (lit "(ticket/" ++ firstn 18 (text uuid) ++ lit ")")
                               | x => x
                               end in
            do filename <- optional d (lit "filename") Tstr JNull ;
            do sparse <- optional d (lit "sparse") Tbool (JBool false) ;
            do dirty <- optional d (lit "dirty") Tbool (JBool false) ;
            inl (Ticket uuid size ops timeout inactivity (now + as_int timeout) now url
                        transfer_id filename sparse dirty false (Usage 0 0 0))
      end
  | _ => inr NotADict
  end.

(* auth.py:388-392 the tickets by uuid. *)
Definition store := list (str * ticket).
Definition drop_key {A} (k : str) (s : list (str * A)) : list (str * A) :=
  filter (fun p => negb (str_eqb k (fst p))) s.
Definition set_key {A} (k : str) (x : A) (s : list (str * A)) : list (str * A) := (k, x) :: drop_key k s.

(* auth.py:251-274 Ticket.info; now as above *)
Definition is_true (v : json) : bool := match v with JStr (_ :: _) => true | _ => false end.
Definition info (v : env) (now : Z) (t : ticket) : json :=
  let active := match u_ongoing (t_usage t) with O => false | _ => true end in
  JObj
   ([(lit "active", JBool active);
     (lit "canceled", JBool (t_canceled t));
     (lit "connections", JInt (Z.of_nat (u_connections (t_usage t))));
     (lit "expires", JInt (t_expires t));
     (lit "idle_time", JInt (if active then 0 else now - t_access t));      (* 123-130 *)
     (lit "inactivity_timeout", t_inactivity t);
     (lit "ops", t_ops t);
     (lit "size", t_size t);
     (lit "sparse", t_sparse t);
     (lit "dirty", t_dirty t);
     (lit "timeout", t_timeout t);
     (lit "url", JStr (e_unparse v (text (t_url t))));
     (lit "uuid", t_uuid t)]
    ++ (if is_true (t_transfer_id t) then [(lit "transfer_id", t_transfer_id t)] else [])
    ++ (if is_true (t_filename t) then [(lit "filename", t_filename t)] else [])
    ++ (match t_ops t with
        | JList (_ :: _ :: _) => []                                         (* 231-233 *)
        | _ => [(lit "transferred", JInt (u_transferred (t_usage t)))]
        end)).

(* Requests of the handler. A body is None when json.loads() raises
   ValueError; RecursionError is not modelled. *)
(* handlers/tickets.py:23-109. *)
Inductive request :=
| Get (id : str)
| Put (id : str) (body : option json)
| Patch (id : str) (body : option json)
| Delete (id : str).
(* handlers/tickets.py:23-109. *)
Record response := Response { status : Z; body : option json }.

(* validate.py:25-46 integer(d, name, minval=0); an exception other than
   http.Error is reported as 500 by http.py:806-818 *)
Definition validate_timeout (patch : json) : Z + Z :=
  match patch with
  | JObj d =>
      match lookup (lit "timeout") d with
      | None => inr 400
      | Some v => if isinstance v Tint then if as_int v <? 0 then inr 400 else inl (as_int v)
                  else inr 400
      end
  | _ => inr 500                   (* TypeError *)
  end.

(* handlers/tickets.py. now: int(util.monotonic_time()); unused: whether
   _unused is set before the timeout of cancel(), auth.py:323. *)
Definition handle (v : env) (now : Z) (unused : bool) (r : request) (s : store) : response * store :=
  match r with
  (* 23-35 *)
  | Get [] => (Response 400 None, s)
  | Get id =>
      match lookup id s with
      | None => (Response 404 None, s)
      | Some t => (Response 200 (Some (info v now t)), s)
      end
  (* 37-55 *)
  | Put [] _ => (Response 400 None, s)
  | Put _ None => (Response 400 None, s)
  | Put _ (Some d) =>
      match new_ticket v now d with                                        (* auth.py:394-401 *)
      | inl t => (Response 200 None, set_key (text (t_uuid t)) t s)
      | inr _ => (Response 400 None, s)
      end
  (* 57-79 *)
  | Patch [] _ => (Response 400 None, s)
  | Patch _ None => (Response 400 None, s)
  | Patch id (Some p) =>
      match validate_timeout p with
      | inr code => (Response code None, s)
      | inl timeout =>
          match lookup id s with
          | None => (Response 404 None, s)
          | Some t =>                                                       (* auth.py:276-278 *)
              (Response 200 None,
               set_key id (Ticket (t_uuid t) (t_size t) (t_ops t) (t_timeout t) (t_inactivity t)
                             (now + timeout) (t_access t) (t_url t) (t_transfer_id t)
                             (t_filename t) (t_sparse t) (t_dirty t) (t_canceled t) (t_usage t)) s)
          end
      end
  (* 81-109 *)
  | Delete [] => (Response 204 None, [])                                    (* auth.py:417-418 *)
  | Delete id =>
      match lookup id s with
      | None => (Response 204 None, s)
      | Some t =>
          (* auth.py:403-415, 280-339 *)
          let t' := Ticket (t_uuid t) (t_size t) (t_ops t) (t_timeout t) (t_inactivity t)
                      (t_expires t) (t_access t) (t_url t) (t_transfer_id t)
                      (t_filename t) (t_sparse t) (t_dirty t) true (t_usage t) in
          match u_ongoing (t_usage t) with
          | O => (Response 204 None, drop_key id s)
          | _ =>
              if e_remove_timeout v =? 0 then (Response 204 None, set_key id t' s)
              else if unused then (Response 204 None, drop_key id s)
              else (Response 409 None, set_key id t' s)
          end
      end
  end.

(* What transfers do to a ticket between requests: the usage changes, the end of
   an operation touches the ticket, auth.py:183-191, 201-222. *)
Inductive event :=
| Request (r : request) (unused : bool)
| Use (id : str) (u : usage)
| Touch (id : str).
Definition happens (v : env) (now : Z) (e : event) (s : store) : option response * store :=
  match e with
  | Request r unused => let (a, s') := handle v now unused r s in (Some a, s')
  | Use id u =>
      (None, match lookup id s with
             | None => s
             | Some t => set_key id (Ticket (t_uuid t) (t_size t) (t_ops t) (t_timeout t) (t_inactivity t)
                             (t_expires t) (t_access t) (t_url t) (t_transfer_id t)
                             (t_filename t) (t_sparse t) (t_dirty t) (t_canceled t) u) s
             end)
  | Touch id =>
      (None, match lookup id s with
             | None => s
             | Some t => set_key id (Ticket (t_uuid t) (t_size t) (t_ops t) (t_timeout t) (t_inactivity t)
                             (now + as_int (t_timeout t)) now (t_url t) (t_transfer_id t)
                             (t_filename t) (t_sparse t) (t_dirty t) (t_canceled t) (t_usage t)) s
             end)
  end.
