(* The admin client and the ovirt-imageioctl tool, over the control service:
   admin/_api.py, admin/tool.py, _internal/handlers/profile.py, with the ticket
   handler of ControlModel.v.  Other paths are relative to
   /repo/ovirt_imageio/_internal.  Texts are lists of code points.  Simplified:
   JSON values are sent as values (json.loads undoes json.dumps), the texts of
   errors are left out. *)
From Coq Require Import ZArith List Bool String.
From Verif Require Import UrlModel ControlModel.
Import ListNotations.
Open Scope Z_scope.

(* ---- the server ---- *)

(* The profiler of the process: yappi, a module or None (profile.py:7-10), and
   if it runs, with which clock; [y_saved] counts the profiles written. *)
Record profiler := Profiler { y_installed : bool; y_running : option str; y_saved : nat }.

(* The state of the daemon behind the control service: the tickets of auth.py
   (see ControlModel.v) and the profiler of handlers/profile.py. *)
Record daemon := Daemon { d_tickets : store; d_profiler : profiler }.

(* validate.py:7-22 enum *)
Definition enum (d : list (str * str)) (name : str) (values : list str) (default : option str) : str + Z :=
  match lookup name d with
  | None => match default with Some x => inl x | None => inr 400 end
  | Some x => if existsb (str_eqb x) values then inl x else inr 400
  end.

(* handlers/profile.py:28-41, 50-70 post.  Simplified: yappi does not fail, the
   profile can be written. *)
Definition profile_post (query : list (str * str)) (p : profiler) : response * profiler :=
  if negb (y_installed p) then (Response 404 None, p)                       (* 32-33 *)
  else match enum query (lit "run") [lit "y"; lit "n"] None with
  | inr code => (Response code None, p)
  | inl run =>
      if str_eqb run (lit "y") then
        match enum query (lit "clock") [lit "cpu"; lit "wall"] (Some (lit "cpu")) with
        | inr code => (Response code None, p)
        | inl clock =>
            match y_running p with
            | Some _ => (Response 400 None, p)                              (* 52-54 *)
            | None => (Response 200 None, Profiler true (Some clock) (y_saved p))
            end
        end
      else
        match y_running p with
        | None => (Response 400 None, p)                                    (* 62-63 *)
        | Some _ => (Response 200 None, Profiler true None (S (y_saved p)))
        end
  end.

(* handlers/profile.py:43-48 get *)
Definition profile_get (p : profiler) : response :=
  if negb (y_installed p) then Response 404 None
  else Response 200 (Some (JObj [(lit "running", JBool (match y_running p with Some _ => true | None => false end))])).

Section Server.
Variable v : env.
(* bytes.decode("utf-8", "replace") of the library *)
Variable utf8 : list Z -> str.
(* urllib.parse.parse_qsl(keep_blank_values=True) as a dict, http.py:365-366 *)
Variable parse_query : str -> list (str * str).

(* http.py:288-291: the part before "?", and the part after it *)
Definition split_query (uri : str) : str * str :=
  match UrlModel.span (fun c => negb (c =? 63)) uri with
  | (path, _ :: query) => (path, query)
  | (path, []) => (path, [])
  end.

(* the value of a hexadecimal digit, for urllib.parse.unquote of http.py:292 *)
Definition hex (c : Z) : option Z :=
  if (48 <=? c) && (c <=? 57) then Some (c - 48)
  else if (65 <=? c) && (c <=? 70) then Some (c - 55)
  else if (97 <=? c) && (c <=? 102) then Some (c - 87)
  else None.

(* urllib.parse.unquote_to_bytes for ASCII text, http.py:292 *)
Fixpoint unquote_bytes (s : str) : list Z :=
  match s with
  | 37 :: ((a :: b :: r) as t) =>
      match hex a, hex b with
      | Some x, Some y => 16 * x + y :: unquote_bytes r
      | _, _ => 37 :: unquote_bytes t
      end
  | c :: r => c :: unquote_bytes r
  | [] => []
  end.

(* http.py:292 *)
Definition unquote (s : str) : str := utf8 (unquote_bytes s).

(* The methods the client uses, admin/_api.py:72-124. *)
Inductive verb := VGet | VPut | VPatch | VDelete | VPost.

(* http.py:826-843 dispatch with the routes of services.py:170-173: the
   group of a ticket id ends at a newline. *)
Definition serve (now : Z) (unused : bool) (m : verb) (uri : str) (body : option json) (d : daemon)
  : response * daemon :=
  let (raw, query) := split_query uri in
  let path := unquote raw in
  match skip (lit "/tickets/") path with
  | Some rest =>
      let id := fst (UrlModel.span (fun c => negb (c =? NEWLINE)) rest) in
      match match m with
            | VGet => Some (Get id) | VPut => Some (Put id body) | VPatch => Some (Patch id body)
            | VDelete => Some (Delete id) | VPost => None
            end with
      | Some r => let (a, s) := handle v now unused r (d_tickets d) in (a, Daemon s (d_profiler d))
      | None => (Response 405 None, d)
      end
  | None =>
      match skip (lit "/profile/") path with
      | Some _ =>
          match m with
          | VPost => let (a, p) := profile_post (parse_query query) (d_profiler d) in (a, Daemon (d_tickets d) p)
          | VGet => (profile_get (d_profiler d), d)
          | _ => (Response 405 None, d)
          end
      | None => (Response 404 None, d)
      end
  end.

(* ---- the client ---- *)

(* What happens to a request: it fails before the server gets it, the answer
   is lost, or all is well; with the time at the server and whether the ticket
   gets unused in time (see ControlModel.handle). *)
(* The fate of con.request and con.getresponse, admin/_api.py:134-141. *)
Inductive net := NotSent | Lost (now : Z) (unused : bool) | Answered (now : Z) (unused : bool).

(* admin/_api.py:14-38: ClientError, ServerError; KeyError and TypeError of
   line 73 and of the tool's caller are no admin.Error *)
Inductive aexc := ClientError | ServerError (code : Z) | KeyError | TypeError.

(* http.client refuses URLs with characters up to space and delete
   (InvalidURL), and those that are not ASCII. *)
(* Checked by con.request, admin/_api.py:136 (http.client, not in /repo). *)
Definition sendable (uri : str) : bool := forallb (fun c => (32 <? c) && (c <? 127)) uri.

(* admin/_api.py:134-141 _request *)
Definition request (o : net) (m : verb) (uri : str) (body : option json) (d : daemon)
  : (response + aexc) * daemon :=
  if negb (sendable uri) then (inr ClientError, d)
  else match o with
  | NotSent => (inr ClientError, d)
  | Lost now unused => (inr ClientError, snd (serve now unused m uri body d))
  | Answered now unused => let (a, d) := serve now unused m uri body d in (inl a, d)
  end.

(* admin/_api.py:75-76 and alike *)
Definition expect (code : Z) (r : (response + aexc) * daemon) : (option json + aexc) * daemon :=
  match r with
  | (inl a, d) => if status a =? code then (inl (ControlModel.body a), d) else (inr (ServerError (status a)), d)
  | (inr e, d) => (inr e, d)
  end.

(* format() of a JSON value that is not a string *)
Variable pystr : json -> str.
(* the id in the f-string of admin/_api.py:73 *)
Definition format (x : json) : str := match x with JStr s => s | _ => pystr x end.

(* admin/_api.py:73, 85, 102, 114 *)
Definition ticket_uri (id : str) : str := lit "/tickets/" ++ id.

(* admin/_api.py:64-76 add_ticket; the ticket is what json.loads() returned,
   tool.py:105 *)
Definition add_ticket (o : net) (x : json) (d : daemon) : (option json + aexc) * daemon :=
  match x with
  | JObj fields =>
      match lookup (lit "uuid") fields with
      | None => (inr KeyError, d)
      | Some u => expect 200 (request o VPut (ticket_uri (format u)) (Some x) d)
      end
  | _ => (inr TypeError, d)
  end.

(* admin/_api.py:78-88 *)
Definition get_ticket (o : net) (id : str) (d : daemon) : (option json + aexc) * daemon :=
  expect 200 (request o VGet (ticket_uri id) None d).

(* admin/_api.py:90-105 *)
Definition mod_ticket (o : net) (id : str) (changes : json) (d : daemon) : (option json + aexc) * daemon :=
  expect 200 (request o VPatch (ticket_uri id) (Some changes) d).

(* admin/_api.py:107-116 *)
Definition del_ticket (o : net) (id : str) (d : daemon) : (option json + aexc) * daemon :=
  expect 204 (request o VDelete (ticket_uri id) None d).

(* admin/_api.py:118-121 *)
Definition start_profile (o : net) (d : daemon) : (option json + aexc) * daemon :=
  expect 200 (request o VPost (lit "/profile/?run=y") None d).

(* admin/_api.py:123-126 *)
Definition stop_profile (o : net) (d : daemon) : (option json + aexc) * daemon :=
  expect 200 (request o VPost (lit "/profile/?run=n") None d).

(* ---- the tool ---- *)

(* The commands of tool.py:22-77 after parsing; a file that is not JSON
   (ValueError, tool.py:105) is None. *)
Inductive command :=
| AddTicket (file : option json)
| ShowTicket (id : str)
| ModTicket (id : str) (timeout : option Z)
| DelTicket (id : str)
| StartProfile
| StopProfile.

(* How the process ends, with what it prints; an exception that is no
   admin.Error ends with a traceback and status 1. *)
(* admin/tool.py:84-89 and the interpreter's exit. *)
Record ended := Ended { exit_status : Z; traceback : bool; printed : option json }.

(* tool.py:84-89 *)
Definition finish (r : (option json + aexc) * daemon) : ended * daemon :=
  match r with
  | (inl x, d) => (Ended 0 false x, d)
  | (inr ClientError, d) | (inr (ServerError _), d) => (Ended 1 false None, d)
  | (inr _, d) => (Ended 1 true None, d)
  end.

(* tool.py:79-139; only show-ticket prints *)
Definition tool (o : net) (c : command) (d : daemon) : ended * daemon :=
  match c with
  | AddTicket None => (Ended 1 true None, d)
  | AddTicket (Some x) => finish (add_ticket o x d)
  | ShowTicket id => finish (get_ticket o id d)                              (* 111-115 *)
  | ModTicket id t =>                                                       (* 118-121 *)
      finish (mod_ticket o id (JObj [(lit "timeout", match t with Some n => JInt n | None => JNull end)]) d)
  | DelTicket id => finish (del_ticket o id d)
  | StartProfile => finish (start_profile o d)
  | StopProfile => finish (stop_profile o d)
  end.

End Server.
