(* Model of opening an image in the Go program: go/ovirt-img/backend.go, the
   connecting parts of go/ovirt-img/nbd/nbd.go, go/ovirt-img/qemuimg/qemuimg.go
   and go/imageio/http/http.go:26-42.  Paths are relative to /repo/go.  A text
   is a list of bytes. *)
From Coq Require Import ZArith List Bool String.
From Verif Require Import UrlModel.
From Verif Require UuidModel.
Import ListNotations.
Open Scope Z_scope.

(* os.Stat, ovirt-img/backend.go:27-35 *)
Inductive stat_result := Exists | NotExist | CannotTell.

(* What the program meets: the file system; qemu-img (None: it fails, or its
   output is not the JSON of an ImageInfo; otherwise the format,
   ovirt-img/qemuimg/qemuimg.go:17-29); url.Parse's parseAuthority
   (ovirt-img/backend.go:48); whether the calls of libnbd succeed
   (ovirt-img/nbd/nbd.go:30-60, 67-87). *)
Record sys := Sys {
  stat : str -> stat_result;
  info : str -> option str;
  authority_ok : str -> bool;
  h_create : bool; h_meta : bool; h_connect : bool; h_size : bool }.

(* What the program does: running qemu-img to its end
   (ovirt-img/qemuimg/qemuimg.go:31-50), a new handle of libnbd, connecting it
   to a program or a URI, closing it (ovirt-img/nbd/nbd.go:30-60, 67-87), a
   client for an HTTPS URL (imageio/http/http.go:26-42). *)
Inductive event :=
| Run (argv : list str)
| Create
| Activate (argv : list str)
| Uri (u : str)
| Close
| Https (u : str).

(* A backend (interface imageio.Backend), an error, or log.Fatal;
   ovirt-img/backend.go:19-62 *)
Inductive result := Opened | Failed | Exited.

(* ---- url.Parse of Go, for ovirt-img/backend.go:48 ---- *)

(* url.getScheme *)
Inductive scan := SErr | SNone | SSome (a r : str).
(* url.getScheme, for ovirt-img/backend.go:48; [first]: no character seen *)
Fixpoint get_scheme (first : bool) (s : str) : scan :=
  match s with
  | [] => SNone
  | c :: r =>
      if is_alpha c || (negb first && (ascii_digit c || (c =? 43) || (c =? 45) || (c =? 46)))
      then match get_scheme false r with SSome a t => SSome (c :: a) t | x => x end
      else if c =? 58 then if first then SErr else SSome [] r
      else SNone
  end.

(* strings.Cut, the part before the separator, for ovirt-img/backend.go:48 *)
Definition before (c : Z) (s : str) : str := fst (span (fun x => negb (x =? c)) s).
(* strings.Cut, the part after the separator, for ovirt-img/backend.go:48 *)
Definition after (c : Z) (s : str) : str := tl (snd (span (fun x => negb (x =? c)) s)).

(* url.unescape for paths and fragments, for ovirt-img/backend.go:48; None: an
   error *)
Fixpoint unescape (s : str) : option str :=
  match s with
  | [] => Some []
  | c :: r =>
      if c =? 37 then
        match r with
        | a :: b :: r' =>
            match UuidModel.hex_val a, UuidModel.hex_val b with
            | Some x, Some y => option_map (cons (16 * x + y)) (unescape r')
            | _, _ => None
            end
        | _ => None
        end
      else option_map (cons c) (unescape r)
  end.

(* url.parse: the authority and the path after it, for
   ovirt-img/backend.go:48 *)
Definition rest_path (y : sys) (scheme rest : str) : option str :=
  match rest with
  | 47 :: 47 :: a =>
      if match scheme, a with [], 47 :: _ => true | _, _ => false end then unescape rest
      else
        let auth := before 47 a in
        if match auth with [] => true | _ => authority_ok y auth end
        then unescape (snd (span (fun x => negb (x =? 47)) a)) else None
  | _ => unescape rest
  end.

(* url.Parse, for ovirt-img/backend.go:48: Scheme and Path; None: an error.
   Query, fragment and user are not used by the program. *)
Definition parse (y : sys) (s : str) : option (str * str) :=
  let frag := after 35 s in
  let u := before 35 s in
  if existsb (fun c => (c <? 32) || (c =? 127)) u then None
  else
    let done :=
      if (List.length u =? 1)%nat && (hd 0 u =? 42) then Some ([], u)
      else
        match get_scheme true u with
        | SErr => None
        | sc =>
            let scheme := match sc with SSome a _ => map lower a | _ => [] end in
            let rest := before 63 (match sc with SSome _ r => r | _ => u end) in
            match rest, scheme with
            | 47 :: _, _ => option_map (pair scheme) (rest_path y scheme rest)
            | _, _ :: _ => Some (scheme, [])
            | _, [] => if has 58 (before 47 rest) then None else option_map (pair scheme) (rest_path y scheme rest)
            end
        end in
    match unescape frag with None => None | Some _ => done end.

(* ---- the program ---- *)

(* ovirt-img/qemuimg/qemuimg.go:18 *)
Definition info_argv (f : str) : list str := [lit "qemu-img"; lit "info"; lit "--output"; lit "json"; f].

(* ovirt-img/nbd/nbd.go:41-48 *)
Definition nbd_argv (f format : str) : list str :=
  [lit "qemu-nbd"; lit "--read-only"; lit "--persistent"; lit "--shared"; lit "8"; lit "--format"; format; f].

(* ovirt-img/nbd/nbd.go:29-62 ConnectFile *)
Definition ConnectFile (y : sys) (f format : str) : result * list event :=
  if negb (h_create y) then (Failed, [])
  else if negb (h_meta y) then (Failed, [Create; Close])
  else if negb (h_connect y) then (Failed, [Create; Activate (nbd_argv f format); Close])
  else if negb (h_size y) then (Failed, [Create; Activate (nbd_argv f format)])
  else (Opened, [Create; Activate (nbd_argv f format)]).

(* ovirt-img/nbd/nbd.go:66-90 Connect *)
Definition Connect (y : sys) (u : str) : result * list event :=
  if negb (h_create y) then (Failed, [])
  else if negb (h_meta y) then (Failed, [Create; Close])
  else if negb (h_connect y) then (Failed, [Create; Uri u; Close])
  else if negb (h_size y) then (Failed, [Create; Uri u])
  else (Opened, [Create; Uri u]).

(* ovirt-img/backend.go:39-45 connectFile *)
Definition connectFile (y : sys) (f : str) : result * list event :=
  match info y f with
  | None => (Failed, [Run (info_argv f)])
  | Some format => let (r, l) := ConnectFile y f format in (r, Run (info_argv f) :: l)
  end.

(* Go's == on strings, for ovirt-img/backend.go:52-61 *)
Definition str_eqb (a b : str) : bool := if list_eq_dec Z.eq_dec a b then true else false.

(* ovirt-img/backend.go:47-62 connectURL *)
Definition connectURL (y : sys) (s : str) : result * list event :=
  match parse y s with
  | None => (Failed, [])
  | Some (scheme, path) =>
      if str_eqb scheme (lit "nbd") || str_eqb scheme (lit "nbd+unix") then Connect y s
      else if str_eqb scheme (lit "https") then (Opened, [Https s])
      else if str_eqb scheme (lit "file") then connectFile y path
      else (Failed, [])
  end.

(* ovirt-img/backend.go:19-37 connect, isFile *)
Definition connect (y : sys) (s : str) : result * list event :=
  match stat y s with
  | Exists => connectFile y s
  | NotExist => connectURL y s
  | CannotTell => (Exited, [])
  end.
