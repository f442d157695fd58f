(* Model of the commands of ovirt-img: upload-disk and download-disk, and of the
   helpers driving oVirt engine.  Paths are relative to
   /repo/ovirt_imageio/client.
   Engine, the local tools (qemu-img) and the transfer itself (_api.upload and
   _api.download, see TransferModel) are oracles: every call made is recorded
   with its answer.  Time passes between the calls, by any amount; a sleep takes
   at least its argument.  Simplified: time is an integer number of nanoseconds
   (in Python a float); looking up a service of the SDK makes no request. *)
From Coq Require Import ZArith List Bool Ascii String.
From Verif Require Import BytesLib UrlModel.
Import ListNotations.
Open Scope Z_scope.

(* Unit of time: seconds (time.monotonic(), _ovirt.py:254). *)
Definition SECOND := 1000000000.

(* The exceptions that are told apart: RuntimeError raised here, NotFoundError of
   the SDK, TerminatedBySignal (_app.py:14-20), any other Exception, and what is
   not an Exception (KeyboardInterrupt).  XNoFuel is not part of the code: the
   polling loops are fuelled. *)
Inductive exc := XRuntime | XNotFound | XTerminated (signo : Z) | XError | XInterrupt | XNoFuel.
(* isinstance(x, Exception): _upload.py:106, _tool.py:41 *)
Definition is_exception (x : exc) : bool :=
  match x with XInterrupt | XNoFuel => false | _ => true end.

(* types.ImageTransferPhase of the SDK: the phases tested in _ovirt.py:288-299,
   404-407, and the others. *)
Inductive phase := Initializing | Transferring | PausedSystem | FinishedSuccess
                 | FinishedFailure | OtherPhase.
(* == of phases, _ovirt.py:288-299, 404-407 *)
Definition is_phase (a b : phase) : bool :=
  match a, b with
  | Initializing, Initializing | Transferring, Transferring | PausedSystem, PausedSystem
  | FinishedSuccess, FinishedSuccess | FinishedFailure, FinishedFailure
  | OtherPhase, OtherPhase => true
  | _, _ => false
  end.
(* types.DiskStatus: _ovirt.py:395, 430-433 *)
Inductive status := DiskOk | DiskIllegal | DiskOther.
(* types.ImageTransferDirection: _ovirt.py:213, _ovirt.py:19 *)
Inductive direction := Upload | Download.

(* ---- upload options, _upload.py:19-24 ---- *)

(* _upload.py:119, 132-140: "raw", "qcow2" and other texts *)
Inductive format := Raw | Qcow2 | OtherFormat.
(* == "qcow2" *)
Definition is_qcow2 (f : format) : bool := match f with Qcow2 => true | _ => false end.
(* types.DiskContentType: _upload.py:125, 130 *)
Inductive content := Iso | Data.
(* _upload.py:19-21 DiskInfo *)
Record disk_info := DiskInfo {
  d_name : str; d_initial : option Z; d_provisioned : Z; d_content : content;
  d_format : format; d_sparse : bool; d_is_zero : bool }.
(* The options used in _upload.py:70-113; the others are passed on. *)
Record args := Args {
  a_format : format; a_sparse : bool; a_name : option str; a_disk_timeout : Z }.
(* qemu-img info (qemu_img.py:38-50): what is used of it, _upload.py:118-149 *)
Record image_info := ImageInfo { i_filename : str; i_format : format; i_virtual : Z }.

(* ---- calls ---- *)

(* The calls made, in the order of the functions below. *)
Inductive call :=
| CInfo                       (* _upload.py:118, qemu-img info *)
| CRead                       (* _upload.py:175-178, open and read the image *)
| CMeasure                    (* _upload.py:135, qemu-img measure *)
| CConnect                    (* _ovirt.py:43-51 *)
| CClose                      (* _upload.py:75, con.close() *)
| CFindDisk                   (* _ovirt.py:55-57 *)
| CFindDomain                 (* _ovirt.py:117-119 *)
| CVdsmId                     (* _ovirt.py:167-169, the local file *)
| CDataCenters | CHosts       (* _ovirt.py:184, 198 *)
| CAddDisk (d : disk_info)    (* _ovirt.py:95 *)
| CDiskGet                    (* _ovirt.py:387, 429 *)
| CAdd (d : direction)        (* _ovirt.py:274 *)
| CGet                        (* _ovirt.py:283, 380 *)
| CFollow                     (* _ovirt.py:314 *)
| CCancel                     (* _ovirt.py:293, 300, 306, 331 *)
| CFinalize                   (* _ovirt.py:376 *)
| CTransfer (d : direction) (is_zero : bool).  (* _upload.py:96-105, _download.py:50-59 *)

(* The answers: AMissing is FileNotFoundError, AOSError another OSError. *)
(* The environment of _ovirt.py, _upload.py and _download.py. *)
Inductive answer :=
| AUnit | APhase (p : phase) | AStatus (s : status) | ACount (n : nat)
| AInfo (i : image_info) | AData (data : list byte) | ASize (n : Z)
| AMissing | AOSError | AExc (x : exc).

(* What can be observed: a call with its answer, and the phase of the progress
   bar when it changes (_ui.py:125-132). *)
Inductive event := Ev (c : call) (a : answer) | Shown (s : str).

(* The environment, by the number of the call. *)
(* The environment of _ovirt.py, _upload.py and _download.py. *)
Record oracle := Oracle {
  o_unit : nat -> option exc;            (* calls whose result is not used *)
  o_phase : nat -> phase + exc;
  o_status : nat -> status + exc;
  o_count : nat -> nat + exc;            (* length of a list *)
  o_vdsm : nat -> answer;                (* AUnit, AMissing, AOSError or AExc *)
  o_info : nat -> image_info + exc;
  o_data : nat -> list byte + exc;       (* content of the local file *)
  o_size : nat -> Z + exc;
  o_delay : nat -> Z                     (* time that passes; negative is 0 *)
}.

(* Time, number of calls (Python semantics; no line). *)
Record world := World { w_time : Z; w_i : nat }.
(* A computation: changes the world, makes calls, and returns or raises (Python
   semantics; no line). *)
Definition M (A : Type) : Type := world -> world * list event * (A + exc).

(* Python semantics; no line. *)
Definition ret {A} (a : A) : M A := fun w => (w, [], inl a).
(* Python semantics; no line. *)
Definition raise {A} (x : exc) : M A := fun w => (w, [], inr x).
(* Statements in sequence (Python semantics; no line). *)
Definition bind {A B} (m : M A) (f : A -> M B) : M B := fun w =>
  let '(w, t, r) := m w in
  match r with
  | inl a => let '(w, t', r) := f a w in (w, t ++ t', r)
  | inr x => (w, t, inr x)
  end.
Notation "'let!' x <- m ; f" := (bind m (fun x => f))
  (at level 200, x name, m at level 100, f at level 200).
(* try: m; except: the handler gets the result (Python semantics; no line). *)
Definition try_ {A B} (m : M A) (f : A + exc -> M B) : M B := fun w =>
  let '(w, t, r) := m w in
  let '(w, t', r) := f r w in (w, t ++ t', r).
(* try: m; finally: f (Python semantics; no line) *)
Definition finally {A} (m : M A) (f : M unit) : M A :=
  try_ m (fun r => let! _ <- f ; match r with inl a => ret a | inr x => raise x end).

Section oracle.
Variable o : oracle.

(* Time passes; the calls are numbered (Python semantics; no line). *)
Definition pass (least : Z) (w : world) : world :=
  World (w_time w + least + Z.max 0 (o_delay o (w_i w))) (S (w_i w)).
(* A call with its answer (Python semantics; no line). *)
Definition ask {A} (c : call) (f : nat -> A + exc) (say : A -> answer) : M A := fun w =>
  let r := f (w_i w) in
  (pass 0 w, [Ev c (match r with inl a => say a | inr x => AExc x end)], r).
(* A call without a result (Python semantics; no line). *)
Definition ask_unit (c : call) : M unit :=
  ask c (fun i => match o_unit o i with None => inl tt | Some x => inr x end) (fun _ => AUnit).
(* time.monotonic() *)
Definition now : M Z := fun w => let w := pass 0 w in (w, [], inl (w_time w)).
(* time.sleep(1) *)
Definition sleep : M unit := fun w => (pass SECOND w, [], inl tt).

(* _ui.py:125-132, the phase property of the progress bar.  Simplified: writing
   to the terminal does not fail, the bar is not closed before the end, and the
   phases set in this code always change. *)
Definition show (s : string) : M unit := fun w => (w, [Shown (lit s)], inl tt).
(* _ui.py:183-190: with ProgressBar(phase=first) *)
Definition with_progress {A} (first : string) (m : M A) : M A :=
  let! _ <- show first ;
  try_ m (fun r => match r with
                   | inl a => ret a
                   | inr x => let! _ <- show "command failed" ; raise x
                   end).

(* ---- _ovirt.py ---- *)

(* _ovirt.py:424-434, the loop of _wait_for_disk *)
Fixpoint wait_disk_loop (fuel : nat) (deadline : Z) : M unit :=
  match fuel with
  | O => raise XNoFuel
  | S fuel =>
      let! _ <- sleep ;                                                (* 425 *)
      let! t <- now ;
      if t >? deadline then raise XRuntime                             (* 426-427 *)
      else
        let! s <- ask CDiskGet (o_status o) AStatus ;                  (* 429 *)
        match s with
        | DiskIllegal => raise XRuntime                                (* 430-431 *)
        | DiskOk => ret tt                                             (* 433-434 *)
        | DiskOther => wait_disk_loop fuel deadline
        end
  end.
(* _ovirt.py:419-434 _wait_for_disk *)
Definition wait_for_disk (fuel : nat) (timeout : Z) : M unit :=
  let! start <- now ;
  wait_disk_loop fuel (start + timeout * SECOND).

(* _ovirt.py:60-114 add_disk *)
Definition add_disk (fuel : nat) (d : disk_info) (timeout : Z) : M unit :=
  let! _ <- ask_unit (CAddDisk d) ;                                    (* 95-112 *)
  wait_for_disk fuel timeout.                                          (* 113 *)

(* _ovirt.py:122-209 find_host: whether a host was chosen *)
Definition find_host : M bool :=
  let! id <- ask CVdsmId (fun i => match o_vdsm o i with                (* 167-177 *)
                                   | AExc x => inr x
                                   | a => inl a
                                   end) (fun a => a) ;
  match id with
  | AUnit =>
      let! n <- ask CDataCenters (o_count o) ACount ;                  (* 184-186 *)
      match n with
      | O => raise XRuntime                                            (* 187-189 *)
      | _ =>
          let! n <- ask CHosts (o_count o) ACount ;                    (* 198 *)
          match n with
          | O => ret false                                             (* 199-204 *)
          | _ => ret true
          end
      end
  | _ => ret false
  end.

(* transfer_service.get(): _ovirt.py:283, 380 *)
Definition transfer_get : M phase := ask CGet (o_phase o) APhase.

(* _ovirt.py:281-310, the loop of create_transfer *)
Fixpoint create_loop (fuel : nat) (deadline : Z) : M unit :=
  match fuel with
  | O => raise XNoFuel
  | S fuel =>
      try_ transfer_get (fun r =>
        match r with
        | inr XNotFound => raise XRuntime                              (* 284-286 *)
        | inr x => raise x
        | inl p =>
            if is_phase p FinishedFailure then raise XRuntime          (* 288-290 *)
            else if is_phase p PausedSystem then                       (* 292-294 *)
              let! _ <- ask_unit CCancel ; raise XRuntime
            else if is_phase p Transferring then ret tt                (* 296-297 *)
            else if negb (is_phase p Initializing) then                (* 299-302 *)
              let! _ <- ask_unit CCancel ; raise XRuntime
            else
              let! t <- now ;
              if t >? deadline then                                    (* 304-308 *)
                let! _ <- ask_unit CCancel ; raise XRuntime
              else
                let! _ <- sleep ;                                      (* 310 *)
                create_loop fuel deadline
        end)
  end.
(* _ovirt.py:212-319 create_transfer, for a disk *)
Definition create_transfer (fuel : nat) (d : direction) (timeout : Z) : M unit :=
  let! start <- now ;                                                  (* 254-255 *)
  let! _ <- ask_unit (CAdd d) ;                                        (* 274 *)
  let! _ <- create_loop fuel (start + timeout * SECOND) ;
  ask_unit CFollow.                                                    (* 314 *)

(* _ovirt.py:322-331 cancel_transfer *)
Definition cancel_transfer : M unit := ask_unit CCancel.

(* _ovirt.py:377-413, the loop of finalize_transfer *)
Fixpoint finalize_loop (fuel : nat) (deadline : Z) : M unit :=
  match fuel with
  | O => raise XNoFuel
  | S fuel =>
      let! _ <- sleep ;                                                (* 378 *)
      try_ transfer_get (fun r =>
        match r with
        | inr XNotFound =>                                             (* 381-400 *)
            try_ (ask CDiskGet (o_status o) AStatus) (fun r =>
              match r with
              | inr XNotFound => raise XRuntime
              | inr x => raise x
              | inl DiskOk => ret tt
              | inl _ => raise XRuntime
              end)
        | inr x => raise x
        | inl p =>
            if is_phase p FinishedSuccess then ret tt                  (* 404-405 *)
            else if is_phase p FinishedFailure then raise XRuntime     (* 407-408 *)
            else
              let! t <- now ;
              if t >? deadline then raise XRuntime                     (* 410-413 *)
              else finalize_loop fuel deadline
        end)
  end.
(* _ovirt.py:334-416 finalize_transfer *)
Definition finalize_transfer (fuel : nat) (timeout : Z) : M unit :=
  let! start <- now ;                                                  (* 372 *)
  let! _ <- ask_unit CFinalize ;                                       (* 376 *)
  finalize_loop fuel (start + timeout * SECOND).

(* _ovirt.py:214 and 334: the default timeouts, which the commands use *)
Definition CREATE_TIMEOUT := 60.
Definition FINALIZE_TIMEOUT := 300.

(* ---- _upload.py ---- *)

(* os.path.basename: what follows the last slash *)
(* Python semantics (os.path), for _upload.py:139. *)
Fixpoint basename (s : str) : str :=
  match s with
  | [] => []
  | c :: r => if has SLASH r then basename r else if c =? SLASH then r else s
  end.
(* what precedes the last dot *)
(* Python semantics (os.path), for _upload.py:139. *)
Definition DOT := 46.
(* Python semantics (os.path), for _upload.py:139. *)
Fixpoint before_dot (s : str) : option str :=
  match s with
  | [] => None
  | c :: r => match before_dot r with
              | Some b => Some (c :: b)
              | None => if c =? DOT then Some [] else None
              end
  end.
(* os.path.splitext(s)[0], for s without slash: leading dots are not the start
   of an extension *)
(* Python semantics (os.path), for _upload.py:139. *)
Definition stem (s : str) : str :=
  match before_dot s with
  | Some b => if existsb (fun c => negb (c =? DOT)) b then b else s
  | None => s
  end.

(* _upload.py:178: the bytes compared *)
Definition ISO_MAGIC : list byte :=
  [Byte.x01; Byte.x43; Byte.x44; Byte.x30; Byte.x30; Byte.x31; Byte.x01; Byte.x00].
(* equality of bytes (Python semantics; no line) *)
Fixpoint bytes_eqb (a b : list byte) : bool :=
  match a, b with
  | [], [] => true
  | x :: a, y :: b => Byte.eqb x y && bytes_eqb a b
  | _, _ => false
  end.
(* _upload.py:156-181 _is_iso *)
Definition is_iso (f : format) : M bool :=
  match f with
  | Raw =>
      let! data <- ask CRead (o_data o) AData ;
      ret (bytes_eqb (sub 32768 8 data) ISO_MAGIC)                     (* 176-180 *)
  | _ => ret false
  end.

(* _upload.py:116-153 _prepare; a_format is one of raw, qcow2 (49-54) *)
Definition prepare (a : args) : M disk_info :=
  let! i <- ask CInfo (o_info o) AInfo ;                               (* 118 *)
  match i_format i with
  | OtherFormat => raise XRuntime                                      (* 119-120 *)
  | _ =>
      let! iso <- is_iso (i_format i) ;                                (* 123 *)
      let '(content, fmt, sparse) :=                                   (* 124-131 *)
        if iso : bool then (Iso, Raw, false) else (Data, a_format a, a_sparse a) in
      let! initial <- (if is_qcow2 fmt && sparse then                  (* 133-135 *)
                         let! n <- ask CMeasure (o_size o) ASize ; ret (Some n)
                       else ret None) ;
      let name := match a_name a with                                  (* 137-139 *)
                  | Some n => n
                  | None => stem (basename (i_filename i))
                  end in
      ret (DiskInfo name initial (i_virtual i) content
             (if is_qcow2 fmt then Qcow2 else Raw) sparse
             (is_qcow2 fmt || sparse))                                 (* 144-153 *)
  end.

(* contextlib.closing(con): _upload.py:75, _download.py:41 *)
Definition closing {A} (m : M A) : M A := finally m (ask_unit CClose).

(* _upload.py:70-113 upload_disk *)
Definition upload_disk (fuel : nat) (a : args) : M unit :=
  with_progress "inspecting image" (
    let! d <- prepare a ;                                              (* 73 *)
    let! _ <- ask_unit CConnect ;                                      (* 74 *)
    let! _ <- closing (
      let! _ <- show "creating disk" ;
      let! _ <- add_disk fuel d (a_disk_timeout a) ;                   (* 77-89 *)
      let! _ <- show "creating transfer" ;
      let! _ <- find_host ;                                            (* 92 *)
      let! _ <- create_transfer fuel Upload CREATE_TIMEOUT ;           (* 93 *)
      let! _ <- try_
        (let! _ <- show "uploading image" ;
         ask_unit (CTransfer Upload (d_is_zero d)))                    (* 96-105 *)
        (fun r => match r with
                  | inl _ => ret tt
                  | inr x =>
                      if is_exception x then                           (* 106-109 *)
                        let! _ <- show "cancelling transfer" ;
                        let! _ <- cancel_transfer ; raise x
                      else raise x
                  end) ;
      let! _ <- show "finalizing transfer" ;
      finalize_transfer fuel FINALIZE_TIMEOUT) ;                       (* 112 *)
    show "upload completed").                                          (* 113 *)

(* _download.py:38-63 download_disk *)
Definition download_disk (fuel : nat) : M unit :=
  with_progress "creating transfer" (
    let! _ <- ask_unit CConnect ;                                      (* 40 *)
    let! _ <- closing (
      let! _ <- ask_unit CFindDisk ;                                   (* 42 *)
      let! _ <- ask_unit CFindDomain ;                                 (* 43 *)
      let! _ <- find_host ;                                            (* 44 *)
      let! _ <- create_transfer fuel Download CREATE_TIMEOUT ;         (* 46-47 *)
      finally
        (let! _ <- show "downloading image" ;
         ask_unit (CTransfer Download false))                          (* 48-59 *)
        (let! _ <- show "finalizing transfer" ;                        (* 60-62 *)
         finalize_transfer fuel FINALIZE_TIMEOUT)) ;
    show "download completed").                                        (* 63 *)

(* _tool.py:20-43: the exit status; None is an exception that is not caught *)
Definition exit_status (r : unit + exc) : option Z :=
  match r with
  | inl _ => Some 0
  | inr (XTerminated signo) => Some (128 + signo)                      (* 36-40 *)
  | inr x => if is_exception x then Some 1 else None                   (* 41-43 *)
  end.
End oracle.
