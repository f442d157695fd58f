(* Model of opening the image of a ticket: backends/__init__.py get up to the
   buffer, backends/file.py open, __init__ and clone, util.py open.  Paths are
   relative to /repo/ovirt_imageio/_internal. *)
From Coq Require Import ZArith List Bool String Arith.
From Verif Require Import UrlModel.
Import ListNotations.
Open Scope Z_scope.

(* ---- the kernel ---- *)

(* open(2), the flags used in util.py:79-92 *)
Inductive access := RO | WO | RW.
Record flags := Flags { f_access : access; f_creat : bool; f_trunc : bool; f_direct : bool; f_sync : bool }.

(* A file, for util.py:94 and backends/file.py:41 (fstat). *)
Inductive kind := Regular | Block | Directory.
Record file := File { kind_of : kind; content : list Z }.

(* The files, and the open descriptors: number, path and flags; util.py:94 *)
Record world := World { files : str -> option file; fds : list (nat * (str * flags)); next : nat }.

(* What is raised: by util.py:87, the system calls, backends/file.py:401 and
   backends/__init__.py:87. *)
Inductive error := ValueError | OSError | RuntimeError | Unsupported.

(* A value or an exception, and the new state; util.py:62-95 and
   backends/file.py:21-46. *)
Inductive result (A : Type) := Done (a : A) (w : world) | Raises (e : error) (w : world).
Arguments Done {A}. Arguments Raises {A}.

(* Python semantics, for util.py:79-87. *)
Definition str_eqb (a b : str) : bool := if list_eq_dec Z.eq_dec a b then true else false.

(* No code: a file made or truncated by open(2) in util.py:94. *)
Definition set_file (w : world) (p : str) (f : file) : world :=
  World (fun q => if str_eqb q p then Some f else files w q) (fds w) (next w).

(* os.open, util.py:94; [denied]: not permitted, no O_DIRECT here, too many
   files *)
Definition os_open (w : world) (p : str) (fl : flags) (denied : bool) : result nat :=
  let opened w := Done (next w) (World (files w) ((next w, (p, fl)) :: fds w) (S (next w))) in
  if denied then Raises OSError w
  else match files w p with
       | None => if f_creat fl then opened (set_file w p (File Regular [])) else Raises OSError w
       | Some f =>
           match kind_of f, f_access fl with
           | Directory, WO | Directory, RW => Raises OSError w
           | Regular, _ => opened (if f_trunc fl then set_file w p (File Regular []) else w)
           | _, _ => opened w
           end
       end.

(* fio.close(), backends/file.py:45, 246 *)
Definition os_close (w : world) (fd : nat) : world :=
  World (files w) (filter (fun x => negb (Nat.eqb (fst x) fd)) (fds w)) (next w).

(* ---- util.py ---- *)

(* util.py:80-92; None is ValueError *)
Definition flags_of (mode : str) (direct sync : bool) : option flags :=
  if str_eqb mode (lit "r") then Some (Flags RO false false direct sync)
  else if str_eqb mode (lit "w") then Some (Flags WO true true direct sync)
  else if str_eqb mode (lit "r+") then Some (Flags RW false false direct sync)
  else None.

(* io.FileIO, util.py:95: descriptor and mode *)
Record fileio := FileIO { io_fd : nat; io_mode : str }.

(* The mode property of io.FileIO, used in backends/file.py:237. *)
Definition fileio_mode (mode : str) : str :=
  if str_eqb mode (lit "r+") then lit "rb+" else if str_eqb mode (lit "w") then lit "wb" else lit "rb".

(* util.py:62-95 open.  FileIO refuses directories, and leaves a descriptor that
   it was given open. *)
Definition util_open (w : world) (p mode : str) (direct sync denied : bool) : result fileio :=
  match flags_of mode direct sync with
  | None => Raises ValueError w
  | Some fl =>
      match os_open w p fl denied with
      | Raises e w => Raises e w
      | Done fd w =>
          match files w p with
          | Some (File Directory _) => Raises OSError w
          | _ => Done (FileIO fd (fileio_mode mode)) w
          end
      end
  end.

(* ---- backends/file.py ---- *)

(* backends/file.py:53-68, 255-273, 330-348: the attributes.  b_block: which of
   the classes; b_can: _can_zero_range, _can_punch_hole, _can_fallocate. *)
Record backend := Backend {
  b_block : bool; b_fio : fileio; b_name : str; b_sparse : bool; b_max : Z; b_block_size : Z;
  b_can : bool * bool * bool
}.

(* What the environment answers: open(2), fstat(2), and the detection of the
   block size (FileModel) if it does not raise; backends/file.py:38-42, 348 *)
Record answers := Answers { x_denied : bool; x_fstat : bool; x_detect : option Z }.

(* backends/file.py:255-273, 330-348 __init__; given: block_size *)
Definition make (block : bool) (fio : fileio) (p : str) (sparse : bool) (max : Z) (given : option Z) (x : answers)
    : option backend :=
  if block
  then Some (Backend true fio p sparse max (match given with Some n => n | None => 512 end) (true, true, true))
  else match (match given with Some n => if n =? 0 then x_detect x else Some n | None => x_detect x end) with
       | Some n => Some (Backend false fio p sparse max n (true, true, true))
       | None => None
       end.

(* backends/file.py:21-46 open *)
Definition file_open (w : world) (p mode : str) (sparse : bool) (max : Z) (x : answers) : result backend :=
  match util_open w p mode true false (x_denied x) with
  | Raises e w => Raises e w
  | Done fio w =>
      if negb (x_fstat x) then Raises OSError (os_close w (io_fd fio))
      else
        match make (match files w p with Some (File Block _) => true | _ => false end) fio p sparse max None x with
        | Some b => Done b w
        | None => Raises RuntimeError (os_close w (io_fd fio))
        end
  end.

(* str.replace("b", ""), backends/file.py:237 *)
Definition without_b (mode : str) : str := filter (fun c => negb (c =? 98)) mode.

(* backends/file.py:236-247 _clone, 275-281 and 350-358 clone *)
Definition clone (w : world) (b : backend) (x : answers) : result backend :=
  match util_open w (b_name b) (without_b (io_mode (b_fio b))) true false (x_denied x) with
  | Raises e w => Raises e w
  | Done fio w =>
      match make (b_block b) fio (b_name b) (b_sparse b) (b_max b) (Some (b_block_size b)) x with
      | Some c =>
          Done (Backend (b_block c) (b_fio c) (b_name c) (b_sparse c) (b_max c) (b_block_size c) (b_can b)) w
      | None => Raises RuntimeError (os_close w (io_fd fio))
      end
  end.

(* ---- backends/__init__.py ---- *)

(* The attributes of a ticket that are used, backends/__init__.py:86-103; [t_url]
   is parsed, auth.py:39. *)
Record ticket := Ticket { t_url : parsed; t_ops : list str; t_sparse : bool; t_dirty : bool }.

(* config.py:17, 73, 80-111: the options that are used *)
Record config := Config {
  c_http_ca : str; c_tls_ca : str; c_max : Z; c_file_buffer : Z; c_http_buffer : Z; c_nbd_buffer : Z
}.

(* backends/__init__.py:15-20 _modules *)
Inductive module := MFile | MHttp | MNbd.
(* backends/__init__.py:15-20, 69-70, 86-91 *)
Definition module_of (scheme : str) : option module :=
  if str_eqb scheme (lit "file") then Some MFile
  else if str_eqb scheme (lit "http") then Some MHttp
  else if str_eqb scheme (lit "https") then Some MHttp
  else if str_eqb scheme (lit "nbd") then Some MNbd
  else None.

(* The call of module.open, backends/__init__.py:97-103. *)
Record call := Call {
  k_module : module; k_url : parsed; k_mode : str; k_sparse : bool; k_dirty : bool; k_max : Z; k_cafile : str
}.

(* backends/__init__.py:86-103 get; None is Unsupported *)
Definition open_call (t : ticket) (c : config) : option call :=
  match module_of (p_scheme (t_url t)) with
  | None => None
  | Some m =>
      Some (Call m (t_url t)
              (if existsb (str_eqb (lit "write")) (t_ops t) then lit "r+" else lit "r")
              (t_sparse t) (t_dirty t) (c_max c)
              (match c_http_ca c with [] => c_tls_ca c | ca => ca end))
  end.

(* backends/__init__.py:105-106: the size of the buffer; the name of the backend
   is that of the module *)
Definition buffer_size (c : config) (m : module) : Z :=
  match m with MFile => c_file_buffer c | MHttp => c_http_buffer c | MNbd => c_nbd_buffer c end.

(* backends/__init__.py:86-103 for a ticket of a file; other modules are modelled
   elsewhere. *)
Definition get_file (w : world) (t : ticket) (c : config) (x : answers) : result backend :=
  match open_call t c with
  | Some k =>
      match k_module k with
      | MFile => file_open w (p_path (k_url k)) (k_mode k) (k_sparse k) (k_max k) x
      | _ => Raises Unsupported w
      end
  | None => Raises Unsupported w
  end.
