(* Model of the version of qemu-nbd: ovirt_imageio/_internal/qemu_nbd.py:301-312,
   as used in 136-146 (QemuNbdModel.depth_options).  A text is a list of code
   points. *)
From Coq Require Import ZArith List Bool.
From Verif Require Import UrlModel.
Import ListNotations.
Open Scope Z_scope.

(* Python's str.splitlines(), for qemu_nbd.py:310: the characters that end a
   line *)
Definition line_break (c : Z) : bool :=
  ((10 <=? c) && (c <=? 13)) || ((28 <=? c) && (c <=? 30)) || (c =? 133) || (c =? 8232) || (c =? 8233).

(* qemu_nbd.py:310; None: IndexError, as there is no line. *)
Definition first_line (out : str) : option str :=
  match out with
  | [] => None
  | _ => Some (fst (span (fun c => negb (line_break c)) out))
  end.

(* Python's str.split(None), for qemu_nbd.py:311: white space *)
Definition blank (w : unicode) (c : Z) : bool :=
  ((9 <=? c) && (c <=? 13)) || ((28 <=? c) && (c <=? 32)) || ((128 <=? c) && u_space w c).

(* qemu_nbd.py:311; None: IndexError, as there are less than two words. *)
Definition second_word (w : unicode) (line : str) : option str :=
  let word := fun c => negb (blank w c) in
  let rest := snd (span word (skip_while (blank w) line)) in
  match fst (span word (skip_while (blank w) rest)) with
  | [] => None
  | s => Some s
  end.

(* Python's str.split("."), for qemu_nbd.py:312 *)
Fixpoint split_dots (s : str) : list str :=
  match s with
  | [] => [[]]
  | c :: r =>
      if c =? 46 then [] :: split_dots r
      else match split_dots r with
           | t :: ts => (c :: t) :: ts
           | [] => [[c]]
           end
  end.

(* The exceptions of version(), qemu_nbd.py:309-312.  EProcess: qemu-nbd
   cannot be run, fails, or does not print UTF-8. *)
Inductive verr := EProcess | EIndex | EValue.

(* The tuple of qemu_nbd.py:312; None: ValueError. *)
Fixpoint ints (w : unicode) (l : list str) : option (list Z) :=
  match l with
  | [] => Some []
  | t :: r =>
      match py_int w t with
      | Some n => match ints w r with Some v => Some (n :: v) | None => None end
      | None => None
      end
  end.

(* qemu_nbd.py:309-312; [out]: the decoded output of qemu-nbd --version. *)
Definition version_of (w : unicode) (out : option str) : list Z + verr :=
  match out with
  | None => inr EProcess
  | Some out =>
      match first_line out with
      | None => inr EIndex
      | Some line =>
          match second_word w line with
          | None => inr EIndex
          | Some word =>
              match ints w (split_dots word) with Some v => inl v | None => inr EValue end
          end
      end
  end.

(* qemu_nbd.py:301-302: functools.lru_cache keeps a result, but no exception.
   [out]: what qemu-nbd prints if it is run now.  The result of the call,
   whether qemu-nbd was run, and the cache. *)
Definition version (w : unicode) (cache : option (list Z)) (out : option str)
  : (list Z + verr) * bool * option (list Z) :=
  match cache with
  | Some v => (inl v, false, cache)
  | None =>
      match version_of w out with
      | inl v => (inl v, true, Some v)
      | inr e => (inr e, true, None)
      end
  end.

(* Calls of version(), qemu_nbd.py:301-312, one after another; [outs]: what
   qemu-nbd prints at the time of each call.  Calls of different threads at the
   same time, which may run qemu-nbd twice, are not modelled. *)
Fixpoint versions (w : unicode) (cache : option (list Z)) (outs : list (option str))
  : list ((list Z + verr) * bool) :=
  match outs with
  | [] => []
  | out :: r =>
      let '(res, ran, cache) := version w cache out in
      (res, ran) :: versions w cache r
  end.
