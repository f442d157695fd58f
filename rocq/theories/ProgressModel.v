(* The progress bar of the client tools, ovirt_imageio/client/_ui.py, and
   util.humansize. *)
From Coq Require Import ZArith List Bool String.
From Verif Require Import FloatLib.
Import ListNotations.
Open Scope Z_scope.

(* The arguments of Format.draw, _ui.py:173-181.  Simplified: times are
   integers. *)
Record line := Line {
  l_elapsed : Z; l_value : Z; l_transferred : Z; l_size : option Z;
  l_phase : option string; l_last : bool
}.

(* _ui.py:101-113: the attributes of ProgressBar and the lines drawn so far;
   [p_tick] is the number of calls of now(). *)
Record bar := Bar {
  p_phase : option string; p_size : option Z; p_done : Z; p_value : Z;
  p_closed : bool; p_tick : nat; p_lines : list line
}.

Section Bar.
Variable now : nat -> Z.

(* _ui.py:173-181 _draw; the output and its errors are not modelled. *)
Definition draw (last : bool) (b : bar) : bar :=
  Bar (p_phase b) (p_size b) (p_done b) (p_value b) (p_closed b) (S (p_tick b))
    (p_lines b ++ [Line (now (p_tick b) - now O) (p_value b) (p_done b) (p_size b) (p_phase b) last]).

(* _ui.py:83-116 __init__ *)
Definition new (phase : option string) (size : option Z) : bar :=
  draw false (Bar phase size 0 (-1) false 1 []).

(* _ui.py:127 and 140: == of two values, either may be None *)
Definition opt_eqb {A} (eqb : A -> A -> bool) (a b : option A) : bool :=
  match a, b with
  | Some a, Some b => eqb a b
  | None, None => true
  | _, _ => false
  end.

(* _ui.py:122-129 phase.setter, under the lock *)
Definition set_phase (s : option string) (b : bar) : bar :=
  if p_closed b then b
  else if opt_eqb String.eqb (p_phase b) s then b
  else draw false (Bar s (p_size b) (p_done b) (p_value b) false (p_tick b) (p_lines b)).

(* _ui.py:135-142 size.setter, under the lock *)
Definition set_size (n : option Z) (b : bar) : bar :=
  if p_closed b then b
  else if opt_eqb Z.eqb (p_size b) n then b
  else draw false (Bar (p_phase b) n (p_done b) (p_value b) false (p_tick b) (p_lines b)).

(* _ui.py:162: int(self._done / self._size * 100) *)
Definition percent (done size : Z) : Z := fint (fmul (truediv done size) 100).

(* _ui.py:144-165 update, under the lock.  Simplified: a negative size shows
   nothing. *)
Definition update (n : Z) (b : bar) : bar :=
  if p_closed b then b
  else
    let b := Bar (p_phase b) (p_size b) (p_done b + n) (p_value b) false (p_tick b) (p_lines b) in
    match p_size b with
    | Some size =>
        if 0 <? size then                                            (* 161 *)
          let v := percent (p_done b) size in
          if p_value b <? v then                                     (* 163-165 *)
            draw false (Bar (p_phase b) (p_size b) (p_done b) v false (p_tick b) (p_lines b))
          else b
        else b
    | None => b
    end.

(* _ui.py:167-171 close, under the lock *)
Definition close (b : bar) : bar :=
  if p_closed b then b
  else draw true (Bar (p_phase b) (p_size b) (p_done b) (p_value b) true (p_tick b) (p_lines b)).

(* The calls of any threads, _ui.py:122-171: each holds the lock, so any
   execution is a sequence of calls. *)
Inductive op := OPhase (s : option string) | OSize (n : option Z) | OUpdate (n : Z) | OClose.

(* One call, _ui.py:122-171. *)
Definition exec1 (b : bar) (x : op) : bar :=
  match x with
  | OPhase s => set_phase s b
  | OSize n => set_size n b
  | OUpdate n => update n b
  | OClose => close b
  end.
(* The calls in the order they got the lock, _ui.py:124, 137, 157, 168. *)
Definition exec (l : list op) (b : bar) : bar := fold_left exec1 l b.

(* _ui.py:186-190 __exit__: the calls leaving the with block *)
Definition leave (error_phase : option string) (failed : bool) : list op :=
  (if failed then [OPhase error_phase] else []) ++ [OClose].

End Bar.

(* _ui.py:43: the percents shown by TextFormat.draw, None is "----" *)
Definition shown (l : line) : option Z :=
  match l_size l with
  | Some n => if n =? 0 then None else Some (Z.max 0 (l_value l))
  | None => None
  end.

(* _ui.py:53: "\n" ends the line, "\r" lets the next one overwrite it *)
Definition newline (l : line) : bool := l_last l.

(* ---- util.humansize ---- *)

(* A size as shown, util.py:35-36: the number of hundredths, and the unit 0 "bytes", 1 "KiB"
   .. 5 "PiB".  Bytes are shown without decimals. *)
Record shown_size := Shown { z_hundredths : Z; z_unit : Z }.

(* util.py:35 "{:.2f}".format(f): the nearest number of two decimals, ties to even *)
Definition hundredths (f : float) : Z :=
  let (m, e) := f in
  let (a, b) := scale (m * 100) 1 (- e) in rne a b.

(* util.py:31-34: the loop from unit [u] on, for a float; n /= KiB is exact *)
Fixpoint human_loop (fuel : nat) (u : Z) (f : float) : shown_size :=
  match fuel with
  | O => Shown (hundredths f) (u - 1)
  | S fuel =>
      if fint f <? 1024 then Shown (hundredths f) u
      else let (m, e) := f in human_loop fuel (u + 1) (m, e - 10)
  end.

(* util.py:30-36 humansize of an integer *)
Definition humansize (n : Z) : shown_size :=
  if n <? 1024 then Shown (n * 100) 0
  else human_loop 5 1 (truediv n 1024).
