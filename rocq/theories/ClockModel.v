(* stats.py: Clock and Stats.  Simplified: times are integers, so that the
   rounding of sums of floats is not modelled. *)
From Coq Require Import ZArith List Bool String.
Import ListNotations.
Open Scope Z_scope.

(* stats.py:151-158 Stats *)
Record stats := Stats { s_name : string; s_seconds : Z; s_ops : Z; s_bytes : Z; s_started : option Z }.

(* stats.py:49-52: the ordered dict as a list in order of insertion; [c_tick]
   is the number of calls of now() made. *)
Record clock := Clock { c_stats : list stats; c_tick : nat }.

(* stats.py:49-52 __init__ *)
Definition new_clock : clock := Clock [] 0.

(* The exceptions: RuntimeError (60, 88, 91), TypeError when started is None in
   line 96, ZeroDivisionError of line 118, and those of the code under run(). *)
Inductive exc := EAlreadyStarted | ENoSuchStats | ENotStarted | EType | EZeroDivision | EBody.

Section Clock.
Variable now : nat -> Z.

(* A method with its effect on the clock. *)
(* Methods of stats.py:12-122, no code of its own. *)
Definition M A := clock -> (A + exc) * clock.

(* stats.py:55, 86 self._stats.get(name) *)
Definition lookup (name : string) (c : clock) : option stats :=
  find (fun s => String.eqb (s_name s) name) (c_stats c).

(* The change of an object of the dict, as stats.py:62, 97-100 *)
Definition change (name : string) (f : stats -> stats) (c : clock) : clock :=
  Clock (map (fun s => if String.eqb (s_name s) name then f s else s) (c_stats c)) (c_tick c).

(* stats.py:49 self._now() *)
Definition get_now (c : clock) : Z * clock := (now (c_tick c), Clock (c_stats c) (S (c_tick c))).

(* stats.py:54-64 start; it returns the object, here its name *)
Definition start (name : string) : M string := fun c =>
  let c := match lookup name c with
    | Some _ => c
    | None => Clock (c_stats c ++ [Stats name 0 0 0 None]) (c_tick c)        (* 57 *)
    end in
  match lookup name c with
  | Some (Stats _ _ _ _ (Some _)) => (inr EAlreadyStarted, c)                (* 59-60 *)
  | _ =>
      let (t, c) := get_now c in
      (inl name, change name (fun s => Stats (s_name s) (s_seconds s) (s_ops s) (s_bytes s) (Some t)) c)
  end.

(* stats.py:85-93 _lookup_started *)
Definition lookup_started (name : string) : M string := fun c =>
  match lookup name c with
  | None => (inr ENoSuchStats, c)
  | Some s => match s_started s with
      | None => (inr ENotStarted, c)
      | Some _ => (inl name, c)
      end
  end.

(* stats.py:95-102 _stop; the object is never removed from the dict *)
Definition stop_stats (name : string) (completed : bool) : M Z := fun c =>
  let (t, c) := get_now c in
  match lookup name c with
  | Some s => match s_started s with
      | None => (inr EType, c)                                               (* 96 *)
      | Some t0 =>
          let elapsed := t - t0 in
          (inl elapsed, change name (fun s => Stats (s_name s) (s_seconds s + elapsed)
             (if completed then s_ops s + 1 else s_ops s) (s_bytes s) None) c)
      end
  | None => (inr EType, c)
  end.

(* stats.py:66-68 stop *)
Definition stop (name : string) : M Z := fun c =>
  let (r, c) := lookup_started name c in
  match r with inl s => stop_stats s true c | inr e => (inr e, c) end.

(* stats.py:70-72 abort *)
Definition abort (name : string) : M Z := fun c =>
  let (r, c) := lookup_started name c in
  match r with inl s => stop_stats s false c | inr e => (inr e, c) end.

(* stats.py:74-83 run: a with statement around any code *)
Definition run {A} (name : string) (body : string -> M A) : M A := fun c =>
  let (r, c) := start name c in
  match r with
  | inr e => (inr e, c)
  | inl s =>
      let (r, c) := body s c in
      match r with
      | inr e =>                                                             (* 79-81 *)
          let (x, c) := stop_stats s false c in
          match x with inl _ => (inr e, c) | inr e2 => (inr e2, c) end
      | inl v =>                                                             (* 82-83 *)
          let (x, c) := stop_stats s true c in
          match x with inl _ => (inl v, c) | inr e => (inr e, c) end
      end
  end.

(* The caller's s.bytes += n in the block of run(), ops.py *)
Definition add_bytes (n : Z) (name : string) : M unit := fun c =>
  (inl tt, change name (fun s => Stats (s_name s) (s_seconds s) (s_ops s) (s_bytes s + n) (s_started s)) c).

(* stats.py:104-122 __repr__: what is shown of one Stats, without the text:
   name, ops, seconds, and the bytes and the rate as a fraction *)
Record shown := Shown { w_name : string; w_ops : Z; w_seconds : Z; w_rate : option (Z * Z) }.

(* stats.py:108-120 *)
Definition show1 (t : Z) (s : stats) : shown + exc :=
  let seconds := match s_started s with Some t0 => t - t0 | None => s_seconds s end in
  if s_bytes s =? 0 then inl (Shown (s_name s) (s_ops s) seconds None)
  else if seconds =? 0 then inr EZeroDivision
  else inl (Shown (s_name s) (s_ops s) seconds (Some (s_bytes s, seconds))).

(* stats.py:107-120, the loop *)
Fixpoint show (t : Z) (l : list stats) : list shown + exc :=
  match l with
  | [] => inl []
  | s :: l =>
      match show1 t s with
      | inr e => inr e
      | inl w => match show t l with inr e => inr e | inl ws => inl (w :: ws) end
      end
  end.

(* stats.py:104-122 __repr__ *)
Definition repr : M (list shown) := fun c =>
  let (t, c) := get_now c in (show t (c_stats c), c).

(* Calls in any order. *)
(* No code: any sequence of calls of stats.py:54-83. *)
Inductive call := CStart (name : string) | CStop (name : string) | CAbort (name : string).

(* One call, stats.py:54-72, its result without the value *)
Definition exec1 (x : call) (c : clock) : bool * clock :=
  match x with
  | CStart n => let (r, c) := start n c in (match r with inl _ => true | inr _ => false end, c)
  | CStop n => let (r, c) := stop n c in (match r with inl _ => true | inr _ => false end, c)
  | CAbort n => let (r, c) := abort n c in (match r with inl _ => true | inr _ => false end, c)
  end.

(* Calls one after the other, the caller ignores the exceptions; results with
   the time of each call *)
(* No code: any sequence of calls of stats.py:54-83. *)
Fixpoint exec (l : list call) (c : clock) : list (call * bool * Z) * clock :=
  match l with
  | [] => ([], c)
  | x :: l =>
      let t := now (c_tick c) in
      let (r, c) := exec1 x c in
      let (rs, c) := exec l c in
      ((x, r, t) :: rs, c)
  end.

End Clock.
