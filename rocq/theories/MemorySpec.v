(* A growable byte array with several open handles, what the memory backend is
   compared with. *)
From Coq Require Import ZArith List Bool.
From Verif Require Import BytesLib ExtentsModel MemoryModel.
Import ListNotations.
Open Scope Z_scope.

(* All handles refer to the same array. *)
Record handle := Handle { h_mode : mode; h_dirty : bool; h_pos : Z; h_closed : bool }.
Record array := Array { a_data : list byte; a_handles : list handle }.

Definition can_read (m : mode) := match m with MW => false | _ => true end.
Definition can_write (m : mode) := match m with MR => false | _ => true end.

(* Reading n bytes gives what is there, up to the end of the array. *)
Definition spec_call (i : nat) (o : op) (a : array) : (value + exc) * array :=
  match nth_error (a_handles a) i with
  | None => (inr ValueError, a)
  | Some h =>
    let d := a_data a in
    let upd h' := Array d (set_nth i h' (a_handles a)) in
    let store x :=
      if can_write (h_mode h)
      then (inl (VInt (zlen x)), Array (splice d (h_pos h) x)
              (set_nth i (Handle (h_mode h) true (h_pos h + zlen x) (h_closed h)) (a_handles a)))
      else (inr IOError, a) in
    match o with
    | Data => (inl (VBytes d), a)
    | Clone => (inl (VBackend (length (a_handles a))),
                Array d (a_handles a ++ [Handle (h_mode h) false 0 false]))
    | Close => (inl VNone, upd (Handle (h_mode h) (h_dirty h) (h_pos h) true))
    | _ =>
      if h_closed h then (inr ValueError, a)
      else match o with
      | ReadInto t =>
        if can_read (h_mode h) then
          let x := sub (h_pos h) (zlen (target_data t)) d in
          let f old := x ++ drop (zlen x) old in
          (inl (VRead (zlen x) (match t with Bytearray y => Bytearray (f y) | Memoryview y => Memoryview (f y) end)),
           upd (Handle (h_mode h) (h_dirty h) (h_pos h + zlen x) false))
        else (inr IOError, a)
      | Write x => store x
      | Zero n => store (zeros n)
      | Seek n how =>
        let p := match how with SEEK_SET => n | SEEK_CUR => h_pos h + n | SEEK_END => zlen d + n end in
        (inl (VInt p), upd (Handle (h_mode h) (h_dirty h) p false))
      | Tell => (inl (VInt (h_pos h)), a)
      | Flush => (inl VNone, upd (Handle (h_mode h) false (h_pos h) false))
      | Size => (inl (VInt (zlen d)), a)
      | _ => (inl (VExtent (ZeroExtent 0 (zlen d) false false)), a)
      end
    end
  end.

Fixpoint spec_run (prog : list (nat * op)) (a : array) : list (value + exc) * array :=
  match prog with
  | [] => ([], a)
  | (i, o) :: prog =>
    let '(r, a) := spec_call i o a in
    let '(rs, a) := spec_run prog a in
    (r :: rs, a)
  end.

(* The calls the backend is made for: the position stays at or after 0, reading
   starts at or before the end, something is written if after the end; only a
   backend with data is cloned. *)
Definition sensible (i : nat) (o : op) (a : array) : Prop :=
  match nth_error (a_handles a) i with
  | None => True
  | Some h =>
    match o with
    | ReadInto _ => h_pos h <= zlen (a_data a)
    | Write x => x <> [] \/ h_pos h <= zlen (a_data a)
    | Zero n => 0 < n \/ h_pos h <= zlen (a_data a)
    | Seek n how =>
      0 <= match how with SEEK_SET => n | SEEK_CUR => h_pos h + n | SEEK_END => zlen (a_data a) + n end
    | Clone => a_data a <> []
    | _ => True
    end
  end.

(* All calls of a program are sensible when made. *)
Fixpoint sensible_run (prog : list (nat * op)) (a : array) : Prop :=
  match prog with
  | [] => True
  | (i, o) :: prog => sensible i o a /\ sensible_run prog (snd (spec_call i o a))
  end.
