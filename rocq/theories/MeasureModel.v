(* Model of ovirt_imageio/_internal/measure.py and of
   Ticket.transferred in ovirt_imageio/_internal/auth.py. *)
From Coq Require Import ZArith List Bool.
Import ListNotations.
Open Scope Z_scope.

(* measure.py:7-13, class Range: a mutable object with integer start and end.
   Simplification: objects are values here; the code never shares a Range
   between two lists that are mutated (RangeList.__init__ copies, line 38). *)
Record range := Range { start : Z; stop : Z }.

(* measure.py:15-20, Range.__lt__. *)
Definition range_lt (a b : range) : bool :=
  if start a <? start b then true
  else if start a =? start b then stop a <? stop b
  else false.

(* measure.py:22-23, Range.__len__: Python's len() raises ValueError if the
   method returns a negative number (None here).  Simplification: the
   OverflowError for lengths above sys.maxsize (2^63-1) is not modelled. *)
Definition range_len (r : range) : option Z :=
  let n := stop r - start r in
  if n <? 0 then None else Some n.

(* bisect.insort_left used in measure.py:46: insert r before the first
   element that is not smaller than r.  Simplification: the binary search of
   the library is modelled by a linear scan; they agree on sorted lists. *)
Fixpoint insort_left (r : range) (l : list range) : list range :=
  match l with
  | [] => [r]
  | x :: l' => if range_lt x r then x :: insort_left r l' else r :: l
  end.

(* list.sort() used in measure.py:54, with Range.__lt__ as order.
   Simplification: any correct sort gives the same list since the order is
   total and ranges are plain values; insertion sort is used. *)
Fixpoint sort_ranges (l : list range) : list range :=
  match l with
  | [] => []
  | x :: l' => insort_left x (sort_ranges l')
  end.

(* measure.py:84-89, the loop of _merged.  [current] is merged[-1]; the
   elements before it in the Python list are final, so they are emitted. *)
Fixpoint merge_loop (current : range) (rest : list range) : list range :=
  match rest with
  | [] => [current]
  | r :: rest' =>
      if start r <=? stop current
      then merge_loop (Range (start current) (Z.max (stop current) (stop r))) rest'
      else current :: merge_loop r rest'
  end.

(* measure.py:61-91, _merged. *)
Definition merged (l : list range) : list range :=
  match l with
  | [] => []
  | x :: l' => merge_loop x l'
  end.

(* measure.py:42-47, RangeList.add. *)
Definition rl_add (l : list range) (r : range) : list range :=
  merged (insort_left r l).

(* measure.py:49-55, RangeList.update. *)
Definition rl_update (l : list range) (rs : list range) : list range :=
  merged (sort_ranges (l ++ rs)).

(* measure.py:57-58, RangeList.sum. *)
Fixpoint rl_sum (l : list range) : option Z :=
  match l with
  | [] => Some 0
  | r :: l' =>
      match range_len r, rl_sum l' with
      | Some n, Some s => Some (n + s)
      | _, _ => None
      end
  end.

(* auth.py:217-220 with measure.py:36-47: the list of completed ranges of a
   ticket after the operations with the given ranges have ended, in this
   order, starting from the empty RangeList made in auth.py:65. *)
Definition completed_after (rs : list range) : list range :=
  fold_left rl_add rs [].

(* What GET /tickets/{id} reports (auth.py:227-242). *)
Inductive transferred_result :=
| NotReported            (* auth.py:231-233, None for several ops *)
| Bytes (n : Z)          (* auth.py:242 *)
| ValueError.            (* exception from len() of a negative range *)

(* auth.py:227-242, Ticket.transferred: [nops] is len(self.ops), [completed]
   the RangeList of the ticket, [ongoing] the ranges of ongoing operations in
   the arbitrary order of iteration of the set. *)
Definition transferred (nops : nat) (completed ongoing : list range)
  : transferred_result :=
  if (1 <? nops)%nat then NotReported
  else match rl_sum (rl_update completed ongoing) with
       | Some n => Bytes n
       | None => ValueError
       end.
