(* The progress shown by the client tools on a terminal: TextFormat.draw of
   /repo/ovirt_imageio/client/_ui.py (lines are of this file), and a terminal
   receiving what is written.  A str is a list of code points.  Simplified:
   every character takes one column. *)
From Coq Require Import ZArith List Bool String.
From Verif Require Import FloatLib ProgressModel.
From Verif Require JsonModel.
Import ListNotations.
Open Scope string_scope.
Open Scope list_scope.
Open Scope Z_scope.

(* str of Python, no line of /repo *)
Definition text := list Z.
Definition chars (s : string) : text := JsonModel.chars_of s.

(* str.rjust and str.ljust with spaces, for _ui.py:43 ("3d") and 55 *)
Definition spaces (n : Z) : text := repeat 32 (Z.to_nat n).
Definition rjust (w : Z) (t : text) : text := spaces (w - Z.of_nat (List.length t)) ++ t.
Definition ljust (w : Z) (t : text) : text := t ++ spaces (w - Z.of_nat (List.length t)).

(* "{:.2f}" of a number given in hundredths, for _ui.py:47 and util.py:35 *)
Definition two_decimals (h : Z) : text :=
  JsonModel.dec (h / 100) ++ [46; 48 + h / 10 mod 10; 48 + h mod 10].

(* util.py:31, by number *)
Definition unit_name (u : Z) : text :=
  chars (nth (Z.to_nat u) ["bytes"; "KiB"; "MiB"; "GiB"; "TiB"; "PiB"] "").

(* util.py:30-36 humansize(n) of an integer: the text *)
Definition size_text (n : Z) : text :=
  let z := humansize n in
  (if z_unit z =? 0 then JsonModel.dec (z_hundredths z / 100) else two_decimals (z_hundredths z))
  ++ [32] ++ unit_name (z_unit z).

(* util.py:31-34 the loop of humansize of a float: unit and number *)
Fixpoint float_loop (fuel : nat) (u : Z) (f : float) : Z * float :=
  match fuel with
  | O => (u - 1, f)
  | S fuel =>
      if fint f <? 1024 then (u, f)
      else let (m, e) := f in float_loop fuel (u + 1) (m, e - 10)
  end.

(* "{:.0f}" of a float, util.py:35-36: the nearest integer, ties to even *)
Definition whole (f : float) : Z := let (m, e) := f in let (a, b) := scale m 1 (- e) in rne a b.

(* util.py:30-36 humansize(n) of a float: the text *)
Definition rate_text (f : float) : text :=
  let (u, g) := float_loop 6 0 f in
  (if u =? 0 then JsonModel.dec (whole g) else two_decimals (hundredths g)) ++ [32] ++ unit_name u.

(* transferred / elapsed of an int and a float that is not 0, _ui.py:45 *)
Definition rate (transferred : Z) (elapsed : float) : float :=
  let (m, e) := fl transferred 1 in
  let (m2, e2) := elapsed in
  let (a, b) := scale m m2 (e2 - e) in fl a b.

(* The arguments of draw, _ui.py:41-42 and 173-181 *)
Record shot := Shot {
  s_elapsed : float; s_value : Z; s_transferred : Z; s_size : option Z;
  s_phase : option text; s_last : bool
}.

(* _ui.py:43-47 the line.  Simplified: a size is not negative (also a negative
   size counts as true). *)
Definition line_text (x : shot) : text :=
  let progress :=                                                    (* 43 *)
    match s_size x with
    | Some n => if n =? 0 then chars "----" else rjust 3 (JsonModel.dec (Z.max 0 (s_value x))) ++ [37]
    | None => chars "----"
    end in
  let done := size_text (s_transferred x) in                         (* 44 *)
  let speed := if fst (s_elapsed x) =? 0 then size_text 0            (* 45 *)
               else rate_text (rate (s_transferred x) (s_elapsed x)) in
  let phase :=                                                       (* 46 *)
    match s_phase x with
    | Some [] | None => []
    | Some p => chars " | " ++ p
    end in
  chars "[ " ++ progress ++ chars " ] " ++ done ++ chars ", " ++
  two_decimals (hundredths (s_elapsed x)) ++ chars " s, " ++ speed ++ chars "/s" ++ phase.

(* _ui.py:53-56 and 30-32: what is written to the output *)
Definition draw_text (width : Z) (x : shot) : text :=
  ljust width (line_text x) ++ [if s_last x then 10 else 13].

(* _ui.py:15 DEFAULT_WIDTH *)
Definition default_width : Z := 79.

(* What a bar of ProgressModel draws (times are integers there), _ui.py:173-181 *)
Definition shot_of (l : line) : shot :=
  Shot (l_elapsed l, 0) (l_value l) (l_transferred l) (l_size l) (option_map chars (l_phase l)) (l_last l).

(* ---- the terminal ---- *)

(* No code: a terminal of [cols] columns, any number of rows, the cursor.  A
   character is written at the cursor; after the last column the text goes on
   in the next row; "\r" goes to the first column, "\n" to the first column of
   the next row (the tty turns "\n" to "\r\n"). *)
Record term := Term { t_cell : nat -> nat -> Z; t_row : nat; t_col : nat }.

(* No code: writing a character. *)
Definition set_cell (t : term) (r c : nat) (x : Z) : term :=
  Term (fun i j => if ((i =? r) && (j =? c))%nat then x else t_cell t i j) r (S c).
Definition put (cols : nat) (t : term) (x : Z) : term :=
  if x =? 13 then Term (t_cell t) (t_row t) 0
  else if x =? 10 then Term (t_cell t) (S (t_row t)) 0
  else if (t_col t <? cols)%nat then set_cell t (t_row t) (t_col t) x
  else set_cell t (S (t_row t)) 0 x.
Definition write (cols : nat) (t : term) (s : text) : term := fold_left (put cols) s t.

(* _ui.py:56 of many calls of draw *)
Definition draws (cols : nat) (width : Z) (t : term) (l : list shot) : term :=
  fold_left (fun t x => write cols t (draw_text width x)) l t.
