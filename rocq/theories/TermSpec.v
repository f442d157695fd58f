(* What is expected on a terminal. *)
From Coq Require Import ZArith QArith List Bool String.
From Verif Require Import FloatLib ProgressModel TermModel.
From Verif Require JsonSpec.
Import ListNotations.
Open Scope Z_scope.

(* Row r starts with the text s, padded with spaces up to width columns. *)
Definition row_shows (t : term) (r : nat) (width : nat) (s : list Z) : Prop :=
  (forall i, (i < List.length s)%nat -> Some (t_cell t r i) = nth_error s i) /\
  (forall i, (List.length s <= i < width)%nat -> t_cell t r i = 32).

(* Nothing but the first columns of row r has changed. *)
Definition only_row (t t' : term) (r : nat) (width : nat) : Prop :=
  forall i j, i <> r \/ (width <= j)%nat -> t_cell t' i j = t_cell t i j.

(* A phase without control characters. *)
Definition plain (p : option (list Z)) : Prop :=
  match p with Some s => Forall (fun c => 32 <= c) s | None => True end.

(* A number with leading spaces. *)
Definition padded_number (s : list Z) (n : Z) : Prop :=
  exists k d, s = repeat 32 k ++ d /\ JsonSpec.decimal d n.

(* A number with two decimals: h hundredths. *)
Definition decimal_2 (s : list Z) (h : Z) : Prop :=
  exists d a b, s = d ++ [46; 48 + a; 48 + b] /\ JsonSpec.decimal d (h / 100) /\
    0 <= a <= 9 /\ 0 <= b <= 9 /\ h mod 100 = 10 * a + b.

(* s is about the size x in bytes: the number of units, to the nearest
   hundredth (the nearest byte). *)
Definition about (s : list Z) (x : Q) : Prop :=
  (exists d n, s = d ++ chars " bytes" /\ JsonSpec.decimal d n /\ (x < 1024)%Q /\
     (inject_Z n - (1 # 2) <= x <= inject_Z n + (1 # 2))%Q) \/
  (exists d h u (k : Z), s = d ++ chars u /\ In (u, k) [(" KiB", 1); (" MiB", 2); (" GiB", 3); (" TiB", 4); (" PiB", 5)]%string /\
     decimal_2 d h /\ (inject_Z (1024 ^ k) <= x < inject_Z (1024 ^ (k + 1)))%Q /\
     ((inject_Z h - (1 # 2)) * inject_Z (1024 ^ k) <= 100 * x <= (inject_Z h + (1 # 2)) * inject_Z (1024 ^ k))%Q).

(* Up to 8 PiB in less than 115 days, at less than 512 PiB/s; percents of up to
   three digits. *)
Definition usual (x : shot) : Prop :=
  0 <= s_transferred x <= 2 ^ 53 /\ 0 <= fst (s_elapsed x) /\ s_value x <= 999 /\
  (fval (s_elapsed x) < 10000000)%Q /\
  (fst (s_elapsed x) = 0 \/ (inject_Z (s_transferred x) < inject_Z (2 ^ 59) * fval (s_elapsed x))%Q).

(* The length of a phase. *)
Definition phase_length (x : shot) : nat :=
  match s_phase x with Some p => List.length p | None => 0 end.
