(* RFC 8259: the texts of a JSON value.  Independent of the functions of the
   model; only the type of values is shared. *)
From Coq Require Import ZArith List Bool.
From Verif Require Import JsonModel.
Import ListNotations.
Open Scope Z_scope.

(* Insignificant white space, RFC 8259 section 2 *)
Definition white (t : text) : Prop := Forall (fun c => c = 32 \/ c = 9 \/ c = 10 \/ c = 13) t.

(* Section 6, numbers.  [decimal t n]: the digits t are the number n. *)
Inductive decimal : text -> Z -> Prop :=
| d_one d : 0 <= d <= 9 -> decimal [48 + d] d
| d_more t n d : decimal t n -> 0 <= d <= 9 -> decimal (t ++ [48 + d]) (10 * n + d).
Definition integral (t : text) (n : Z) : Prop := decimal t n /\ (t = [48] \/ hd 0 t <> 48).
Definition minus (neg : bool) : text := if neg then [45] else [].
Inductive frac_part : list Z -> text -> Prop :=
| f_none : frac_part [] []
| f_some ds : ds <> [] -> Forall (fun d => 0 <= d <= 9) ds -> frac_part ds (46 :: map (fun d => 48 + d) ds).
Inductive exp_part : option Z -> text -> Prop :=
| e_none : exp_part None []
| e_plain (e : Z) t n : (e = 101 \/ e = 69) -> decimal t n -> exp_part (Some n) (e :: t)
| e_plus (e : Z) t n : (e = 101 \/ e = 69) -> decimal t n -> exp_part (Some n) (e :: 43 :: t)
| e_minus (e : Z) t n : (e = 101 \/ e = 69) -> decimal t n -> exp_part (Some (- n)) (e :: 45 :: t).
Inductive jnumber : value -> text -> Prop :=
| n_int (neg : bool) t n : integral t n -> jnumber (VInt (if neg then - n else n)) (minus neg ++ t)
| n_real (neg : bool) t n fr e ft et : integral t n -> frac_part fr ft -> exp_part e et ->
    fr <> [] \/ e <> None -> jnumber (VReal neg n fr e) (minus neg ++ t ++ ft ++ et).

(* Section 7, strings.  A character outside the basic plane is written itself or
   as two surrogates. *)
Definition hex (c v : Z) : Prop :=
  (48 <= c <= 57 /\ v = c - 48) \/ (97 <= c <= 102 /\ v = c - 87) \/ (65 <= c <= 70 /\ v = c - 55).
Definition unit_text (t : text) (u : Z) : Prop :=
  exists a b c d a' b' c' d', t = [92; 117; a; b; c; d] /\
    hex a a' /\ hex b b' /\ hex c c' /\ hex d d' /\ u = 4096 * a' + 256 * b' + 16 * c' + d'.
Definition high (u : Z) : Prop := 55296 <= u <= 56319.
Definition low (u : Z) : Prop := 56320 <= u <= 57343.
Inductive jchars : text -> text -> Prop :=
| c_nil : jchars [] []
| c_plain c s t : 32 <= c -> c <> 34 -> c <> 92 -> jchars s t -> jchars (c :: s) (c :: t)
| c_short c e s t :
    In (c, e) [(34, 34); (92, 92); (47, 47); (8, 98); (12, 102); (10, 110); (13, 114); (9, 116)] ->
    jchars s t -> jchars (c :: s) (92 :: e :: t)
| c_unit u x s t : unit_text x u ->
    ~ (high u /\ exists y v t', t = y ++ t' /\ unit_text y v /\ low v) ->
    jchars s t -> jchars (u :: s) (x ++ t)
| c_pair u v x y s t : unit_text x u -> unit_text y v -> high u -> low v ->
    jchars s t -> jchars (65536 + (u - 55296) * 1024 + (v - 56320) :: s) (x ++ y ++ t).

(* Sections 3 to 5: values, objects, arrays.  The names of an object are
   distinct. *)
Inductive jval : value -> text -> Prop :=
| j_null : jval VNull [110; 117; 108; 108]
| j_true : jval (VBool true) [116; 114; 117; 101]
| j_false : jval (VBool false) [102; 97; 108; 115; 101]
| j_number v t : jnumber v t -> jval v t
| j_string s t : jchars s t -> jval (VStr s) (34 :: t ++ [34])
| j_no_items w : white w -> jval (VList []) (91 :: w ++ [93])
| j_list l t : jitems l t -> jval (VList l) (91 :: t ++ [93])
| j_no_members w : white w -> jval (VObj []) (123 :: w ++ [125])
| j_object d t : jmembers d t -> NoDup (map fst d) -> jval (VObj d) (123 :: t ++ [125])
with jitems : list value -> text -> Prop :=
| i_last v w t w' : white w -> jval v t -> white w' -> jitems [v] (w ++ t ++ w')
| i_more v l w t w' r : white w -> jval v t -> white w' -> jitems l r ->
    jitems (v :: l) (w ++ t ++ w' ++ 44 :: r)
with jmembers : list (text * value) -> text -> Prop :=
| m_last k v w kt w' w'' t w3 : white w -> jchars k kt -> white w' -> white w'' -> jval v t -> white w3 ->
    jmembers [(k, v)] (w ++ 34 :: kt ++ 34 :: w' ++ 58 :: w'' ++ t ++ w3)
| m_more k v d w kt w' w'' t w3 r : white w -> jchars k kt -> white w' -> white w'' -> jval v t -> white w3 ->
    jmembers d r ->
    jmembers ((k, v) :: d) (w ++ 34 :: kt ++ 34 :: w' ++ 58 :: w'' ++ t ++ w3 ++ 44 :: r).

(* A text of a value. *)
Definition json_text (v : value) (t : text) : Prop :=
  exists w t' w', t = w ++ t' ++ w' /\ white w /\ jval v t' /\ white w'.

(* A str: code points. *)
Definition code_points (s : text) : Prop := Forall (fun c => 0 <= c < 1114112) s.

(* Unicode text: no surrogates. *)
Definition unicode (s : text) : Prop := code_points s /\ Forall (fun c => ~ (55296 <= c <= 57343)) s.

(* No high surrogate is followed by a low one.  Any Unicode text is such, and
   any file name decoded with surrogateescape (only low surrogates). *)
Fixpoint unpaired (s : text) : Prop :=
  match s with
  | a :: (b :: _) as r => ~ (high a /\ low b) /\ unpaired r
  | _ => True
  end.

(* Values that can be written: texts as above, distinct names, floats that are
   finite. *)
Inductive writable : value -> Prop :=
| w_null : writable VNull
| w_bool b : writable (VBool b)
| w_int n : writable (VInt n)
| w_real neg n fr e : 0 <= n -> Forall (fun d => 0 <= d <= 9) fr -> fr <> [] \/ e <> None ->
    writable (VReal neg n fr e)
| w_str s : code_points s -> unpaired s -> writable (VStr s)
| w_list l : Forall writable l -> writable (VList l)
| w_obj d : Forall (fun p => code_points (fst p) /\ unpaired (fst p)) d -> Forall (fun p => writable (snd p)) d ->
    NoDup (map fst d) -> writable (VObj d).

(* Printable ASCII. *)
Definition printable (t : text) : Prop := Forall (fun c => 32 <= c <= 126) t.

(* Following names in objects. *)
Inductive at_path : value -> list text -> value -> Prop :=
| p_here v : at_path v [] v
| p_step d k x p v : In (k, x) d -> NoDup (map fst d) -> at_path x p v -> at_path (VObj d) (k :: p) v.

(* The value of the last member with a name. *)
Inductive last_member (k : text) : list (text * value) -> value -> Prop :=
| l_here x d : ~ In k (map fst d) -> last_member k ((k, x) :: d) x
| l_later p x d : last_member k d x -> last_member k (p :: d) x.

(* The lines of a text; every line ends with a newline. *)
Inductive lines_of : text -> list text -> Prop :=
| ln_nil : lines_of [] []
| ln_cons l t ls : ~ In 10 l -> lines_of t ls -> lines_of (l ++ 10 :: t) (l :: ls).
