(* What the shown configuration should be. *)
From Coq Require Import ZArith List Ascii String.
From Verif Require Import HeaderModel HeaderSpec ConfigModel ConfigSpec ShowModel.
From Verif Require JsonModel JsonSpec.
Import ListNotations.
Open Scope Z_scope.

(* Names of attributes: small letters, no keyword of Python, and the prefix
   only before a keyword. *)
Definition attribute (o : str) : Prop :=
  map lower o = o /\ ~ In o (map lit reserved) /\
  forall r, o = lit "keyword__" ++ r -> In r (map lit reserved).

(* A configuration made of classes: distinct sections and attributes. *)
Definition proper (cfg : config) : Prop :=
  NoDup (map fst cfg) /\ ~ In (lit "DEFAULT") (map fst cfg) /\
  forall sec opts, In (sec, opts) cfg -> NoDup (map fst opts) /\ Forall attribute (map fst opts).

(* The name of an attribute for users: without the prefix. *)
Inductive shown : str -> str -> Prop :=
| s_plain o : (forall r, o <> lit "keyword__" ++ r) -> shown o o
| s_keyword r : shown (lit "keyword__" ++ r) r.

(* An option of the configuration, by its name for users. *)
Definition option_of (cfg : config) (sec name : str) (v : cval) : Prop :=
  exists opts o, In (sec, opts) cfg /\ In (o, v) opts /\ shown o name.

(* Floats are numbers. *)
Definition finite (float_of : str -> bool * Z * list Z * option Z) : Prop :=
  forall s neg n fr e, float_of s = (neg, n, fr, e) ->
    0 <= n /\ Forall (fun d => 0 <= d <= 9) fr /\ (fr <> [] \/ e <> None).

(* The value that a program reads. *)
Definition read_as (float_of : str -> bool * Z * list Z * option Z) (v : cval) (x : JsonModel.value) : Prop :=
  match v, x with
  | CStr s, JsonModel.VStr t => t = map (fun c => Z.of_nat (nat_of_ascii c)) s
  | CInt n, JsonModel.VInt m => m = n
  | CBool b, JsonModel.VBool c => c = b
  | CFloat s, JsonModel.VReal neg n fr e => float_of s = (neg, n, fr, e)
  | _, _ => False
  end.

(* A name as code points. *)
Definition chars (s : str) : JsonModel.text := map (fun c => Z.of_nat (nat_of_ascii c)) s.

(* A text of a value, as str() makes it. *)
Inductive text_of : cval -> str -> Prop :=
| x_str s : text_of (CStr s) s
| x_int s n : decimal s n -> text_of (CInt n) s
| x_neg s n : decimal s n -> 0 < n -> text_of (CInt (- n)) (lit "-" ++ s)
| x_true : text_of (CBool true) (lit "True")
| x_false : text_of (CBool false) (lit "False")
| x_float s : text_of (CFloat s) s.

(* Integers in the configuration have no more digits than int() takes. *)
Definition ints_fit (lim : option Z) (cfg : config) : Prop :=
  forall m sec opts o n, lim = Some m -> In (sec, opts) cfg -> In (o, CInt n) opts ->
    0 < m /\ Z.abs n < 10 ^ m.

(* The floats of the classes are floats. *)
Definition floats_fit (floats : str -> bool) (cfg : config) : Prop :=
  forall sec opts o s, In (sec, opts) cfg -> In (o, CFloat s) opts -> floats s = true.
