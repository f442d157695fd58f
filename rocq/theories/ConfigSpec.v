(* What sizes, option values and configuration values should be, independent of
   the parsers. *)
From Coq Require Import ZArith List Ascii String.
From Verif Require Import HeaderModel HeaderSpec ConfigModel.
Import ListNotations.
Open Scope Z_scope.

(* ---- TLS ---- *)

Definition rank (v : tls_version) : Z :=
  match v with TLSv1 => 10 | TLSv1_1 => 11 | TLSv1_2 => 12 | TLSv1_3 => 13 end.

(* A context with this minimum version takes a connection of version v. *)
Definition allows (minimum v : tls_version) : Prop := rank minimum <= rank v.

(* ---- sizes ---- *)

(* The letter of a unit, small or capital, and what it stands for. *)
Inductive unit_of : str -> Z -> Prop :=
| u_none : unit_of [] 1
| u_kib c : c = "k"%char \/ c = "K"%char -> unit_of [c] (2 ^ 10)
| u_mib c : c = "m"%char \/ c = "M"%char -> unit_of [c] (2 ^ 20)
| u_gib c : c = "g"%char \/ c = "G"%char -> unit_of [c] (2 ^ 30)
| u_tib c : c = "t"%char \/ c = "T"%char -> unit_of [c] (2 ^ 40).

(* A size: a decimal number and a unit. *)
Definition denotes (s : str) (n : Z) : Prop :=
  exists d u k w, s = d ++ u /\ decimal d k /\ unit_of u w /\ n = k * w.

Definition within (minimum : Z) (maximum : option Z) (n : Z) : Prop :=
  minimum <= n /\ match maximum with Some m => n <= m | None => True end.

(* int() takes numbers with this many digits. *)
Definition digits_fit (lim : option Z) (s : str) : Prop :=
  match lim with Some m => Z.of_nat (List.length s) <= m | None => True end.

(* Letters and digits only. *)
Definition plain (c : ascii) : Prop :=
  let n := N_of_ascii c in
  (48 <= n <= 57 \/ 65 <= n <= 90 \/ 97 <= n <= 122)%N.

(* ---- options ---- *)

(* The value an option should have; [cmd] has the values of the command line,
   [sec] is the section chosen with --config. *)
Inductive value_of (cmd : space) (sec : option section) (o : opt) : option value -> Prop :=
| from_cmd v :
    o_args o = true -> cmd (o_name o) = Some v -> value_of cmd sec o (Some v)
| from_config raw v se :
    (o_args o = true -> cmd (o_name o) = None) -> sec = Some se -> o_config o = true ->
    se (o_name o) = Some raw -> o_type o raw = Some v -> value_of cmd sec o (Some v)
| from_default :
    (o_args o = true -> cmd (o_name o) = None) ->
    (forall se, sec = Some se -> o_config o = true -> se (o_name o) = None) ->
    value_of cmd sec o (o_default o).

(* A value of the file is used for the option and is not a value of its
   type. *)
Definition bad_value (cmd : space) (sec : option section) (o : opt) : Prop :=
  exists se raw, (o_args o = true -> cmd (o_name o) = None) /\ sec = Some se /\
    o_config o = true /\ se (o_name o) = Some raw /\ o_type o raw = None.

(* The section named on the command line. *)
Definition chosen (cmd : space) (name : string) : Prop :=
  name <> ""%string /\ cmd "config"%string = Some (VStr (lit name)).

(* The section used: none, or the one of the file. *)
Inductive selected (cmd : space) (file : string -> option section) : option section -> Prop :=
| sel_none : (forall name, ~ chosen cmd name) -> selected cmd file None
| sel_some name se : chosen cmd name -> file name = Some se -> selected cmd file (Some se).

(* [s] without the newlines at its end. *)
Definition without_newlines (s t : str) : Prop :=
  (exists k, s = t ++ repeat (ascii_of_N 10) k) /\ (forall t', t <> t' ++ [ascii_of_N 10]).

(* ---- configuration files ---- *)

(* The reserved words of Python in lower case. *)
Definition reserved : list string :=
  ["and"; "as"; "assert"; "async"; "await"; "break"; "class"; "continue"; "def"; "del"; "elif";
   "else"; "except"; "finally"; "for"; "from"; "global"; "if"; "import"; "in"; "is"; "lambda";
   "nonlocal"; "not"; "or"; "pass"; "raise"; "return"; "try"; "while"; "with"; "yield"]%string.

(* The name of an option in the configuration classes: not case sensitive,
   with a prefix if it is a keyword. *)
Inductive option_name : str -> str -> Prop :=
| plain_name s l : l = map lower s -> ~ In l (map lit reserved) -> option_name s l
| keyword_name s l : l = map lower s -> In l (map lit reserved) -> option_name s (lit "keyword__" ++ l).

(* File f has a value for an option of a section. *)
Definition sets (f : cfile) (sec opt raw : str) : Prop :=
  exists opts name, In (sec, opts) f /\ In (name, raw) opts /\ option_name name opt.

Definition has_section (files : list cfile) (sec : str) : Prop :=
  exists f opts, In f files /\ In (sec, opts) f.

(* The last file with a value for the option has this value. *)
Definition last_set (files : list cfile) (sec opt raw : str) : Prop :=
  exists before f after, files = before ++ f :: after /\ sets f sec opt raw /\
    forall g raw', In g after -> ~ sets g sec opt raw'.

Definition never_set (files : list cfile) (sec opt : str) : Prop :=
  forall f raw, In f files -> ~ sets f sec opt raw.

(* The text for an option in the files: the value in the section, else the
   value of the DEFAULT section, if the files have the section at all. *)
Inductive text_for (files : list cfile) (sec opt : str) : option str -> Prop :=
| in_section raw : last_set files sec opt raw -> text_for files sec opt (Some raw)
| in_default raw :
    has_section files sec -> never_set files sec opt -> last_set files (lit "DEFAULT") opt raw ->
    text_for files sec opt (Some raw)
| not_set :
    never_set files sec opt ->
    (~ has_section files sec \/ never_set files (lit "DEFAULT") opt) ->
    text_for files sec opt None.

(* A text is this value, for an option with a default of the same type. *)
Inductive typed (floats : str -> bool) (lim : option Z) : cval -> str -> cval -> Prop :=
| t_str d s : typed floats lim (CStr d) s (CStr s)
| t_int d s n : py_int lim s = inl n -> typed floats lim (CInt d) s (CInt n)
| t_float d s : floats s = true -> typed floats lim (CFloat d) s (CFloat s)
| t_true d s : In (map lower s) (map lit ["true"; "yes"; "1"; "on"]%string) ->
    typed floats lim (CBool d) s (CBool true)
| t_false d s : In (map lower s) (map lit ["false"; "no"; "0"; "off"]%string) ->
    typed floats lim (CBool d) s (CBool false).

(* The value of an option after loading. *)
Inductive loaded (floats : str -> bool) (lim : option Z) (files : list cfile) (sec : str)
  : str * cval -> str * cval -> Prop :=
| l_set o d raw v : text_for files sec o (Some raw) -> typed floats lim d raw v ->
    loaded floats lim files sec (o, d) (o, v)
| l_default o d : text_for files sec o None -> loaded floats lim files sec (o, d) (o, d).

(* One file says the same thing twice. *)
Definition duplicates (f : cfile) : Prop :=
  (exists a b c s o o', f = a ++ (s, o) :: b ++ (s, o') :: c /\ s <> lit "DEFAULT") \/
  (exists sec name a b c x x' y y',
     List.concat (map snd (filter (fun p => if list_eq_dec ascii_dec (fst p) sec then true else false) f))
     = a ++ (x, y) :: b ++ (x', y') :: c /\ option_name x name /\ option_name x' name).

(* Option names of the classes are already mapped names. *)
Definition canonical (cfg : config) : Prop :=
  forall sec opts o d, In (sec, opts) cfg -> In (o, d) opts -> keyword_mapping o = o.

(* ---- the order of files ---- *)

Definition code (s : str) : list N := map N_of_ascii s.

(* Order of names, character by character. *)
Inductive name_lt : list N -> list N -> Prop :=
| lt_nil y b : name_lt [] (y :: b)
| lt_char x y a b : (x < y)%N -> name_lt (x :: a) (y :: b)
| lt_same x a b : name_lt a b -> name_lt (x :: a) (x :: b).

(* A list of files in the order they apply: by name, files with the same name
   as in [files]. *)
Definition in_order (files l : list (str * cfile)) : Prop :=
  (forall a f b g c, l = a ++ f :: b ++ g :: c -> ~ name_lt (code (fst g)) (code (fst f))) /\
  (forall n, let named := filter (fun f : str * cfile =>
                            if list_eq_dec ascii_dec (fst f) n then true else false) in
             named l = named files).

(* Texts that differ only in the case of ASCII letters. *)
Definition same_letter (a b : ascii) : Prop :=
  a = b \/ exists i, (i < 26)%N /\
    ((N_of_ascii a = 65 + i /\ N_of_ascii b = 97 + i) \/ (N_of_ascii a = 97 + i /\ N_of_ascii b = 65 + i))%N.
Definition same_case (a b : str) : Prop := Forall2 same_letter a b.

(* The values of the options of the tool, as told to users by its help and
   errors. *)
Definition meant (lim : option Z) (name : string) (s : str) (v : value) : Prop :=
  (name = "output" /\ In s (map lit ["text"; "json"]) /\ v = VStr s)%string \/
  (name = "log_level" /\ In s (map lit ["debug"; "info"; "warning"; "error"]) /\ v = VStr s)%string \/
  (name = "secure"%string /\
     exists t b, same_case s (lit t) /\ v = VBool b /\
       In (t, b) [("1", true); ("yes", true); ("true", true); ("on", true);
                  ("0", false); ("no", false); ("false", false); ("off", false)]%string) \/
  (name = "disk_timeout"%string /\ exists n, py_int lim s = inl n /\ v = VInt n) \/
  (~ In name ["output"; "log_level"; "secure"; "disk_timeout"]%string /\ v = VStr s).
