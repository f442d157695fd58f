(* Configuration: TLS versions, sizes and options of the command line tool, and
   configuration files of the daemon.  Paths are relative to
   /repo/ovirt_imageio.  Strings are Latin-1 (list ascii); other characters
   are left out (str.lower() maps the Kelvin sign to "k", and int() accepts
   decimal digits of other scripts). *)
From Coq Require Import ZArith List Bool Ascii String.
From Verif Require Import HeaderModel HttpModel.
Import ListNotations.
Open Scope Z_scope.

(* ---- TLS, _internal/ssl.py ---- *)

(* ssl.TLSVersion *)
(* Python's ssl module, used in _internal/ssl.py:12-14, 22-24. *)
Inductive tls_version := TLSv1 | TLSv1_1 | TLSv1_2 | TLSv1_3.

(* _internal/ssl.py:8-16 server_context: minimum_version of the context.  The
   minimum set by create_default_context is overwritten in any case. *)
Definition server_context (enable_tls1_1 : bool) : tls_version :=
  let minimum := TLSv1_1 in                                          (* 12 *)
  if negb enable_tls1_1 then TLSv1 else minimum.                     (* 13-14 *)

(* _internal/ssl.py:19-25 client_context *)
Definition client_context (enable_tls1_1 : bool) : tls_version :=
  let minimum := TLSv1_1 in                                          (* 22 *)
  if negb enable_tls1_1 then TLSv1 else minimum.                     (* 23-24 *)

(* ---- sizes, client/_options.py:320-360 ---- *)

(* _internal/units.py *)
Definition KiB : Z := 1024.
Definition MiB : Z := 1024 ^ 2.
Definition GiB : Z := 1024 ^ 3.
Definition TiB : Z := 1024 ^ 4.

(* str.lower() of a Latin-1 character, only for the letters of ASCII; the
   others are not used in names or units. *)
(* Python semantics, no line of /repo. *)
Definition lower (c : ascii) : ascii :=
  let n := N_of_ascii c in
  if (65 <=? n)%N && (n <=? 90)%N then ascii_of_N (n + 32) else c.

(* client/_options.py:322 SizeValue.SUFFIXES; the suffixes in order *)
Definition SUFFIXES : list (str * Z) :=
  [([], 1); (lits "k", KiB); (lits "m", MiB); (lits "g", GiB); (lits "t", TiB)].

(* Python semantics, no line of /repo. *)
Fixpoint assoc {A} (d : list (str * A)) (k : str) : option A :=
  match d with
  | [] => None
  | (k', v) :: d => if str_eqb k' k then Some v else assoc d k
  end.

(* client/_options.py:344-360 Size.__call__; None is ValueError.  [lim] is the
   digit limit of int(). *)
Definition size_call (lim : option Z) (minimum : Z) (maximum : option Z) (s : str) : option Z :=
  match s with
  | [] => None                                                       (* 345-346 *)
  | c0 :: _ =>
      let unit := assoc SUFFIXES [lower (last s c0)] in              (* 348 *)
      match (match unit with                                         (* 349-352 *)
             | Some u => match py_int lim (removelast s) with inl n => Some (n * u) | inr _ => None end
             | None => match py_int lim s with inl n => Some n | inr _ => None end
             end) with
      | None => None
      | Some value =>
          if value <? minimum then None                              (* 354-355 *)
          else match maximum with
               | Some m => if value >? m then None else Some value   (* 357-358 *)
               | None => Some value
               end
      end
  end.

(* client/_options.py:324-330 SizeValue.__str__: the number and the suffix of
   the text *)
Fixpoint size_units (units : list (str * Z)) (n : Z) (unit : str) : Z * str :=
  match units with
  | [] => (n, unit)
  | (u, _) :: r => if n <? KiB then (n, u) else size_units r (n / KiB) u
  end.
Definition size_str (n : Z) : Z * str := size_units SUFFIXES n [].

(* ---- options of the tool, client/_options.py ---- *)

Inductive value := VStr (s : str) | VBool (b : bool) | VInt (n : Z).

(* client/_options.py:58-98 Option; o_type is None when it raises ValueError,
   o_args whether there are command line arguments. *)
Record opt := Opt {
  o_name : string;
  o_args : bool;
  o_config : bool;
  o_required : bool;
  o_type : str -> option value;
  o_default : option value
}.

(* The default of type, str: client/_options.py:64-86. *)
Definition text (s : str) : option value := Some (VStr s).

(* client/_options.py:28-49 Choices *)
Definition choices (l : list string) (s : str) : option value :=
  if existsb (fun c => str_eqb (lits c) s) l then Some (VStr s) else None.

(* client/_options.py:24-25 BOOLEAN_VALUES, 52-55 bool_string *)
Definition TRUE_VALUES : list string := ["1"; "yes"; "true"; "on"]%string.
Definition FALSE_VALUES : list string := ["0"; "no"; "false"; "off"]%string.
Definition bool_of (s : str) : option bool :=
  let s := map lower s in
  if existsb (fun c => str_eqb (lits c) s) TRUE_VALUES then Some true
  else if existsb (fun c => str_eqb (lits c) s) FALSE_VALUES then Some false
  else None.
Definition bool_string (s : str) : option value := option_map VBool (bool_of s).

(* The type int of client/_options.py:101-188, as called by argparse. *)
Definition int_type (lim : option Z) (s : str) : option value :=
  match py_int lim s with inl n => Some (VInt n) | inr _ => None end.

(* client/_options.py:101-188 Parser._OPTIONS *)
Definition OPTIONS (lim : option Z) : list opt :=
  [ Opt "config" true false false text None;
    Opt "engine_url" true true true text None;
    Opt "username" true true true text None;
    Opt "password" false true false text None;
    Opt "password_file" true false false text None;
    Opt "cafile" true true false text None;
    Opt "secure" true true false bool_string (Some (VBool true));
    Opt "output" true false false (choices ["text"; "json"]) (Some (VStr (lits "text")));
    Opt "disk_timeout" false true false (int_type lim) (Some (VInt 120));
    Opt "log_file" true true false text None;
    Opt "log_level" true true false (choices ["debug"; "info"; "warning"; "error"])
      (Some (VStr (lits "warning")));
    Opt "description" true true false text (Some (VStr (lits "Uploaded by ovirt-img"))) ]%string.

(* The attributes of args; None stands for None and for a missing attribute,
   which getattr(args, name, None) does not tell apart. *)
(* For client/_options.py:233-306. *)
Definition space := string -> option value.
(* For client/_options.py:233-306. *)
Definition set (ns : space) (name : string) (v : option value) : space :=
  fun n => if String.eqb n name then v else ns n.

(* What argparse gives (client/_options.py:201-210, 87-98): values of the
   options that have arguments, converted; argparse itself is not modelled. *)
Definition parsed (opts : list opt) (cmd : space) : space :=
  fold_left (fun ns o => if o_args o then set ns (o_name o) (cmd (o_name o)) else ns) opts
    (fun _ => None).

(* One section of the configuration file: options by name. *)
(* configparser, used in client/_options.py:256-285. *)
Definition section := string -> option str.

(* client/_options.py:256-285: the loop of _merge_config; None is
   parser.error *)
Fixpoint merge_config (opts : list opt) (sec : section) (ns : space) : option space :=
  match opts with
  | [] => Some ns
  | o :: opts =>
      if negb (o_config o) then merge_config opts sec ns             (* 270-271 *)
      else match ns (o_name o) with
           | Some _ => merge_config opts sec ns                      (* 274-275 *)
           | None =>
               match sec (o_name o) with                             (* 278-285 *)
               | None => merge_config opts sec ns
               | Some raw =>
                   match o_type o raw with
                   | None => None
                   | Some v => merge_config opts sec (set ns (o_name o) (Some v))
                   end
               end
           end
  end.

(* client/_options.py:287-295 _set_defaults *)
Definition set_defaults (opts : list opt) (ns : space) : space :=
  fold_left (fun ns o => match ns (o_name o) with
                         | None => set ns (o_name o) (o_default o)
                         | Some _ => ns
                         end) opts ns.

(* client/_options.py:297-306 _check_required_options: the missing ones *)
Definition missing (opts : list opt) (ns : space) : list string :=
  map o_name (filter (fun o => o_required o && match ns (o_name o) with None => true | _ => false end)
                opts).

(* client/_options.py:233-247 Parser.parse without the password; [file] has
   the sections of the configuration file. *)
Definition parse (opts : list opt) (cmd : space) (file : string -> option section) : option space :=
  let ns := parsed opts cmd in
  let merged :=
    match ns "config"%string with                                    (* 239-240 *)
    | Some (VStr (c :: r)) =>
        match file (string_of_list_ascii (c :: r)) with
        | None => None                                               (* 265-267 *)
        | Some sec => merge_config opts sec ns
        end
    | _ => Some ns
    end in
  match merged with
  | None => None
  | Some ns =>
      let ns := set_defaults opts ns in
      match missing opts ns with [] => Some ns | _ => None end
  end.

(* s.rstrip("\n") *)
(* Used for client/_options.py:308-317. *)
Definition rstrip_newlines (s : str) : str :=
  let fix skip (l : str) : str :=
    match l with
    | c :: r => if Ascii.eqb c (ascii_of_N 10) then skip r else l
    | [] => []
    end in rev (skip (rev s)).

(* client/_options.py:308-317 _read_password: [read] gives the content of a
   file (None raises), [prompt] what the user types. *)
Definition read_password (ns : space) (read : str -> option str) (prompt : str) : option space :=
  match ns "password_file"%string with
  | Some (VStr (c :: r)) =>
      match read (c :: r) with
      | None => None
      | Some s => Some (set ns "password" (Some (VStr (rstrip_newlines s))))
      end
  | _ => match ns "password"%string with
         | None => Some (set ns "password" (Some (VStr prompt)))
         | Some _ => Some ns
         end
  end.

(* ---- configuration files of the daemon, _internal/configloader.py ---- *)

(* A value in the configuration, of the type of its default. A float is kept
   as text; [floats] tells which texts float() takes. *)
(* The classes of _internal/config.py:8-253 seen by _internal/configloader.py:89-99. *)
Inductive cval := CStr (s : str) | CInt (n : Z) | CFloat (s : str) | CBool (b : bool).
(* The classes of _internal/config.py:8-253 seen by _internal/configloader.py:89-99. *)
Definition config := list (str * list (str * cval)).

(* What RawConfigParser finds in a file: sections with options. The text
   format is not modelled; parser.read skips files it cannot open, they are
   left out. *)
(* For _internal/configloader.py:86-88. *)
Definition cfile := list (str * list (str * str)).

(* keyword.iskeyword for names in lower case *)
(* Python's keyword module, used in _internal/configloader.py:80. *)
Definition KEYWORDS : list string :=
  ["and"; "as"; "assert"; "async"; "await"; "break"; "class"; "continue"; "def"; "del"; "elif";
   "else"; "except"; "finally"; "for"; "from"; "global"; "if"; "import"; "in"; "is"; "lambda";
   "nonlocal"; "not"; "or"; "pass"; "raise"; "return"; "try"; "while"; "with"; "yield"]%string.

(* _internal/configloader.py:78-82 keyword_mapping *)
Definition keyword_mapping (option : str) : str :=
  let option := map lower option in
  if existsb (fun k => str_eqb (lits k) option) KEYWORDS then lits "keyword__" ++ option else option.

(* configparser's default section, for _internal/configloader.py:86-93. *)
Definition DEFAULT : str := lits "DEFAULT".

(* configparser, for _internal/configloader.py:86-88. *)
Fixpoint mem (x : str) (l : list str) : bool :=
  match l with [] => false | y :: l => str_eqb y x || mem x l end.
(* configparser, for _internal/configloader.py:86-88. *)
Fixpoint nodup (l : list str) : bool :=
  match l with [] => true | x :: l => negb (mem x l) && nodup l end.

(* Duplicates in one file raise (strict parser): sections, except DEFAULT which
   may be repeated, and options of one section. *)
(* configparser, for _internal/configloader.py:86-88. *)
Definition valid_file (f : cfile) : bool :=
  nodup (filter (fun s => negb (str_eqb s DEFAULT)) (map fst f)) &&
  nodup (map keyword_mapping (List.concat (map (fun p : str * list (str * str) => map fst (snd p))
           (filter (fun p => str_eqb (fst p) DEFAULT) f)))) &&
  forallb (fun p : str * list (str * str) => nodup (map keyword_mapping (map fst (snd p)))) f.

(* The parser's dictionary: section, then option; later ones replace. *)
(* configparser, for _internal/configloader.py:86-88. *)
Definition pstate := list (str * list (str * str)).
(* configparser, for _internal/configloader.py:86-88. *)
Fixpoint put {A} (d : list (str * A)) (k : str) (v : A) : list (str * A) :=
  match d with
  | [] => [(k, v)]
  | (k', v') :: d => if str_eqb k' k then (k', v) :: d else (k', v') :: put d k v
  end.
(* configparser, for _internal/configloader.py:86-88. *)
Definition put_options (opts : list (str * str)) (new : list (str * str)) : list (str * str) :=
  fold_left (fun d p => put d (keyword_mapping (fst p)) (snd p)) new opts.
(* configparser, for _internal/configloader.py:86-88. *)
Definition read_file (st : pstate) (f : cfile) : pstate :=
  fold_left (fun st p =>
    put st (fst p) (put_options (match assoc st (fst p) with Some o => o | None => [] end) (snd p)))
    f st.

(* parser.get(section, option): NoSection, NoOption or a value; the options of
   DEFAULT are in every section. *)
(* configparser, for _internal/configloader.py:93-97. *)
Inductive got := NoSection | NoOption | Got (raw : str).
(* configparser, for _internal/configloader.py:93-97. *)
Definition parser_get (st : pstate) (sec option : str) : got :=
  match assoc st sec with
  | None => NoSection
  | Some opts =>
      let option := keyword_mapping option in
      match assoc opts option with
      | Some raw => Got raw
      | None =>
          match assoc st DEFAULT with
          | Some d => match assoc d option with Some raw => Got raw | None => NoOption end
          | None => NoOption
          end
      end
  end.

Section Load.
Variable lim : option Z.
Variable floats : str -> bool.

(* _internal/configloader.py:132-147 _validate_bool, _validators: the value
   for a text and a default; None is ValueError *)
Definition validate (default : cval) (raw : str) : option cval :=
  match default with
  | CStr _ => Some (CStr raw)
  | CInt _ => match py_int lim raw with inl n => Some (CInt n) | inr _ => None end
  | CFloat _ => if floats raw then Some (CFloat raw) else None
  | CBool _ => option_map CBool (bool_of raw)
  end.

(* _internal/configloader.py:88-107: the loops of load *)
Fixpoint load_options (st : pstate) (sec : str) (opts : list (str * cval)) : option (list (str * cval)) :=
  match opts with
  | [] => Some []
  | (o, d) :: r =>
      match parser_get st sec o with
      | NoSection => Some opts                                       (* break *)
      | NoOption =>                                                  (* continue *)
          match load_options st sec r with Some r => Some ((o, d) :: r) | None => None end
      | Got raw =>
          match validate d raw with
          | None => None
          | Some v =>
              match load_options st sec r with Some r => Some ((o, v) :: r) | None => None end
          end
      end
  end.
Fixpoint load_sections (st : pstate) (cfg : config) : option config :=
  match cfg with
  | [] => Some []
  | (sec, opts) :: cfg =>
      match load_options st sec opts with
      | None => None
      | Some opts =>
          match load_sections st cfg with Some cfg => Some ((sec, opts) :: cfg) | None => None end
      end
  end.

(* _internal/configloader.py:83-107 load; None if it raises *)
Definition load (cfg : config) (files : list cfile) : option config :=
  if forallb valid_file files then load_sections (fold_left read_file files []) cfg else None.

(* ---- _internal/server.py:82-103 load_config ---- *)

(* Comparison of strings. *)
(* Python semantics, for _internal/server.py:101. *)
Fixpoint str_leb (a b : str) : bool :=
  match a, b with
  | [], _ => true
  | _ :: _, [] => false
  | x :: a, y :: b =>
      if (N_of_ascii x <? N_of_ascii y)%N then true
      else if (N_of_ascii y <? N_of_ascii x)%N then false
      else str_leb a b
  end.

(* files.sort(key=os.path.basename), a stable sort; a file is its base name
   and its content *)
(* _internal/server.py:101. *)
Fixpoint insert (f : str * cfile) (l : list (str * cfile)) : list (str * cfile) :=
  match l with
  | [] => [f]
  | g :: r => if str_leb (fst f) (fst g) then f :: l else g :: insert f r
  end.
(* _internal/server.py:101. *)
Fixpoint sort (l : list (str * cfile)) : list (str * cfile) :=
  match l with [] => [] | f :: r => insert f (sort r) end.

(* [etc] and [vendor] are what glob finds in the two directories. *)
Definition load_config (defaults : config) (etc vendor : list (str * cfile)) : option config :=
  match etc with
  | [] => None                                                       (* 89-90 *)
  | _ => load defaults (map snd (sort (etc ++ vendor)))              (* 93-103 *)
  end.

End Load.

(* _internal/config.py:8-177: some of the defaults (the others are the same
   kinds of values) *)
Definition defaults : config :=
  [ (lits "daemon", [ (lits "poll_interval", CFloat (lits "1.0"));
                      (lits "max_connections", CInt 8);
                      (lits "inactivity_timeout", CInt 60);
                      (lits "run_dir", CStr (lits "/run/ovirt-imageio"));
                      (lits "drop_privileges", CBool true);
                      (lits "user_name", CStr (lits "ovirtimg")) ]);
    (lits "tls", [ (lits "enable", CBool true); (lits "key_file", CStr []);
                   (lits "cert_file", CStr []); (lits "ca_file", CStr []);
                   (lits "enable_tls1_1", CBool false) ]);
    (lits "control", [ (lits "transport", CStr (lits "unix")); (lits "port", CInt (-1));
                       (lits "prefer_ipv4", CBool true); (lits "remove_timeout", CInt 60) ]);
    (lits "handler_stderr", [ (lits "keyword__class", CStr (lits "logging.StreamHandler")) ]) ].
