(* Showing the configuration of the daemon, and passing it to the logging
   module.  Paths are relative to /repo/ovirt_imageio/_internal.  The values and
   their loading are in ConfigModel.v, the texts of JSON in JsonModel.v. *)
From Coq Require Import ZArith List Bool Ascii String.
From Verif Require Import HeaderModel HttpModel ConfigModel.
From Verif Require JsonModel HttpBackendModel.
Import ListNotations.
Open Scope Z_scope.

(* configloader.py:75 *)
Definition KEYWORD_PREFIX : str := lits "keyword__".

(* str.startswith and the slice of configloader.py:126-127: the rest of s after
   the prefix, if it has the prefix. *)
Fixpoint after (prefix s : str) : option str :=
  match prefix, s with
  | [], _ => Some s
  | p :: prefix, c :: s => if Ascii.eqb p c then after prefix s else None
  | _ :: _, [] => None
  end.

(* configloader.py:126-127 *)
Definition shown_name (attr : str) : str :=
  match after KEYWORD_PREFIX attr with Some name => name | None => attr end.

(* configloader.py:122-129 _obj_to_dict.  An object is the list of its public
   attributes (configloader.py:118-119), in the order of dir(). *)
Definition obj_to_dict (obj : list (str * cval)) : list (str * cval) :=
  fold_left (fun d p => put d (shown_name (fst p)) (snd p)) obj [].

(* configloader.py:110-115 to_dict, config.py:252-253 *)
Definition to_dict (cfg : config) : list (str * list (str * cval)) :=
  fold_left (fun d p => put d (fst p) (obj_to_dict (snd p))) cfg [].

(* ---- show_config ---- *)

(* A str of Latin-1 characters as code points. *)
(* Python semantics, no line of /repo. *)
Definition points (s : str) : JsonModel.text := map (fun c => Z.of_N (N_of_ascii c)) s.

Section Show.
(* The float that float() makes of a text, for configloader.py:141-147: sign,
   integral part, digits of the fraction, exponent of its repr.  Simplified:
   not a number and infinity, which float() also makes, are left out. *)
Variable float_of : str -> bool * Z * list Z * option Z.

(* The values json.dumps gets, server.py:79. *)
Definition json_value (v : cval) : JsonModel.value :=
  match v with
  | CStr s => JsonModel.VStr (points s)
  | CInt n => JsonModel.VInt n
  | CBool b => JsonModel.VBool b
  | CFloat s => let '(neg, ip, frac, e) := float_of s in JsonModel.VReal neg ip frac e
  end.
Definition json_dict (d : list (str * cval)) : JsonModel.value :=
  JsonModel.VObj (map (fun p => (points (fst p), json_value (snd p))) d).
Definition json_config (d : list (str * list (str * cval))) : JsonModel.value :=
  JsonModel.VObj (map (fun p => (points (fst p), json_dict (snd p))) d).

(* The new line and the spaces of json.dumps with indent=4, server.py:79. *)
Definition newline (level : nat) : JsonModel.text := 10 :: repeat 32 (4 * level).

(* The separators between items when there is an indent; server.py:79. *)
Fixpoint join_lines (level : nat) (l : list JsonModel.text) : JsonModel.text :=
  match l with
  | [] => []
  | [x] => x
  | x :: r => x ++ 44 :: newline level ++ join_lines level r
  end.

(* json.dumps(v, indent=4), server.py:79 *)
Fixpoint pretty (level : nat) (v : JsonModel.value) : JsonModel.text :=
  match v with
  | JsonModel.VList (x :: l) =>
      91 :: newline (S level) ++ join_lines (S level) (map (pretty (S level)) (x :: l)) ++ newline level ++ [93]
  | JsonModel.VObj (p :: d) =>
      123 :: newline (S level) ++
      join_lines (S level)
        (map (fun p => match p with (k, x) => JsonModel.quote k ++ 58 :: 32 :: pretty (S level) x end) (p :: d)) ++
      newline level ++ [125]
  | _ => JsonModel.dumps v
  end.

(* server.py:78-79 show_config: what is printed *)
Definition show_config (cfg : config) : JsonModel.text :=
  pretty 0 (json_config (to_dict cfg)) ++ [10].

(* ---- configure_logger ---- *)

(* str(value) in RawConfigParser.read_dict, for server.py:108.  Simplified:
   the text of a float is the text it was made of. *)
Definition py_str (v : cval) : str :=
  match v with
  | CStr s => s
  | CInt n => HttpBackendModel.show n
  | CBool b => if b then lits "True" else lits "False"
  | CFloat s => s
  end.

(* RawConfigParser.read_dict for one section: names in lower case; None if a
   name is there twice (server.py:107-108). *)
Fixpoint read_options (opts : list (str * str)) (d : list (str * cval)) : option (list (str * str)) :=
  match d with
  | [] => Some opts
  | (k, v) :: d =>
      let k := map lower k in
      match assoc opts k with
      | Some _ => None
      | None => read_options (put opts k (py_str v)) d
      end
  end.
(* server.py:106-108: the sections; the options of DEFAULT are kept with the
   others. *)
Fixpoint read_dict (st : pstate) (d : list (str * list (str * cval))) : option pstate :=
  match d with
  | [] => Some st
  | (sec, opts) :: d =>
      match assoc st sec, read_options [] opts with
      | None, Some o => read_dict (put st sec o) d
      | _, _ => None
      end
  end.

(* server.py:106-108 the parser passed to logging.config.fileConfig; None if
   it raises *)
Definition logger_parser (cfg : config) : option pstate := read_dict [] (to_dict cfg).

(* parser.get(section, option) in logging.config, called by server.py:109; the
   default optionxform is str.lower. *)
Definition logger_get (st : pstate) (sec option : str) : got :=
  match assoc st sec with
  | None => NoSection
  | Some opts =>
      match assoc opts (map lower option) with
      | Some raw => Got raw
      | None =>
          match assoc st DEFAULT with
          | Some d => match assoc d (map lower option) with Some raw => Got raw | None => NoOption end
          | None => NoOption
          end
      end
  end.

(* A file with what is shown: what another program reading the output of
   server.py:78-79 can write.  No code: the texts of the values. *)
Definition as_file (cfg : config) : cfile :=
  map (fun p => (fst p, map (fun q => (fst q, py_str (snd q))) (snd p))) (to_dict cfg).

End Show.

(* config.py:177-213: the sections of the logging module.  The other sections
   are those of ConfigModel.defaults. *)
Definition logger_defaults : config :=
  [ (lits "formatter_long", [ (lits "format",
        CStr (lits "%(asctime)s %(levelname)-7s (%(threadName)s) [%(name)s] %(message)s")) ]);
    (lits "formatters", [ (lits "keys", CStr (lits "long")) ]);
    (lits "handler_logfile", [ (lits "args", CStr (lits "(""/var/log/ovirt-imageio/daemon.log"",)"));
                               (lits "formatter", CStr (lits "long"));
                               (lits "keyword__class", CStr (lits "logging.handlers.RotatingFileHandler"));
                               (lits "kwargs", CStr (lits "{""maxBytes"": 20971520, ""backupCount"": 10}"));
                               (lits "level", CStr (lits "DEBUG")) ]);
    (lits "handler_stderr", [ (lits "args", CStr (lits "()")); (lits "formatter", CStr (lits "long"));
                              (lits "keyword__class", CStr (lits "logging.StreamHandler"));
                              (lits "level", CStr (lits "DEBUG")) ]);
    (lits "handlers", [ (lits "keys", CStr (lits "logfile")) ]);
    (lits "logger_root", [ (lits "handlers", CStr (lits "logfile")); (lits "level", CStr (lits "INFO"));
                           (lits "propagate", CInt 0) ]);
    (lits "loggers", [ (lits "keys", CStr (lits "root")) ]) ].
