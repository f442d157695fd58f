(* C92: the configuration that is shown, and that the logging module gets. *)
From Coq Require Import ZArith List Bool Ascii String Lia.
From Verif Require Import HeaderModel HeaderSpec HttpModel ConfigModel ConfigSpec ConfigProofs ShowModel ShowSpec ShowProofs.
From Verif Require JsonModel JsonSpec JsonTheorems.
Import ListNotations.
Open Scope Z_scope.

(* The output is one line of JSON text or more: any reader of JSON finds in it
   every option with its value, under the name that can be used in a file, and
   nothing else. *)
Theorem config_shown float_of cfg :
  proper cfg -> finite float_of ->
  exists v, JsonSpec.json_text v (show_config float_of cfg) /\ JsonModel.loads (show_config float_of cfg) = Some v /\
    (forall sec opts, In (sec, opts) cfg -> exists d, JsonSpec.at_path v [chars sec] (JsonModel.VObj d)) /\
    (forall sec name x, JsonSpec.at_path v [chars sec; chars name] x ->
       exists c, option_of cfg sec name c /\ read_as float_of c x) /\
    (forall sec name c, option_of cfg sec name c ->
       exists x, JsonSpec.at_path v [chars sec; chars name] x /\ read_as float_of c x).
Proof.
  intros P F. pose proof P as (N & _ & O).
  set (v := json_config float_of (to_dict cfg)).
  assert (W : JsonSpec.writable v).
  { apply config_writable; auto; rewrite to_dict_map by exact P.
    - rewrite map_map. cbn [fst]. exact N.
    - intros sec o I. apply in_map_iff in I as ((s, p) & E & I). cbn [fst snd] in E. injection E as <- <-.
      destruct (O _ _ I) as [O1 O2]. rewrite map_map. cbn [fst]. rewrite <- (map_map fst shown_name).
      apply shown_nodup; auto. }
  assert (J : JsonSpec.json_text v (show_config float_of cfg)).
  { exists [], (pretty 0 v), [10]. split; [reflexivity|]. split; [constructor|]. split; [apply pretty_jval; exact W|].
    exact (newline_white 0). }
  exists v. split; [exact J|]. split; [apply JsonTheorems.reads_any_json; exact J|].
  assert (V : v = JsonModel.VObj (map (fun p => (points (fst p),
    JsonModel.VObj (map (fun q => (points (shown_name (fst q)), json_value float_of (snd q))) (snd p)))) cfg)).
  { unfold v, json_config. rewrite to_dict_map by exact P. rewrite map_map. f_equal. apply map_ext. intros [s o].
    cbn [fst snd]. unfold json_dict. rewrite map_map. reflexivity. }
  rewrite V in *. clear V v J.
  inversion W as [| | | | | |d WK WV WN]; subst.
  split; [|split].
  - intros sec opts I. rewrite <- points_chars.
    exists (map (fun q : str * cval => (points (shown_name (fst q)), json_value float_of (snd q))) opts).
    eapply JsonSpec.p_step; [|exact WN|constructor].
    apply in_map_iff. exists (sec, opts). auto.
  - intros sec name x A. rewrite <- !points_chars in A.
    inversion A as [|d k y p z I ND A1]; subst. apply in_map_iff in I as ((s, o) & E & I). cbn [fst snd] in E.
    injection E as E1 E2. apply points_inj in E1. subst s y.
    inversion A1 as [|d k y p z J ND1 A2]; subst. apply in_map_iff in J as ((a, c) & E & J). cbn [fst snd] in E.
    injection E as E1 E2. apply points_inj in E1. subst name y.
    inversion A2; subst. exists c. split.
    + exists o, a. split; [exact I|]. split; [exact J|]. now apply shown_spec.
    + now apply value_read.
  - intros sec name c (o & a & I & J & S). apply shown_spec in S. subst name. rewrite <- !points_chars.
    exists (json_value float_of c). split; [|now apply value_read].
    eapply JsonSpec.p_step; [|exact WN|].
    + apply in_map_iff. exists (sec, o). cbn [fst snd]. split; [reflexivity|exact I].
    + rewrite Forall_forall in WV.
      assert (X : JsonSpec.writable (JsonModel.VObj
        (map (fun q : str * cval => (points (shown_name (fst q)), json_value float_of (snd q))) o))).
      { refine (WV (points sec, _) _). apply in_map_iff. exists (sec, o). auto. }
      inversion X as [| | | | | |d XK XV XN]; subst.
      eapply JsonSpec.p_step; [|exact XN|constructor].
      apply in_map_iff. exists (a, c). auto.
Qed.

(* The shown name can be used in a file, and sets this option. *)
Theorem shown_names_usable cfg sec name c :
  proper cfg -> option_of cfg sec name c ->
  exists opts o, In (sec, opts) cfg /\ In (o, c) opts /\ option_name name o /\
    (forall o', option_name name o' -> o' = o).
Proof.
  intros (_ & _ & P) (opts & o & I & J & S). exists opts, o. split; [exact I|]. split; [exact J|].
  destruct (P _ _ I) as [_ P2]. rewrite Forall_forall in P2.
  assert (X : option_name name o).
  { apply shown_option; auto. apply P2. apply in_map_iff. now exists (o, c). }
  split; [exact X|]. intros o' Y. apply mapping_spec in X, Y. congruence.
Qed.

(* A configuration loaded from files, shown, and given back as a file, is the
   same configuration. *)
Theorem shown_config_reloads lim floats d files cfg :
  proper d -> floats_fit floats d -> load lim floats d files = Some cfg -> ints_fit lim cfg ->
  load lim floats d [as_file cfg] = Some cfg.
Proof.
  intros P F L I. pose proof (proper_canonical d P) as K. pose proof (load_like _ _ _ _ _ K L) as E.
  apply load_back; auto; [eapply like_proper; eauto|eapply load_floats; eauto].
Qed.

(* The logging module gets every option as text, under its name without the
   prefix, and no other options. *)
Theorem logger_gets_config cfg :
  proper cfg ->
  exists st, logger_parser cfg = Some st /\
    (forall sec name c, option_of cfg sec name c -> exists s, logger_get st sec name = Got s /\ text_of c s) /\
    (forall sec name s, logger_get st sec name = Got s ->
       exists c, option_of cfg sec (map lower name) c /\ text_of c s) /\
    (forall sec name, logger_get st sec name = NoSection <-> ~ In sec (map fst cfg)).
Proof.
  intros Pr. pose proof Pr as (N & D & P). exists (file_of cfg). split; [apply logger_parser_map; exact Pr|].
  assert (M : map fst (file_of cfg) = map fst cfg) by (unfold file_of; rewrite map_map; reflexivity).
  split; [|split].
  - intros sec name c (opts & o & I & J & S). apply shown_spec in S. subst name. exists (py_str c).
    split; [|apply py_str_text]. destruct (P _ _ I) as [P1 P2]. unfold logger_get.
    rewrite (assoc_in _ sec (map (fun q => (shown_name (fst q), py_str (snd q))) opts)).
    + rewrite Forall_forall in P2. rewrite shown_lower by (apply P2, in_map_iff; now exists (o, c)).
      rewrite (assoc_in _ (shown_name o) (py_str c)); auto.
      * rewrite map_map. cbn [fst]. rewrite <- (map_map fst shown_name). apply shown_nodup; auto. now apply Forall_forall.
      * apply in_map_iff. now exists (o, c).
    + rewrite M. exact N.
    + apply in_map_iff. now exists (sec, opts).
  - intros sec name s H. unfold logger_get in H. destruct (assoc (file_of cfg) sec) as [o|] eqn:A; [|discriminate].
    assert (B : assoc (file_of cfg) DEFAULT = None) by (apply assoc_none; rewrite M; exact D).
    rewrite B in H. destruct (assoc o (map lower name)) as [r|] eqn:C; [|discriminate]. injection H as <-.
    apply assoc_some in A, C. apply in_map_iff in A as ((sec', opts) & E & I). cbn [fst snd] in E. injection E as -> <-.
    apply in_map_iff in C as ((a, c) & E & J). cbn [fst snd] in E. injection E as E1 <-.
    exists c. split; [|apply py_str_text]. exists opts, a. split; [exact I|]. split; [exact J|].
    apply shown_spec. congruence.
  - intros sec name. unfold logger_get. rewrite <- M, <- assoc_none.
    destruct (assoc (file_of cfg) sec) as [o|]; [|tauto]. split; [|discriminate].
    destruct (assoc o _); [discriminate|]. destruct (assoc _ DEFAULT) as [e|]; [destruct (assoc e _)|]; discriminate.
Qed.

(* ---- cases ---- *)

Definition float_one (s : str) : bool * Z * list Z * option Z := (false, 1, [0], None).
Lemma float_one_finite : finite float_one.
Proof.
  intros s neg n fr e [= <- <- <- <-]. split; [lia|]. split; [repeat constructor; lia|]. left. discriminate.
Qed.

Ltac attributes :=
  repeat (apply Forall_cons;
    [split; [reflexivity|]; split;
      [cbn; intuition discriminate
      |let r := fresh in let E := fresh in intros r E; cbn in E; first [discriminate E|injection E as <-; cbn; tauto]]|]);
  apply Forall_nil.
Ltac is_proper :=
  split; [repeat constructor; cbn; intuition discriminate|];
  split; [cbn; intuition discriminate|];
  let I := fresh in intros ? ? I;
  repeat (destruct I as [I|I];
    [injection I as <- <-; split; [repeat constructor; cbn; intuition discriminate|attributes]|]); destruct I.

Lemma defaults_proper : proper defaults.
Proof. is_proper. Qed.
Lemma logger_defaults_proper : proper logger_defaults.
Proof. is_proper. Qed.

(* The output for two sections: a socket name with a NUL character, a number,
   a float, and the class of a handler. *)
Definition small : config :=
  [ (lits "handler_stderr", [ (lits "args", CStr (lits "()")); (lits "keyword__class", CStr (lits "logging.StreamHandler")) ]);
    (lits "local", [ (lits "enable", CBool true); (lits "interval", CFloat (lits "1.0")); (lits "port", CInt (-1));
                     (lits "socket", CStr ("000"%char :: lits "/org/ovirt/imageio")) ]) ].
Example small_shown : proper small /\ show_config float_one small = chars (lit
"{
    ""handler_stderr"": {
        ""args"": ""()"",
        ""class"": ""logging.StreamHandler""
    },
    ""local"": {
        ""enable"": true,
        ""interval"": 1.0,
        ""port"": -1,
        ""socket"": ""\u0000/org/ovirt/imageio""
    }
}
").
Proof. split; [is_proper|vm_compute; reflexivity]. Qed.
Example defaults_shown : proper defaults /\ finite float_one /\
  option_of defaults (lits "handler_stderr") (lits "class") (CStr (lits "logging.StreamHandler")) /\
  match JsonModel.loads (show_config float_one defaults) with
  | Some (JsonModel.VObj d) => List.length d = 4%nat
  | _ => False
  end.
Proof.
  split; [apply defaults_proper|]. split; [apply float_one_finite|]. split; [|vm_compute; reflexivity].
  exists [(lits "keyword__class", CStr (lits "logging.StreamHandler"))], (lits "keyword__class").
  split; [right; right; right; left; reflexivity|]. split; [left; reflexivity|]. exact (s_keyword (lits "class")).
Qed.

(* A file that changes some values. *)
Definition changed : config :=
  [ (lits "daemon", [ (lits "poll_interval", CFloat (lits "1.0")); (lits "max_connections", CInt 8);
                      (lits "inactivity_timeout", CInt 60); (lits "run_dir", CStr (lits "/run/ovirt-imageio"));
                      (lits "drop_privileges", CBool true); (lits "user_name", CStr (lits "ovirtimg")) ]);
    (lits "tls", [ (lits "enable", CBool true); (lits "key_file", CStr []);
                   (lits "cert_file", CStr []); (lits "ca_file", CStr []); (lits "enable_tls1_1", CBool false) ]);
    (lits "control", [ (lits "transport", CStr (lits "unix")); (lits "port", CInt (-54322));
                       (lits "prefer_ipv4", CBool false); (lits "remove_timeout", CInt 60) ]);
    (lits "handler_stderr", [ (lits "keyword__class", CStr (lits "my.Handler")) ]) ].
Example reload_case :
  load (Some 5) (fun _ => true) defaults
    [[(lits "control", [(lits "PORT", lits "-54322"); (lits "prefer_ipv4", lits "No")]);
      (lits "handler_stderr", [(lits "class", lits "my.Handler")])]] = Some changed /\
  ints_fit (Some 5) changed /\
  load (Some 5) (fun _ => true) defaults [as_file changed] = Some changed /\
  In (lits "handler_stderr", [(lits "class", lits "my.Handler")]) (as_file changed).
Proof.
  split; [vm_compute; reflexivity|]. split.
  - intros m sec opts o n [= <-] I J. split; [lia|].
    repeat (destruct I as [I|I]; [injection I as <- <-;
      repeat (destruct J as [J|J]; [try discriminate J; injection J as <- <-; cbn; lia|]); destruct J|]).
    destruct I.
  - split; [vm_compute; reflexivity|]. right; right; right; left. vm_compute. reflexivity.
Qed.

Example logger_case :
  match logger_parser logger_defaults with
  | Some st => logger_get st (lits "handler_stderr") (lits "class") = Got (lits "logging.StreamHandler") /\
      logger_get st (lits "logger_root") (lits "propagate") = Got (lits "0") /\
      logger_get st (lits "handler_stderr") (lits "kwargs") = NoOption /\
      logger_get st (lits "handler_syslog") (lits "class") = NoSection
  | None => False
  end.
Proof. vm_compute. repeat (split; [reflexivity|]). reflexivity. Qed.

(* The names of attributes matter: after the prefix, a name that is no keyword
   is shown without it, and the shown name sets no option. *)
Theorem attribute_names_needed :
  exists cfg files cfg', load None (fun _ => true) cfg files = Some cfg' /\
    load None (fun _ => true) cfg [as_file cfg'] <> Some cfg'.
Proof.
  exists [(lits "foo", [(lits "keyword__bar", CStr (lits "a"))])],
    [[(lits "foo", [(lits "keyword__bar", lits "b")])]], [(lits "foo", [(lits "keyword__bar", CStr (lits "b"))])].
  split; [vm_compute; reflexivity|vm_compute; discriminate].
Qed.

Print Assumptions config_shown.
Print Assumptions shown_names_usable.
Print Assumptions shown_config_reloads.
Print Assumptions logger_gets_config.
Print Assumptions attribute_names_needed.
