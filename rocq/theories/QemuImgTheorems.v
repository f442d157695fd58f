(* C93: qemu-img does what the caller asks for. *)
From Coq Require Import ZArith List Bool String Lia.
From Verif Require Import JsonModel JsonSpec JsonProofs JsonTheorems QemuImgModel QemuImgSpec QemuImgProofs.
Import ListNotations.
Open Scope Z_scope.

Local Ltac options_iff :=
  let a := fresh "a" in let v := fresh "v" in let I := fresh "I" in
  intros a v; split;
  [ intros I; cbn [In app] in I;
    repeat (destruct I as [I|I]; [injection I as <- <-; eexists; split; [reflexivity|]; cbv beta; eauto 15|]); destruct I
  | intros (s & -> & I); cbn [In app];
    repeat match goal with
    | H : _ \/ _ |- _ => destruct H
    | H : _ /\ _ |- _ => destruct H
    | H : exists _, _ |- _ => destruct H
    | H : given ?s ?x, N : forall v, ~ given ?s v |- _ => destruct (N x H)
    | H : given ?s ?x, K : given ?s ?y |- _ => pose proof (given_fun _ _ _ H K); subst; clear H
    end; subst; try discriminate; eauto 15 ].
Local Ltac read := repeat first
  [ apply r_end
  | apply (r_flag _ "-q"%string); [cbn; tauto|] | apply (r_flag _ "-p"%string); [cbn; tauto|]
  | apply (r_flag _ "-c"%string); [cbn; tauto|] | apply (r_flag _ "-u"%string); [cbn; tauto|]
  | apply (r_flag _ "-s"%string); [cbn; tauto|] | apply (r_flag _ "--add"%string); [cbn; tauto|]
  | apply (r_value _ "-f"%string); [cbn; tauto|] | apply (r_value _ "-b"%string); [cbn; tauto|]
  | apply (r_value _ "-F"%string); [cbn; tauto|] | apply (r_value _ "-O"%string); [cbn; tauto|]
  | apply (r_value _ "--output"%string); [cbn; tauto|]
  | apply r_file; [assumption|] ].
Local Ltac distinct := cbn; repeat constructor; cbn; intuition discriminate.

(* create: the format, the backing file if there is one, its format if there is
   one, the path and the size.  Names that look like options are not supported. *)
Theorem create_understood_partial path fmt size backing_file backing_format quiet :
  ~ is_option path -> (forall n, size = Some n -> 0 <= n) ->
  exists sizes,
    understood "create" CREATE (create path fmt size backing_file backing_format quiet)
      (fun s v => (s = "-f"%string /\ v = Some fmt) \/
                  (s = "-b"%string /\ exists b, given backing_file b /\ v = Some b) \/
                  (s = "-F"%string /\ exists b f, given backing_file b /\ given backing_format f /\ v = Some f) \/
                  (s = "-q"%string /\ quiet = true /\ v = None))
      (path :: sizes) /\
    match size with None => sizes = [] | Some n => exists t, sizes = [t] /\ integral t n end.
Proof.
  intros P S. unfold create.
  destruct (given_dec backing_file) as [(b & -> & B)|(-> & B)];
    destruct (given_dec backing_format) as [(f & Ef & F)|(Ef & F)]; try rewrite Ef;
    (destruct size as [n|]; [destruct (str_int_text n (S n eq_refl)) as [T1 T2]|]);
    (eexists; split; [|first [reflexivity|eexists; split; [reflexivity|exact T2]]]);
    destruct quiet; (eapply understood_intro; [apply good_create|cbn [app]; read|distinct|options_iff]).
Qed.
Example create_case :
  create (chars_of "new.qcow2") (chars_of "qcow2") (Some 6442450944) (Some (chars_of "-b.qcow2")) (Some (chars_of "qcow2")) true =
  map chars_of ["qemu-img"; "create"; "-f"; "qcow2"; "-b"; "-b.qcow2"; "-F"; "qcow2"; "-q"; "new.qcow2"; "6442450944"]%string /\
  ~ is_option (chars_of "new.qcow2").
Proof. split; [reflexivity|]. intros (c & r & E). discriminate E. Qed.

Theorem convert_understood_partial src dst src_fmt dst_fmt progress compressed :
  ~ is_option src -> ~ is_option dst ->
  understood "convert" CONVERT (convert src dst src_fmt dst_fmt progress compressed)
    (fun s v => (s = "-f"%string /\ v = Some src_fmt) \/ (s = "-O"%string /\ v = Some dst_fmt) \/
                (s = "-p"%string /\ progress = true /\ v = None) \/ (s = "-c"%string /\ compressed = true /\ v = None))
    [src; dst].
Proof.
  intros A B. unfold convert.
  destruct progress, compressed; (eapply understood_intro; [apply good_convert|cbn [app]; read|distinct|options_iff]).
Qed.

Theorem rebase_understood_partial path backing backing_fmt :
  ~ is_option path ->
  understood "rebase" REBASE (unsafe_rebase path backing backing_fmt)
    (fun s v => (s = "-u"%string /\ v = None) \/ (s = "-b"%string /\ v = Some backing) \/
                (s = "-F"%string /\ v = Some backing_fmt))
    [path].
Proof.
  intros A. unfold unsafe_rebase. eapply understood_intro; [apply good_rebase|read|distinct|options_iff].
Qed.

Theorem bitmap_understood_partial path bitmap :
  ~ is_option path -> ~ is_option bitmap ->
  understood "bitmap" BITMAP (bitmap_add path bitmap) (fun s v => s = "--add"%string /\ v = None) [path; bitmap].
Proof.
  intros A B. unfold bitmap_add. eapply understood_intro; [apply good_bitmap|read|distinct|options_iff].
Qed.
Example commands_case :
  convert (chars_of "a.raw") (chars_of "b.qcow2") (chars_of "raw") (chars_of "qcow2") false true =
    map chars_of ["qemu-img"; "convert"; "-f"; "raw"; "-O"; "qcow2"; "-c"; "a.raw"; "b.qcow2"]%string /\
  unsafe_rebase (chars_of "a") (chars_of "b") (chars_of "raw") =
    map chars_of ["qemu-img"; "rebase"; "-u"; "-b"; "b"; "-F"; "raw"; "a"]%string /\
  bitmap_add (chars_of "a") (chars_of "b0") = map chars_of ["qemu-img"; "bitmap"; "--add"; "a"; "b0"]%string.
Proof. repeat split. Qed.

(* compare: asked about the two images, and the answer is the meaning of the
   exit status: 0 the same, 1 different, anything else an error. *)
Theorem compare_answer_partial run a b format1 format2 strict :
  ~ is_option a -> ~ is_option b ->
  exists cmd,
    understood "compare" COMPARE cmd
      (fun s v => (s = "-s"%string /\ strict = true /\ v = None) \/
                  (s = "-f"%string /\ exists f, given format1 f /\ v = Some f) \/
                  (s = "-F"%string /\ exists f, given format2 f /\ v = Some f))
      [a; b] /\
    (compare run a b format1 format2 strict = inl tt <-> returncode (run cmd) = 0) /\
    ((exists out, compare run a b format1 format2 strict = inr (ContentMismatch out)) <-> returncode (run cmd) = 1).
Proof.
  intros A B. exists (compare_cmd a b format1 format2 strict). split.
  - unfold compare_cmd.
    destruct (given_dec format1) as [(f & -> & F)|(-> & F)];
      destruct (given_dec format2) as [(g & -> & G)|(-> & G)];
      destruct strict; (eapply understood_intro; [apply good_compare|cbn [app]; read|distinct|options_iff]).
  - unfold compare.
    destruct (Z.eqb_spec (returncode (run (compare_cmd a b format1 format2 strict))) 0) as [E|E];
      [|destruct (Z.eqb_spec (returncode (run (compare_cmd a b format1 format2 strict))) 1) as [E1|E1];
        [|destruct (Z.eqb_spec (returncode (run (compare_cmd a b format1 format2 strict))) 2) as [E2|E2]]].
    + split; [tauto|]. split; [intros (out & H); discriminate|]. rewrite E. discriminate.
    + split; [split; [discriminate|congruence]|]. split; [auto|]. intros _. eexists. reflexivity.
    + split; [split; [discriminate|congruence]|]. split; [intros (out & H); discriminate|congruence].
    + split; [split; [discriminate|congruence]|]. split; [intros (out & H); discriminate|congruence].
Qed.
Example compare_case :
  compare_cmd (chars_of "a") (chars_of "b") None (Some (chars_of "raw")) true =
    map chars_of ["qemu-img"; "compare"; "-s"; "-F"; "raw"; "a"; "b"]%string /\
  compare (fun _ => Outcome 1 (chars_of "Content mismatch") []) (chars_of "a") (chars_of "b") None None false =
    inr (ContentMismatch (chars_of "Content mismatch")) /\
  compare (fun _ => Outcome 3 [] (chars_of "oops")) (chars_of "a") (chars_of "b") None None false =
    inr (RuntimeError (chars_of "oops")).
Proof. repeat split. Qed.

Lemma no_name_option_file filename : ~ is_option filename -> ~ protocol filename ->
  forall arg part, (arg = filename /\ part = None \/
     exists p, part = Some p /\ stands_for arg filename part /\ ~ is_option arg) ->
  ~ is_option arg /\ stands_for arg filename part.
Proof.
  intros A B arg part [[-> ->]|(p & -> & S & N)]; [split; [exact A|now constructor]|auto].
Qed.

(* info: qemu-img is asked about the file, or about the bytes of the last
   member with the name, and the result is its answer and the place of the
   member. *)
Theorem info_right_partial run tars filename name v :
  prints_objects run -> code_points filename -> unpaired filename -> ~ is_option filename -> ~ protocol filename ->
  info run tars filename name = inl v ->
  exists cmd arg part d,
    understood "info" INFO cmd (fun s v => s = "--output"%string /\ v = Some (chars_of "json")) [arg] /\
    part_of tars filename name part /\ stands_for arg filename part /\
    returncode (run cmd) = 0 /\ json_text (VObj d) (stdout (run cmd)) /\ with_place part d v.
Proof.
  intros P C U A B H. unfold info, img_info in H.
  apply (ask_spec run tars filename name info_cmd v P C U) in H as (arg & part & d & H1 & H2 & H3 & H4 & H5).
  apply no_name_option_file in H2 as [H6 H7]; auto.
  exists (info_cmd arg), arg, part, d. split; [|auto].
  unfold info_cmd. eapply understood_intro; [apply good_info|read|distinct|options_iff].
Qed.

(* measure: the same with the format of the new image. *)
Theorem measure_right_partial run tars filename dst_fmt name v :
  prints_objects run -> code_points filename -> unpaired filename -> ~ is_option filename -> ~ protocol filename ->
  measure run tars filename dst_fmt name = inl v ->
  exists cmd arg part d,
    understood "measure" MEASURE cmd
      (fun s v => (s = "--output"%string /\ v = Some (chars_of "json")) \/ (s = "-O"%string /\ v = Some dst_fmt)) [arg] /\
    part_of tars filename name part /\ stands_for arg filename part /\
    returncode (run cmd) = 0 /\ json_text (VObj d) (stdout (run cmd)) /\ with_place part d v.
Proof.
  intros P C U A B H. unfold measure, img_measure in H.
  apply (ask_spec run tars filename name (fun path => measure_cmd path dst_fmt) v P C U)
    in H as (arg & part & d & H1 & H2 & H3 & H4 & H5).
  apply no_name_option_file in H2 as [H6 H7]; auto.
  exists (measure_cmd arg dst_fmt), arg, part, d. split; [|auto].
  unfold measure_cmd. eapply understood_intro; [apply good_measure|read|distinct|options_iff].
Qed.

(* A member that is not there, or a failing qemu-img, is an error. *)
Theorem missing_member run tars filename name tar :
  tars filename = Some tar -> name <> [] -> (forall m, In m tar -> m_name m <> name) ->
  info run tars filename (Some name) = inr (KeyError name) /\
  forall dst_fmt, measure run tars filename dst_fmt (Some name) = inr (KeyError name).
Proof.
  intros T N H. assert (E : nonempty (Some name) = Some name) by (now apply nonempty_spec).
  unfold info, measure. rewrite E. unfold ask_member, find_member. rewrite T.
  rewrite (proj2 (getmember_none tar name) H). auto.
Qed.

(* checksum and extents open the file read only, with the format qemu-img told
   and at the place of the member, and read the dirty extents exactly when a
   bitmap is named. *)
Theorem open_right_partial run tars filename name bitmap n :
  prints_objects run -> code_points filename -> unpaired filename -> ~ is_option filename -> ~ protocol filename ->
  open_image run tars filename name bitmap = inl n ->
  n_filename n = filename /\ n_read_only n = true /\ n_bitmap n = bitmap /\
  (n_dirty n = true <-> exists b, given bitmap b) /\
  exists cmd arg part d,
    understood "info" INFO cmd (fun s v => s = "--output"%string /\ v = Some (chars_of "json")) [arg] /\
    part_of tars filename name part /\ stands_for arg filename part /\
    returncode (run cmd) = 0 /\ json_text (VObj d) (stdout (run cmd)) /\
    In (chars_of "format", n_format n) d /\
    match part with
    | Some (offset, size) => n_offset n = Some (VInt offset) /\ n_size n = Some (VInt size)
    | None =>
        ~ In (chars_of "member-offset") (map fst d) -> ~ In (chars_of "member-size") (map fst d) ->
        n_offset n = None /\ n_size n = None
    end.
Proof.
  intros P C U A B H. unfold open_image in H.
  destruct (info run tars filename name) as [v|e] eqn:I; [|discriminate].
  apply info_right_partial in I as (cmd & arg & part & d & H1 & H2 & H3 & H4 & H5 & d' & -> & N & W); auto.
  destruct (get d' (chars_of "format")) as [fmt|] eqn:F; [|discriminate]. injection H as <-. cbn.
  split; [reflexivity|]. split; [reflexivity|]. split; [reflexivity|]. split.
  { destruct (given_dec bitmap) as [(b & -> & G)|(-> & G)].
    - split; [intros _; exists b; exact G|auto].
    - split; [discriminate|]. intros (b & X). destruct (G b X). }
  exists cmd, arg, part, d. repeat (split; [assumption|]).
  apply get_spec in F; [|exact N]. destruct part as [(offset, size)|].
  - split.
    + apply W in F. destruct F as [(X & _)|[(X & _)|(_ & _ & X)]]; [discriminate X|discriminate X|exact X].
    + split; apply get_spec; auto; apply W; auto.
  - subst d'. split; [exact F|]. intros N1 N2.
    assert (G : forall key, ~ In key (map fst d) -> get d key = None).
    { intros key K. destruct (get d key) as [x|] eqn:E; auto. apply get_spec in E; [|exact N].
      destruct K. apply (in_map fst) in E. exact E. }
    split; apply G; auto.
Qed.

(* download makes a new image of the size of the disk. *)
Theorem download_creates_partial run filename fmt incremental size backing_file backing_format :
  ~ is_option filename -> 0 <= size ->
  (incremental = true /\ fmt <> chars_of "qcow2" /\
   download_image run filename fmt incremental size backing_file backing_format = inr ValueError) \/
  exists cmd t,
    understood "create" CREATE cmd
      (fun s v => (s = "-f"%string /\ v = Some fmt) \/
                  (s = "-b"%string /\ exists b, given backing_file b /\ v = Some b) \/
                  (s = "-F"%string /\ exists b f, given backing_file b /\ given backing_format f /\ v = Some f) \/
                  (s = "-q"%string /\ v = None))
      [filename; t] /\ integral t size /\
    ((exists out, download_image run filename fmt incremental size backing_file backing_format = inl out) <->
     returncode (run cmd) = 0).
Proof.
  intros A B. unfold download_image.
  destruct (incremental && negb (text_eqb fmt (chars_of "qcow2"))) eqn:E.
  - left. apply andb_prop in E as [-> E]. split; [reflexivity|]. split; [|reflexivity].
    intros ->. rewrite (proj2 (text_eqb_spec _ _) eq_refl) in E. discriminate.
  - right. destruct (create_understood_partial filename fmt (Some size) backing_file backing_format true A)
      as (sizes & X & t & -> & T); [intros n [= <-]; exact B|].
    exists (create filename fmt (Some size) backing_file backing_format true), t. split; [|split; [exact T|]].
    + destruct X as (args & o & X1 & X2 & X3 & X4 & X5). exists args, o. repeat (split; [assumption|]).
      intros a v. rewrite X5. split; intros (s & -> & H); exists s; (split; [reflexivity|]); tauto.
    + unfold check. destruct (Z.eqb_spec (returncode (run (create filename fmt (Some size) backing_file backing_format true))) 0).
      * split; [auto|]. intros _. eexists. reflexivity.
      * split; [intros (out & X0); discriminate|congruence].
Qed.

(* ---- a case ---- *)

(* A tar file with a member twice; qemu-img answers for the second one only. *)
Definition case_tars (f : text) : option (list member) :=
  if text_eqb f (chars_of "vm.ova")
  then Some [Member (chars_of "disk") 512 1024; Member (chars_of "vm.ovf") 2048 100; Member (chars_of "disk") 3072 4096]
  else None.
Definition case_run (cmd : list text) : outcome :=
  if list_eq_dec (list_eq_dec Z.eq_dec) cmd (info_cmd (json_uri (chars_of "vm.ova") 3072 4096))
  then Outcome 0 (chars_of "{""virtual-size"": 65536, ""format"": ""qcow2""}") []
  else Outcome 1 [] (chars_of "failed").
Example open_case :
  prints_objects case_run /\ ~ is_option (chars_of "vm.ova") /\ ~ protocol (chars_of "vm.ova") /\
  open_image case_run case_tars (chars_of "vm.ova") (Some (chars_of "disk")) (Some (chars_of "b0")) =
    inl (Opened (chars_of "vm.ova") (VStr (chars_of "qcow2")) true (Some (chars_of "b0"))
           (Some (VInt 3072)) (Some (VInt 4096)) true) /\
  info case_run case_tars (chars_of "vm.ova") None = inr (CalledProcessError 1) /\
  info case_run case_tars (chars_of "vm.ova") (Some (chars_of "nodisk")) = inr (KeyError (chars_of "nodisk")).
Proof.
  split.
  - intros cmd. unfold case_run. destruct (list_eq_dec _ _ _); [|discriminate]. intros _.
    exists [(chars_of "virtual-size", VInt 65536); (chars_of "format", VStr (chars_of "qcow2"))].
    split; [distinct|]. cbn [stdout].
    change (chars_of "{""virtual-size"": 65536, ""format"": ""qcow2""}")
      with (dumps (VObj [(chars_of "virtual-size", VInt 65536); (chars_of "format", VStr (chars_of "qcow2"))])).
    apply dumps_text.
    assert (Q : forall s, forallb (fun c => (0 <=? c) && (c <? 55296)) s = true -> code_points s /\ unpaired s).
    { intros s H. assert (F : Forall (fun c => 0 <= c < 55296) s).
      { rewrite forallb_forall in H. apply Forall_forall. intros x I. specialize (H x I). apply andb_prop in H. lia. }
      split; [revert F; apply Forall_impl; intros; lia|]. apply unicode_unpaired.
      split; (revert F; apply Forall_impl; intros; lia). }
    apply w_obj; [repeat (constructor; [apply Q; reflexivity|]); constructor| |distinct].
    constructor; [constructor|]. constructor; [apply w_str; apply Q; reflexivity|constructor].
  - split; [intros (c & r & E); discriminate E|]. split.
    + intros (p & r & E & _). assert (I : In 58 (chars_of "vm.ova")) by (rewrite E; apply in_or_app; right; left; auto).
      cbn in I. intuition discriminate.
    + vm_compute. repeat split.
Qed.

(* ---- false for other names ---- *)

(* A file whose name starts with a dash: qemu-img takes the size for the name
   of the file. *)
Theorem option_name_refuted : exists path args o,
  create path (chars_of "raw") (Some 512) None None false = chars_of "qemu-img" :: chars_of "create" :: args /\
  reads CREATE args o [chars_of "512"] /\
  forall o' f', reads CREATE args o' f' -> ~ In path f'.
Proof.
  exists (chars_of "-q"), [chars_of "-f"; chars_of "raw"; chars_of "-q"; chars_of "512"],
    [(chars_of "-f", Some (chars_of "raw")); (chars_of "-q", None)].
  assert (N : ~ is_option (chars_of "512")) by (intros (c & r & E); discriminate E).
  split; [reflexivity|].
  assert (X : reads CREATE [chars_of "-f"; chars_of "raw"; chars_of "-q"; chars_of "512"]
    [(chars_of "-f", Some (chars_of "raw")); (chars_of "-q", None)] [chars_of "512"]) by read.
  split; [exact X|]. intros o f R.
  destruct (reads_unique _ good_create _ _ _ X _ _ R) as [-> ->]. intros [H|[]]. discriminate H.
Qed.

(* A file whose name has a colon: qemu-img is asked about something that is not
   the file, and qemu-nbd opens the file with the answer. *)
Theorem colon_refuted : exists run tars filename fmt,
  prints_objects run /\ code_points filename /\ unpaired filename /\ ~ is_option filename /\
  (forall cmd, returncode (run cmd) = 0 -> exists arg,
     understood "info" INFO cmd (fun s v => s = "--output"%string /\ v = Some (chars_of "json")) [arg] /\
     forall part, ~ stands_for arg filename part) /\
  exists n, open_image run tars filename None None = inl n /\ n_filename n = filename /\ n_format n = fmt.
Proof.
  exists (fun cmd => if list_eq_dec (list_eq_dec Z.eq_dec) cmd (info_cmd (chars_of "nbd:disk"))
                     then Outcome 0 (chars_of "{""format"": ""qcow2""}") [] else Outcome 1 [] []),
    (fun _ => None), (chars_of "nbd:disk"), (VStr (chars_of "qcow2")).
  assert (Q : forall s, forallb (fun c => (0 <=? c) && (c <? 55296)) s = true -> code_points s /\ unpaired s).
  { intros s H. assert (F : Forall (fun c => 0 <= c < 55296) s).
    { rewrite forallb_forall in H. apply Forall_forall. intros x I. specialize (H x I). apply andb_prop in H. lia. }
    split; [revert F; apply Forall_impl; intros; lia|]. apply unicode_unpaired.
    split; (revert F; apply Forall_impl; intros; lia). }
  split; [|split; [|split; [|split; [|split]]]].
  - intros cmd. destruct (list_eq_dec _ _ _); [|discriminate]. intros _. cbn [stdout].
    exists [(chars_of "format", VStr (chars_of "qcow2"))]. split; [distinct|].
    change (chars_of "{""format"": ""qcow2""}") with (dumps (VObj [(chars_of "format", VStr (chars_of "qcow2"))])).
    apply dumps_text. apply w_obj; [repeat (constructor; [apply Q; reflexivity|]); constructor| |distinct].
    constructor; [apply w_str; apply Q; reflexivity|constructor].
  - apply Q. reflexivity.
  - apply Q. reflexivity.
  - intros (c & r & E). discriminate E.
  - intros cmd. destruct (list_eq_dec _ _ _) as [->|]; [|discriminate]. intros _. exists (chars_of "nbd:disk"). split.
    + assert (N : ~ is_option (chars_of "nbd:disk")) by (intros (c & r & E); discriminate E).
      unfold info_cmd. eapply understood_intro; [apply good_info|read|distinct|options_iff].
    + intros part S. inversion S as [f N|]; subst.
      apply N. exists (chars_of "nbd"), (chars_of "disk"). split; [reflexivity|]. cbn. intuition discriminate.
  - eexists. split; [vm_compute; reflexivity|]. split; reflexivity.
Qed.

Print Assumptions create_understood_partial.
Print Assumptions convert_understood_partial.
Print Assumptions rebase_understood_partial.
Print Assumptions bitmap_understood_partial.
Print Assumptions compare_answer_partial.
Print Assumptions info_right_partial.
Print Assumptions measure_right_partial.
Print Assumptions missing_member.
Print Assumptions open_right_partial.
Print Assumptions download_creates_partial.
Print Assumptions option_name_refuted.
Print Assumptions colon_refuted.
