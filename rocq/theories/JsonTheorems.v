(* C88: the texts of JSON carry the values. *)
From Coq Require Import ZArith List Bool Lia String Ascii.
From Verif Require Import JsonModel JsonSpec JsonProofs.
From Verif Require HeaderModel ImagesModel HttpBackendModel ExtentsModel ControlModel.
Import ListNotations.
Open Scope string_scope.
Open Scope list_scope.
Open Scope Z_scope.

(* C88: json.loads reads any text of RFC 8259, whoever wrote it: with any white
   space, any choice of escapes, raw or escaped non-ASCII characters. *)
Theorem reads_any_json v t : json_text v t -> loads t = Some v.
Proof. apply loads_read. Qed.

(* C88: a text has one reading. *)
Theorem json_unambiguous v v' t : json_text v t -> json_text v' t -> v = v'.
Proof. intros A B. apply loads_read in A, B. congruence. Qed.

(* An object with other white space and escapes than those of json.dumps *)
Definition foreign : text :=
  [123; 9; 34; 122; 92; 117; 48; 48; 54; 53; 114; 111; 34; 32; 58; 91; 49; 44; 45; 50; 46; 53; 69; 43; 51; 32; 44; 10;
   34; 92; 117; 48; 48; 67; 57; 92; 47; 92; 117; 100; 56; 51; 100; 92; 117; 68; 69; 48; 48; 128512; 34; 93; 125; 13; 10].
Example foreign_read :
  loads foreign = Some (VObj [(chars_of "zero",
    VList [VInt 1; VReal true 2 [5] (Some 3); VStr [201; 47; 128512; 128512]])]).
Proof. reflexivity. Qed.
Example foreign_text : json_text (VList [VInt 1; VStr [201; 128512]])
  [32; 91; 49; 44; 34; 92; 117; 48; 48; 67; 57; 92; 117; 100; 56; 51; 100; 92; 117; 68; 69; 48; 48; 34; 93; 10].
Proof.
  exists [32], [91; 49; 44; 34; 92; 117; 48; 48; 67; 57; 92; 117; 100; 56; 51; 100; 92; 117; 68; 69; 48; 48; 34; 93], [10].
  split; [reflexivity|]. split; [constructor; [auto|constructor]|]. split; [|constructor; [auto|constructor]].
  apply (j_list _ [49; 44; 34; 92; 117; 48; 48; 67; 57; 92; 117; 100; 56; 51; 100; 92; 117; 68; 69; 48; 48; 34]).
  apply (i_more (VInt 1) [VStr [201; 128512]] [] [49] []
    [34; 92; 117; 48; 48; 67; 57; 92; 117; 100; 56; 51; 100; 92; 117; 68; 69; 48; 48; 34]); [constructor| |constructor|].
  - apply j_number. apply (n_int false [49] 1). split; [apply (d_one 1); lia|right; cbn; lia].
  - apply (i_last _ [] [34; 92; 117; 48; 48; 67; 57; 92; 117; 100; 56; 51; 100; 92; 117; 68; 69; 48; 48; 34] []);
      [constructor| |constructor].
    apply (j_string _ [92; 117; 48; 48; 67; 57; 92; 117; 100; 56; 51; 100; 92; 117; 68; 69; 48; 48]).
    apply (c_unit 201 [92; 117; 48; 48; 67; 57]).
    + exists 48, 48, 67, 57, 0, 0, 12, 9. unfold hex. repeat split; lia.
    + unfold high. lia.
    + apply (c_pair 55357 56832 [92; 117; 100; 56; 51; 100] [92; 117; 68; 69; 48; 48] [] []).
      * exists 100, 56, 51, 100, 13, 8, 3, 13. unfold hex. repeat split; lia.
      * exists 68, 69, 48, 48, 13, 14, 0, 0. unfold hex. repeat split; lia.
      * unfold high. lia.
      * unfold low. lia.
      * constructor.
Qed.
Example not_json : loads (chars_of "[1,]") = None /\ loads (chars_of "{a: 1}") = None /\
  loads (chars_of "01") = None /\ loads (chars_of "1.") = None /\ loads [34; 10; 34] = None /\ loads (chars_of "null x") = None.
Proof. repeat split; reflexivity. Qed.

(* C88: what json.dumps writes is JSON of the value, and json.loads reads the
   value back.  Partial: for strings where no high surrogate is followed by a
   low one; that holds for any Unicode text and any decoded file name. *)
Theorem dumps_loads_partial v : writable v ->
  json_text v (dumps v) /\ loads (dumps v) = Some v /\ loads (json_body v) = Some v.
Proof.
  intros W. split; [now apply dumps_text|]. split; apply loads_read; [now apply dumps_text|now apply body_text].
Qed.

Theorem unicode_unpaired s : unicode s -> unpaired s.
Proof.
  intros (_ & F). induction F as [|a s A F IH]; [exact Logic.I|]. destruct s as [|b s]; [exact Logic.I|].
  split; [|exact IH]. unfold high. intros (H & _). lia.
Qed.

Example dumps_ex :
  dumps (VObj [([233; 34], VList [VInt (-120); VReal false 0 [2; 5] None; VReal true 1 [] (Some (-7)); VBool true]);
               ([], VStr [128512; 10; 127; 56575])]) =
  chars_of "{""\u00e9\"""": [-120, 0.25, -1e-07, true], """": ""\ud83d\ude00\n\u007f\udcff""}".
Proof. reflexivity. Qed.
Example writable_ex :
  writable (VObj [([233; 34], VList [VInt (-120); VReal false 0 [2; 5] None; VReal true 1 [] (Some (-7)); VBool true]);
                  ([], VStr [128512; 10; 127; 56575])]).
Proof.
  assert (C : forall s, forallb (fun c => (0 <=? c) && (c <? 1114112)) s = true -> code_points s).
  { intros s H. rewrite forallb_forall in H. apply Forall_forall. intros x I. specialize (H x I).
    apply andb_prop in H. lia. }
  apply w_obj.
  - constructor; [|constructor; [|constructor]]; cbn [fst]; (split; [apply C; reflexivity|]); cbn [unpaired]; unfold high; lia.
  - constructor; [|constructor; [|constructor]]; cbn [snd].
    + apply w_list. constructor; [constructor|]. constructor; [|constructor; [|constructor; constructor]].
      * apply w_real; [lia| |left; discriminate]. constructor; [lia|]. constructor; [lia|constructor].
      * apply w_real; [lia|constructor|right; discriminate].
    + apply w_str; [apply C; reflexivity|]. cbn [unpaired]. unfold high. lia.
  - cbn. constructor; [intros [H|[]]; discriminate|]. constructor; [intros []|constructor].
Qed.

(* C88, refuted for other strings: two surrogates come back as one character. *)
Theorem surrogates_refuted : exists s, code_points s /\ loads (dumps (VStr s)) <> Some (VStr s).
Proof.
  exists [55357; 56832]. split; [constructor; [lia|]; constructor; [lia|constructor]|]. discriminate.
Qed.

(* C88: the text is printable ASCII: it is its own UTF-8 encoding, one line,
   and json.loads of the bytes detects UTF-8. *)
Theorem dumps_is_ascii v : writable v ->
  printable (dumps v) /\ (dumps v <> []) /\
  detects_utf8 (dumps v) = true /\ has_bom (dumps v) = false /\
  detects_utf8 (json_body v) = true /\ has_bom (json_body v) = false.
Proof.
  intros W. pose proof (dumps_printable v W) as P. split; [exact P|].
  assert (N : dumps v <> []).
  { destruct (jval_head v (dumps v) (dumps_jval v W)) as (c & x & -> & _). discriminate. }
  split; [exact N|].
  assert (D : forall b, Forall (fun c => 0 < c < 127) b -> detects_utf8 b = true /\ has_bom b = false).
  { intros b F. split.
    - unfold detects_utf8. destruct b as [|a [|b' [|c [|d r]]]]; try reflexivity;
        inversion F as [|? ? F1 F2]; inversion F2 as [|? ? F3 F4]; subst;
        (replace (a =? 0) with false by lia); replace (b' =? 0) with false by lia; reflexivity.
    - destruct b as [|a b]; [reflexivity|]. inversion F as [|? ? F1 F2]; subst.
      assert (Q : forall n, a = n -> 0 < n < 127) by (intros; lia).
      unfold has_bom.
      repeat (match goal with |- match ?x with _ => _ end = _ => destruct x eqn:? ; try reflexivity end);
        exfalso; subst; lia. }
  assert (B1 : Forall (fun c => 0 < c < 127) (dumps v)) by (revert P; apply Forall_impl; intros; lia).
  assert (B2 : Forall (fun c => 0 < c < 127) (json_body v)).
  { apply Forall_app. split; [exact B1|]. constructor; [lia|constructor]. }
  destruct (D _ B1), (D _ B2). auto.
Qed.

(* C88: of equal names the last one counts. *)
Theorem last_name_wins d t : jmembers d t ->
  exists d', loads (123 :: t ++ [125]) = Some (VObj d') /\ NoDup (map fst d') /\
    forall k x, In (k, x) d' <-> last_member k d x.
Proof.
  intros J. exists (dict_of d). split; [now apply loads_members|]. apply dict_of_last.
Qed.
Example last_name_ex : loads (chars_of "{""size"": 1, ""ops"": [], ""size"": 2}") =
  Some (VObj [(chars_of "size", VInt 2); (chars_of "ops", VList [])]).
Proof. reflexivity. Qed.
Example last_name_members : jmembers [([97], VInt 1); ([97], VInt 2)] (chars_of """a"":1,""a"":2").
Proof.
  assert (N : forall d, 0 <= d <= 9 -> jval (VInt d) [48 + d]).
  { intros d D. apply j_number. apply (n_int false [48 + d] d). split; [now constructor|].
    destruct (Z.eq_dec d 0) as [->|Z0]; [left; reflexivity|right; cbn [hd]; lia]. }
  assert (C : jchars [97] [97]) by (apply c_plain; [lia..|constructor]).
  apply (m_more [97] (VInt 1) [([97], VInt 2)] [] [97] [] [] [49] [] (chars_of """a"":2"));
    [apply white_nil|exact C|apply white_nil|apply white_nil|apply (N 1); lia|apply white_nil|].
  apply (m_last [97] (VInt 2) [] [97] [] [] [50] []);
    [apply white_nil|exact C|apply white_nil|apply white_nil|apply (N 2); lia|apply white_nil].
Qed.

(* ---- the messages of the image API ---- *)

(* The value of a message of ImagesModel; floats are opaque there. *)
Fixpoint image_value (j : ImagesModel.json) : value :=
  match j with
  | ImagesModel.JNull => VNull
  | ImagesModel.JBool b => VBool b
  | ImagesModel.JInt n => VInt n
  | ImagesModel.JFloat => VReal false 0 [0] None
  | ImagesModel.JStr s => VStr (map (fun a => Z.of_nat (nat_of_ascii a)) s)
  | ImagesModel.JList l => VList (map image_value l)
  | ImagesModel.JObj d => VObj (map (fun p => (map (fun a => Z.of_nat (nat_of_ascii a)) (fst p), image_value (snd p))) d)
  end.

(* Objects with distinct names, as Python's dict. *)
Inductive image_dicts : ImagesModel.json -> Prop :=
| id_null : image_dicts ImagesModel.JNull
| id_bool b : image_dicts (ImagesModel.JBool b)
| id_int n : image_dicts (ImagesModel.JInt n)
| id_float : image_dicts ImagesModel.JFloat
| id_str s : image_dicts (ImagesModel.JStr s)
| id_list l : Forall image_dicts l -> image_dicts (ImagesModel.JList l)
| id_obj d : NoDup (map fst d) -> Forall (fun p => image_dicts (snd p)) d -> image_dicts (ImagesModel.JObj d).

Lemma ascii_text_points s : code_points (map (fun a => Z.of_nat (nat_of_ascii a)) s) /\
  unpaired (map (fun a => Z.of_nat (nat_of_ascii a)) s).
Proof.
  split.
  - apply Forall_map, Forall_forall. intros a _. pose proof (nat_ascii_bounded a). lia.
  - induction s as [|a s IH]; [exact Logic.I|]. cbn [map unpaired] in *. destruct s as [|b s]; [exact Logic.I|].
    cbn [map] in *. split; [|exact IH]. unfold high. pose proof (nat_ascii_bounded a). lia.
Qed.

Lemma ascii_text_inj a b : map (fun a => Z.of_nat (nat_of_ascii a)) a = map (fun a => Z.of_nat (nat_of_ascii a)) b -> a = b.
Proof.
  revert b. induction a as [|x a IH]; intros [|y b] E; try discriminate; [reflexivity|].
  cbn [map] in E. injection E as E1 E2. f_equal; [|now apply IH].
  rewrite <- (ascii_nat_embedding x), <- (ascii_nat_embedding y). f_equal. lia.
Qed.

Lemma NoDup_map_inj {A B} (f : A -> B) l : (forall a b, f a = f b -> a = b) -> NoDup l -> NoDup (map f l).
Proof.
  intros I N. induction N as [|x l X N IH]; [constructor|]. cbn. constructor; [|exact IH].
  rewrite in_map_iff. intros (y & E & H). apply I in E. now subst.
Qed.

Lemma image_ind (P : ImagesModel.json -> Prop) :
  P ImagesModel.JNull -> (forall b, P (ImagesModel.JBool b)) -> (forall n, P (ImagesModel.JInt n)) ->
  P ImagesModel.JFloat -> (forall s, P (ImagesModel.JStr s)) -> (forall l, Forall P l -> P (ImagesModel.JList l)) ->
  (forall d, Forall (fun p => P (snd p)) d -> P (ImagesModel.JObj d)) -> forall j, P j.
Proof.
  intros Hn Hb Hi Hr Hs Hl Ho. fix IH 1. intros [|b|n| |s|l|d].
  - exact Hn.
  - apply Hb.
  - apply Hi.
  - apply Hr.
  - apply Hs.
  - apply Hl. induction l as [|v l IHl]; constructor; [apply IH|exact IHl].
  - apply Ho. induction d as [|p d IHd]; constructor; [apply IH|exact IHd].
Qed.

Lemma image_value_writable j : image_dicts j -> writable (image_value j).
Proof.
  induction j as [|b|n| |s|l IH|d IH] using image_ind; intros D; inversion D; subst; cbn [image_value].
  - constructor.
  - constructor.
  - constructor.
  - apply w_real; [lia|constructor; [lia|constructor]|left; discriminate].
  - apply w_str; apply ascii_text_points.
  - apply w_list. apply Forall_map. rewrite Forall_forall in *. auto.
  - apply w_obj.
    + apply Forall_map, Forall_forall. intros p _. cbn [fst]. apply ascii_text_points.
    + apply Forall_map. cbn [snd]. rewrite Forall_forall in *. auto.
    + rewrite map_map. cbn [fst].
      rewrite <- (map_map fst (map (fun a => Z.of_nat (nat_of_ascii a)))).
      apply NoDup_map_inj; [apply ascii_text_inj|assumption].
Qed.

Lemma image_value_inj j j' : image_value j = image_value j' -> j = j'.
Proof.
  revert j'. induction j as [|b|n| |s|l IH|d IH] using image_ind; intros [|b'|n'| |s'|l'|d'] E;
    cbn [image_value] in E; try discriminate E; try reflexivity.
  - now injection E as ->.
  - now injection E as ->.
  - injection E as E. f_equal. now apply ascii_text_inj.
  - injection E as E. f_equal. revert l' E. induction IH as [|v l V IH' IHl]; intros [|v' l'] E; try discriminate; [reflexivity|].
    cbn [map] in E. injection E as E1 E2. f_equal; auto.
  - injection E as E. f_equal. revert d' E. induction IH as [|(k, v) d V IH' IHd]; intros [|(k', v') d'] E; try discriminate; [reflexivity|].
    cbn [map fst snd] in *. injection E as E1 E2 E3. apply ascii_text_inj in E1. apply V in E2. subst. f_equal. now apply IHd.
Qed.

(* C88: a message of the image API (a PATCH body, an answer of OPTIONS, of
   /extents or of /checksum) is received as it was sent. *)
Theorem message_received j : image_dicts j ->
  loads (dumps (image_value j)) = Some (image_value j) /\
  loads (json_body (image_value j)) = Some (image_value j) /\
  forall j', loads (json_body (image_value j)) = Some (image_value j') -> j' = j.
Proof.
  intros D. destruct (dumps_loads_partial _ (image_value_writable j D)) as (_ & A & B).
  split; [exact A|]. split; [exact B|]. intros j' E. rewrite B in E. injection E as E. symmetry. now apply image_value_inj.
Qed.

(* C88: the extents the server lists are the extents the client gets. *)
Theorem extents_received l :
  loads (json_body (image_value (ImagesModel.JList (map HttpBackendModel.to_dict l)))) =
    Some (image_value (ImagesModel.JList (map HttpBackendModel.to_dict l))) /\
  forall l', loads (json_body (image_value (ImagesModel.JList (map HttpBackendModel.to_dict l)))) =
    Some (image_value (ImagesModel.JList (map HttpBackendModel.to_dict l'))) -> l' = l.
Proof.
  assert (D : image_dicts (ImagesModel.JList (map HttpBackendModel.to_dict l))).
  { apply id_list, Forall_map, Forall_forall. intros e _.
    assert (N : forall a b c d : HeaderModel.str, a <> b -> a <> c -> a <> d -> b <> c -> b <> d -> c <> d -> NoDup [a; b; c; d]).
    { intros a b c d H1 H2 H3 H4 H5 H6. repeat (constructor; [cbn; intuition congruence|]). constructor. }
    destruct e; apply id_obj; try (apply N; discriminate); repeat (constructor; [constructor|]); constructor. }
  destruct (message_received _ D) as (_ & A & B). split; [exact A|].
  intros l' E. apply B in E. injection E as E. clear -E. revert l' E.
  induction l as [|e l IH]; intros [|e' l'] E; try discriminate; [reflexivity|].
  cbn [map] in E. injection E as E1 E2. f_equal; [|now apply IH].
  destruct e, e'; cbn in E1; injection E1; intros; subst; try reflexivity; discriminate.
Qed.
Example extents_ex :
  json_body (image_value (ImagesModel.JList (map HttpBackendModel.to_dict
    [ExtentsModel.ZeroExtent 0 65536 false false; ExtentsModel.ZeroExtent 65536 1073676288 true true]))) =
  (chars_of "[{""start"": 0, ""length"": 65536, ""zero"": false, ""hole"": false}, {""start"": 65536, ""length"": 1073676288, ""zero"": true, ""hole"": true}]" ++ [10])%list.
Proof. reflexivity. Qed.

(* ---- tickets ---- *)

(* The value of a ticket of ControlModel; a float there is a number standing for
   it, here it is a float with that integral part. *)
Fixpoint ticket_value (j : ControlModel.json) : value :=
  match j with
  | ControlModel.JNull => VNull
  | ControlModel.JBool b => VBool b
  | ControlModel.JInt n => VInt n
  | ControlModel.JFloat n => VReal (n <? 0) (Z.abs n) [0] None
  | ControlModel.JStr s => VStr s
  | ControlModel.JList l => VList (map ticket_value l)
  | ControlModel.JObj d => VObj (map (fun p => (fst p, ticket_value (snd p))) d)
  end.

Lemma ticket_ind (P : ControlModel.json -> Prop) :
  P ControlModel.JNull -> (forall b, P (ControlModel.JBool b)) -> (forall n, P (ControlModel.JInt n)) ->
  (forall n, P (ControlModel.JFloat n)) -> (forall s, P (ControlModel.JStr s)) ->
  (forall l, Forall P l -> P (ControlModel.JList l)) ->
  (forall d, Forall (fun p => P (snd p)) d -> P (ControlModel.JObj d)) -> forall j, P j.
Proof.
  intros Hn Hb Hi Hr Hs Hl Ho. fix IH 1. intros [|b|n|n|s|l|d].
  - exact Hn.
  - apply Hb.
  - apply Hi.
  - apply Hr.
  - apply Hs.
  - apply Hl. induction l as [|v l IHl]; constructor; [apply IH|exact IHl].
  - apply Ho. induction d as [|p d IHd]; constructor; [apply IH|exact IHd].
Qed.

Lemma ticket_value_inj j j' : ticket_value j = ticket_value j' -> j = j'.
Proof.
  revert j'. induction j as [|b|n|n|s|l IH|d IH] using ticket_ind; intros [|b'|n'|n'|s'|l'|d'] E;
    cbn [ticket_value] in E; try discriminate E; try reflexivity.
  - now injection E as ->.
  - now injection E as ->.
  - f_equal.
    assert (A : Z.abs n = Z.abs n') by congruence. assert (B : (n <? 0) = (n' <? 0)) by congruence. lia.
  - now injection E as ->.
  - injection E as E. f_equal. revert l' E. induction IH as [|v l V IH' IHl]; intros [|v' l'] E; try discriminate; [reflexivity|].
    cbn [map] in E. injection E as E1 E2. f_equal; auto.
  - injection E as E. f_equal. revert d' E. induction IH as [|(k, v) d V IH' IHd]; intros [|(k', v') d'] E; try discriminate; [reflexivity|].
    cbn [map fst snd] in *. injection E as E1 E2 E3. apply V in E2. subst. f_equal. now apply IHd.
Qed.

(* C88: a ticket added or changed by the admin client, and the information about
   a ticket, is received as it was sent. *)
Theorem ticket_received j : writable (ticket_value j) ->
  loads (dumps (ticket_value j)) = Some (ticket_value j) /\
  loads (json_body (ticket_value j)) = Some (ticket_value j) /\
  forall j', loads (dumps (ticket_value j)) = Some (ticket_value j') -> j' = j.
Proof.
  intros W. destruct (dumps_loads_partial _ W) as (_ & A & B).
  split; [exact A|]. split; [exact B|]. intros j' E. rewrite A in E. injection E as E. symmetry. now apply ticket_value_inj.
Qed.
Example ticket_ex : dumps (ticket_value (ControlModel.JObj
    [(chars_of "uuid", ControlModel.JStr (chars_of "t1")); (chars_of "ops", ControlModel.JList [ControlModel.JStr (chars_of "read")]);
     (chars_of "timeout", ControlModel.JFloat 300); (chars_of "sparse", ControlModel.JBool false)])) =
  chars_of "{""uuid"": ""t1"", ""ops"": [""read""], ""timeout"": 300.0, ""sparse"": false}".
Proof. reflexivity. Qed.

(* ---- the images given to QEMU ---- *)

Lemma in_unique (d : list (text * value)) k x y : NoDup (map fst d) -> In (k, x) d -> In (k, y) d -> x = y.
Proof.
  induction d as [|q d IH]; [contradiction|]. cbn [map]. intros N I J. inversion N as [|? ? N1 N2]; subst.
  destruct I as [->|I], J as [E|J].
  - now injection E.
  - exfalso. apply N1. apply (in_map fst) in J. exact J.
  - subst. exfalso. apply N1. apply (in_map fst) in I. exact I.
  - auto.
Qed.

Lemma at_unique v p x y : at_path v p x -> at_path v p y -> x = y.
Proof.
  intros A. revert y. induction A as [v|d k x p v I N A IH]; intros y B.
  - now inversion B.
  - inversion B as [|d' k' x' p' v' I' N' B']; subst. apply IH. now rewrite (in_unique d k x x' N I I').
Qed.

(* C88: whatever the name of the file, QEMU is told to read the bytes of the
   member in that file: no character of the name is taken for something else. *)
Theorem member_uri filename offset size t : code_points filename -> unpaired filename ->
  json_uri filename offset size = chars_of "json:" ++ t -> (exists v, json_text v t) /\ forall v, json_text v t ->
  at_path v [chars_of "file"; chars_of "driver"] (VStr (chars_of "raw")) /\
  at_path v [chars_of "file"; chars_of "offset"] (VInt offset) /\
  at_path v [chars_of "file"; chars_of "size"] (VInt size) /\
  at_path v [chars_of "file"; chars_of "file"; chars_of "driver"] (VStr (chars_of "file")) /\
  at_path v [chars_of "file"; chars_of "file"; chars_of "filename"] (VStr filename) /\
  (forall k x, at_path v [k] x -> k = chars_of "file").
Proof.
  intros C U E. unfold json_uri in E. apply app_inv_head in E. subst t.
  assert (P : forall s, forallb (fun c => (0 <=? c) && (c <? 55296)) s = true -> code_points s /\ unpaired s).
  { intros s H. assert (F : Forall (fun c => 0 <= c < 55296) s).
    { rewrite forallb_forall in H. apply Forall_forall. intros x I. specialize (H x I). apply andb_prop in H. lia. }
    split; [revert F; apply Forall_impl; intros; lia|]. apply unicode_unpaired.
    split; [revert F; apply Forall_impl; intros; lia|revert F; apply Forall_impl; intros; lia]. }
  assert (W : writable (member_nodes filename offset size)).
  { unfold member_nodes.
    apply w_obj; [constructor; [apply P; reflexivity|constructor]| |constructor; [intros []|constructor]].
    constructor; [|constructor]. cbn [snd].
    apply w_obj; [repeat (constructor; [apply P; reflexivity|]); constructor| |].
    - constructor; [apply w_str; apply P; reflexivity|]. constructor; [constructor|]. constructor; [constructor|].
      constructor; [|constructor]. cbn [snd].
      apply w_obj; [repeat (constructor; [apply P; reflexivity|]); constructor| |].
      + constructor; [apply w_str; apply P; reflexivity|]. constructor; [now apply w_str|constructor].
      + constructor; [intros [H|[]]; discriminate|]. constructor; [intros []|constructor].
    - repeat (constructor; [cbn; intuition discriminate|]). constructor. }
  split; [exists (member_nodes filename offset size); now apply dumps_text|]. intros v J.
  assert (E : v = member_nodes filename offset size).
  { apply (json_unambiguous _ _ _ J). now apply dumps_text. }
  subst v. clear J. inversion W; subst.
  unfold member_nodes. cbn [map fst].
  assert (N1 : NoDup [chars_of "file"]) by (constructor; [intros []|constructor]).
  assert (N2 : NoDup [chars_of "driver"; chars_of "offset"; chars_of "size"; chars_of "file"]).
  { repeat (constructor; [cbn; intuition discriminate|]). constructor. }
  assert (N3 : NoDup [chars_of "driver"; chars_of "filename"]).
  { repeat (constructor; [cbn; intuition discriminate|]). constructor. }
  repeat split;
    try (eapply p_step; [left; reflexivity|exact N1|]);
    try (eapply p_step; [left; reflexivity|exact N2|apply p_here]);
    try (eapply p_step; [right; left; reflexivity|exact N2|apply p_here]);
    try (eapply p_step; [right; right; left; reflexivity|exact N2|apply p_here]);
    try (eapply p_step; [right; right; right; left; reflexivity|exact N2|]);
    try (eapply p_step; [left; reflexivity|exact N3|apply p_here]);
    try (eapply p_step; [right; left; reflexivity|exact N3|apply p_here]).
  intros k x A. inversion A; subst. match goal with H : In (k, _) _ |- _ => destruct H as [H|[]]; now injection H end.
Qed.
Example member_ex :
  json_uri (chars_of "a"", ""driver"": ""nbd") 1536 65536 =
  chars_of "json:{""file"": {""driver"": ""raw"", ""offset"": 1536, ""size"": 65536, ""file"": {""driver"": ""file"", ""filename"": ""a\"", \""driver\"": \""nbd""}}}".
Proof. reflexivity. Qed.

(* C88, refuted for names that are not UTF-8: the name (decoded by Python with
   surrogateescape, here the byte 0xff) is given to QEMU as an escape that
   stands for no character. *)
Theorem file_name_refuted : exists filename, code_points filename /\ unpaired filename /\
  forall t v x, json_uri filename 0 512 = chars_of "json:" ++ t -> json_text v t ->
    at_path v [chars_of "file"; chars_of "file"; chars_of "filename"] (VStr x) -> ~ unicode x.
Proof.
  exists [56575]. assert (C : code_points [56575]) by (constructor; [lia|constructor]).
  split; [exact C|]. split; [exact Logic.I|]. intros t v x E J A (_ & U).
  destruct (member_uri [56575] 0 512 t C Logic.I E) as (_ & M). destruct (M v J) as (_ & _ & _ & _ & B & _).
  pose proof (at_unique _ _ _ _ A B) as G. injection G as ->. inversion U as [|? ? U1 U2]. lia.
Qed.

(* Where the name of the file is in the argument of qemu-nbd. *)
Definition filename_path (range qcow2 : bool) : list text :=
  if range && qcow2 then [chars_of "file"; chars_of "file"; chars_of "filename"]
  else [chars_of "file"; chars_of "filename"].
Definition range_path (qcow2 : bool) (name : string) : list text :=
  if qcow2 then [chars_of "file"; chars_of name] else [chars_of name].

Local Ltac path :=
  repeat (eapply p_step; [cbn [In]; eauto 6| |]; [cbn [map fst]; repeat (constructor; [cbn; intuition discriminate|]); constructor|]).
(* Following a path by computation *)
Fixpoint find (k : text) (d : list (text * value)) : option value :=
  match d with [] => None | (k', x) :: r => if text_eqb k k' then Some x else find k r end.
Fixpoint get (v : value) (p : list text) : option value :=
  match p with
  | [] => Some v
  | k :: p => match v with VObj d => match find k d with Some x => get x p | None => None end | _ => None end
  end.
Lemma at_get v p x : at_path v p x -> get v p = Some x.
Proof.
  induction 1 as [v|d k x p v I N A IH]; [reflexivity|]. cbn [get].
  assert (F : find k d = Some x); [|now rewrite F].
  clear -I N. induction d as [|(k', y) d IHd]; [contradiction|]. cbn [find map fst] in *.
  inversion N as [|? ? N1 N2]; subst. destruct (text_eqb k k') eqn:E.
  - apply text_eqb_spec in E. subst k'. destruct I as [I|I]; [congruence|].
    exfalso. apply N1. apply (in_map fst) in I. exact I.
  - destruct I as [I|I]; [|auto]. injection I as -> ->.
    rewrite (proj2 (text_eqb_spec k k) eq_refl) in E. discriminate.
Qed.

(* C88: the argument of qemu-nbd names the file, its format and the range of
   bytes; the backing chain is cut only when asked. *)
Theorem image_argument_right block_device filename qcow2 offset size backing_chain t :
  code_points filename -> unpaired filename ->
  image_argument block_device filename (chars_of (if qcow2 : bool then "qcow2" else "raw")) offset size backing_chain =
    chars_of "json:" ++ t ->
  (exists v, json_text v t) /\ forall v, json_text v t ->
  let range := match offset, size with None, None => false | _, _ => true end in
  at_path v (filename_path range qcow2) (VStr filename) /\
  at_path v [chars_of "driver"] (VStr (chars_of (if qcow2 then "qcow2" else "raw"))) /\
  (forall n, offset = Some n <-> at_path v (range_path qcow2 "offset") (VInt n)) /\
  (forall n, size = Some n <-> at_path v (range_path qcow2 "size") (VInt n)) /\
  ((exists x, at_path v [chars_of "backing"] x) <-> range = false /\ qcow2 = true /\ backing_chain = false).
Proof.
  intros C U E. unfold image_argument in E. apply app_inv_head in E. subst t.
  assert (P : forall s, forallb (fun c => (0 <=? c) && (c <? 55296)) s = true -> code_points s /\ unpaired s).
  { intros s H. assert (F : Forall (fun c => 0 <= c < 55296) s).
    { rewrite forallb_forall in H. apply Forall_forall. intros x I. specialize (H x I). apply andb_prop in H. lia. }
    split; [revert F; apply Forall_impl; intros; lia|]. apply unicode_unpaired.
    split; [revert F; apply Forall_impl; intros; lia|revert F; apply Forall_impl; intros; lia]. }
  set (file := VObj [(chars_of "driver", VStr (chars_of (if block_device then "host_device" else "file")));
                    (chars_of "filename", VStr filename)]) in *.
  assert (Nf : NoDup [chars_of "driver"; chars_of "filename"]).
  { repeat (constructor; [cbn; intuition discriminate|]). constructor. }
  assert (Wf : writable file).
  { unfold file. apply w_obj; [repeat (constructor; [apply P; reflexivity|]); constructor| |exact Nf].
    constructor; [apply w_str; apply P; destruct block_device; reflexivity|]. constructor; [now apply w_str|constructor]. }
  assert (Af : at_path file [chars_of "filename"] (VStr filename)).
  { eapply p_step; [right; left; reflexivity|exact Nf|apply p_here]. }
  assert (W : writable (image_nodes block_device filename (chars_of (if qcow2 then "qcow2" else "raw")) offset size backing_chain)).
  { unfold image_nodes. fold file.
    destruct qcow2, offset, size, backing_chain; cbn [app];
    match goal with |- context [text_eqb ?a ?b] => change (text_eqb a b) with true || change (text_eqb a b) with false end;
    cbn [andb negb app];
    repeat match goal with
    | |- writable file => exact Wf
    | |- writable (VObj _) => apply w_obj
    | |- writable (VStr _) => apply w_str; apply P; reflexivity
    | |- writable _ => constructor
    | |- Forall _ [] => constructor
    | |- Forall (fun p => code_points _ /\ _) _ => constructor; [apply P; reflexivity|]
    | |- Forall (fun p => writable _) _ => constructor; [cbn [snd]|]
    | |- NoDup _ => cbn [map fst]; repeat (constructor; [cbn; intuition discriminate|]); constructor
    end. }
  split; [eexists; now apply dumps_text|]. intros v J range.
  assert (E : v = image_nodes block_device filename (chars_of (if qcow2 then "qcow2" else "raw")) offset size backing_chain).
  { apply (json_unambiguous _ _ _ J). now apply dumps_text. }
  subst v. clear J W.
  unfold image_nodes. fold file. clear Nf Wf P.
  assert (Ef : file = VObj [(chars_of "driver", VStr (chars_of (if block_device then "host_device" else "file")));
                            (chars_of "filename", VStr filename)]) by reflexivity.
  clearbody file.
  destruct qcow2, offset as [o|], size as [z|], backing_chain; subst range; cbn [app];
    match goal with |- context [text_eqb ?a ?b] => change (text_eqb a b) with true || change (text_eqb a b) with false end;
    cbn [andb negb app filename_path range_path].
  all: split; [path; exact Af|]; split; [path; apply p_here|]; split; [|split].
  all: try (intros n; split; [intros [= <-]; path; apply p_here|intros A; subst file; apply at_get in A; vm_compute in A; congruence]).
  all: try (split; [intros (x & A); subst file; apply at_get in A; vm_compute in A; congruence|intros (? & ? & ?); discriminate]).
  split; [auto|]. intros _. exists VNull. path. apply p_here.
Qed.
Example image_argument_ex :
  image_argument false (chars_of "vm.ova") (chars_of "qcow2") (Some 1536) None false =
  chars_of "json:{""driver"": ""qcow2"", ""file"": {""driver"": ""raw"", ""file"": {""driver"": ""file"", ""filename"": ""vm.ova""}, ""offset"": 1536}}".
Proof. reflexivity. Qed.

(* ---- progress as JSON ---- *)

(* What a reader of the output gets from a line. *)
Definition reports (u : update) (line : text) : Prop :=
  (exists v, json_text v line) /\
  forall v, json_text v line ->
    at_path v [chars_of "transferred"] (VInt (u_transferred u)) /\
    at_path v [chars_of "elapsed"] (u_elapsed u) /\
    at_path v [chars_of "description"] (VStr (match u_phase u with Some p => p | None => [] end)) /\
    (forall n, u_size u = Some n <-> at_path v [chars_of "size"] (VInt n)).

(* C88: with --output json, every update of the progress is one line, the JSON
   of that update; whatever text the phase is. *)
Theorem progress_lines us :
  (forall u, In u us -> writable (u_elapsed u) /\
     match u_phase u with Some p => code_points p /\ unpaired p | None => True end) ->
  (exists ls, lines_of (flat_map draw_json us) ls) /\
  forall ls, lines_of (flat_map draw_json us) ls -> Forall2 reports us ls.
Proof.
  intros H.
  assert (P : forall s, forallb (fun c => (0 <=? c) && (c <? 55296)) s = true -> code_points s /\ unpaired s).
  { intros s E. assert (F : Forall (fun c => 0 <= c < 55296) s).
    { rewrite forallb_forall in E. apply Forall_forall. intros x I. specialize (E x I). apply andb_prop in E. lia. }
    split; [revert F; apply Forall_impl; intros; lia|]. apply unicode_unpaired.
    split; [revert F; apply Forall_impl; intros; lia|revert F; apply Forall_impl; intros; lia]. }
  assert (N3 : NoDup [chars_of "transferred"; chars_of "elapsed"; chars_of "description"]).
  { repeat (constructor; [cbn; intuition discriminate|]). constructor. }
  assert (N4 : NoDup [chars_of "transferred"; chars_of "elapsed"; chars_of "description"; chars_of "size"]).
  { repeat (constructor; [cbn; intuition discriminate|]). constructor. }
  assert (W : forall u, In u us -> writable (progress u)).
  { intros u I. destruct (H u I) as (We & Wp). unfold progress. destruct (u_size u); cbn [app].
    - apply w_obj; [repeat (constructor; [apply P; reflexivity|]); constructor| |exact N4].
      constructor; [constructor|]. constructor; [exact We|]. constructor; [|constructor; [constructor|constructor]].
      cbn [snd]. destruct (u_phase u); [now apply w_str|apply w_str; [constructor|exact Logic.I]].
    - apply w_obj; [repeat (constructor; [apply P; reflexivity|]); constructor| |exact N3].
      constructor; [constructor|]. constructor; [exact We|]. constructor; [|constructor].
      cbn [snd]. destruct (u_phase u); [now apply w_str|apply w_str; [constructor|exact Logic.I]]. }
  assert (G : lines_of (flat_map draw_json us) (map (fun u => dumps (progress u)) us)).
  { clear -W. induction us as [|u us IH]; [constructor|]. cbn [flat_map map]. unfold draw_json at 1.
    rewrite <- app_assoc. cbn [app]. apply ln_cons; [apply printable_no_newline, dumps_printable, W; now left|].
    apply IH. intros u' I. apply W. now right. }
  split; [eexists; exact G|]. intros ls L. rewrite (lines_unique _ _ L _ G). clear L G ls.
  assert (R : forall u, In u us -> reports u (dumps (progress u))).
  { intros u I. specialize (W u I). pose proof (dumps_text _ W) as T. split; [now exists (progress u)|].
    intros v J. rewrite (json_unambiguous _ _ _ J T). clear v J T W I. unfold progress.
    destruct (u_size u) as [n|]; cbn [app].
    - split; [eapply p_step; [left; reflexivity|exact N4|apply p_here]|].
      split; [eapply p_step; [right; left; reflexivity|exact N4|apply p_here]|].
      split; [eapply p_step; [right; right; left; reflexivity|exact N4|apply p_here]|].
      intros m. split.
      + intros [= <-]. eapply p_step; [right; right; right; left; reflexivity|exact N4|apply p_here].
      + intros A. apply at_get in A. vm_compute in A. congruence.
    - split; [eapply p_step; [left; reflexivity|exact N3|apply p_here]|].
      split; [eapply p_step; [right; left; reflexivity|exact N3|apply p_here]|].
      split; [eapply p_step; [right; right; left; reflexivity|exact N3|apply p_here]|].
      intros m. split; [discriminate|]. intros A. apply at_get in A. vm_compute in A. discriminate. }
  clear -R. induction us as [|u us IH]; [constructor|]. cbn [map]. constructor; [apply R; now left|].
  apply IH. intros u' I. apply R. now right.
Qed.
Example progress_ex : flat_map draw_json
    [Update (VReal false 0 [0] None) 0 None (Some (chars_of "a
b")); Update (VReal false 1 [2; 5] None) 512 (Some 1024) None] =
  chars_of "{""transferred"": 0, ""elapsed"": 0.0, ""description"": ""a\nb""}" ++ [10] ++
  chars_of "{""transferred"": 512, ""elapsed"": 1.25, ""description"": """", ""size"": 1024}" ++ [10].
Proof. reflexivity. Qed.

Print Assumptions reads_any_json.
Print Assumptions json_unambiguous.
Print Assumptions dumps_loads_partial.
Print Assumptions unicode_unpaired.
Print Assumptions surrogates_refuted.
Print Assumptions dumps_is_ascii.
Print Assumptions last_name_wins.
Print Assumptions message_received.
Print Assumptions extents_received.
Print Assumptions ticket_received.
Print Assumptions member_uri.
Print Assumptions file_name_refuted.
Print Assumptions image_argument_right.
Print Assumptions progress_lines.
