(* Lemmas about ConfigModel. *)
From Coq Require Import ZArith List Bool Ascii String Lia Permutation.
From Verif Require Import HeaderModel HeaderSpec HeaderProofs HttpModel HttpProofs ConfigModel ConfigSpec.
Import ListNotations.
Open Scope Z_scope.

Lemma str_eqb_refl a : str_eqb a a = true.
Proof. apply str_eqb_eq; auto. Qed.
Lemma str_eqb_neq a b : str_eqb a b = false <-> a <> b.
Proof.
  rewrite <- not_true_iff_false. rewrite str_eqb_eq. tauto.
Qed.
Ltac deq a b := let E := fresh "E" in destruct (str_eqb a b) eqn:E;
  [apply str_eqb_eq in E | apply str_eqb_neq in E].

Arguments DEFAULT : simpl never.
Arguments str_eqb : simpl never.
Arguments keyword_mapping : simpl never.
Opaque DEFAULT.

(* ---- options ---- *)

Lemma set_same ns n v : set ns n v n = v.
Proof. unfold set. rewrite String.eqb_refl; auto. Qed.
Lemma set_other ns n v m : m <> n -> set ns n v m = ns m.
Proof. intros H. unfold set. apply String.eqb_neq in H. rewrite H; auto. Qed.

Lemma parsed_fold opts cmd ns n :
  NoDup (map o_name opts) ->
  (~ In n (map o_name opts) ->
   fold_left (fun ns o => if o_args o then set ns (o_name o) (cmd (o_name o)) else ns) opts ns n = ns n) /\
  (forall o, In o opts -> n = o_name o ->
   fold_left (fun ns o => if o_args o then set ns (o_name o) (cmd (o_name o)) else ns) opts ns n
   = if o_args o then cmd n else ns n).
Proof.
  revert ns. induction opts as [|o opts IH]; intros ns ND; cbn [map fold_left] in *.
  - split; [auto|]. intros o [].
  - inversion_clear ND as [|? ? N ND']. split.
    + intros H. destruct (IH (if o_args o then set ns (o_name o) (cmd (o_name o)) else ns) ND') as [X _].
      rewrite X by (intros F; apply H; cbn; auto).
      destruct (o_args o); [rewrite set_other|]; auto. intros ->. apply H. cbn; auto.
    + intros o' [-> | I] ->.
      * destruct (IH (if o_args o' then set ns (o_name o') (cmd (o_name o')) else ns) ND') as [X _].
        rewrite X by auto. destruct (o_args o'); [apply set_same|auto].
      * destruct (IH (if o_args o then set ns (o_name o) (cmd (o_name o)) else ns) ND') as [_ X].
        rewrite (X o') by auto. destruct (o_args o'); auto.
        destruct (o_args o); auto. rewrite set_other; auto.
        intros E. apply N. rewrite <- E. apply in_map; auto.
Qed.

Lemma parsed_spec opts cmd o :
  NoDup (map o_name opts) -> In o opts ->
  parsed opts cmd (o_name o) = if o_args o then cmd (o_name o) else None.
Proof.
  intros ND I. unfold parsed.
  destruct (parsed_fold opts cmd (fun _ => None) (o_name o) ND) as [_ X]. apply X; auto.
Qed.

(* Value after the configuration file. *)
Definition with_file (sec : section) (o : opt) (old : option value) : option value :=
  match old with
  | Some v => Some v
  | None => if o_config o then
              match sec (o_name o) with Some raw => o_type o raw | None => None end
            else None
  end.
Definition bad (sec : section) (o : opt) (old : option value) : bool :=
  match old with
  | Some v => false
  | None => o_config o &&
            match sec (o_name o) with
            | Some raw => match o_type o raw with None => true | Some _ => false end
            | None => false
            end
  end.

Lemma merge_spec opts sec : NoDup (map o_name opts) -> forall ns,
  match merge_config opts sec ns with
  | None => exists o, In o opts /\ bad sec o (ns (o_name o)) = true
  | Some ns' =>
      (forall o, In o opts -> bad sec o (ns (o_name o)) = false /\
                              ns' (o_name o) = with_file sec o (ns (o_name o))) /\
      (forall n, ~ In n (map o_name opts) -> ns' n = ns n)
  end.
Proof.
  induction opts as [|o opts IH]; intros ND ns.
  { cbn. split; [intros o []|auto]. }
  cbn [map] in ND. inversion_clear ND as [|? ? N ND']. specialize (IH ND').
  assert (K : forall o', In o' opts -> o_name o' <> o_name o).
  { intros o' I E. apply N. rewrite <- E. apply in_map; auto. }
  cbn [merge_config].
  assert (Same : bad sec o (ns (o_name o)) = false -> with_file sec o (ns (o_name o)) = ns (o_name o) ->
    match merge_config opts sec ns with
    | Some ns' =>
      (forall o0, In o0 (o :: opts) -> bad sec o0 (ns (o_name o0)) = false /\
                              ns' (o_name o0) = with_file sec o0 (ns (o_name o0))) /\
      (forall n, ~ In n (map o_name (o :: opts)) -> ns' n = ns n)
    | None => exists o0, In o0 (o :: opts) /\ bad sec o0 (ns (o_name o0)) = true
    end).
  { intros B W. specialize (IH ns). destruct (merge_config opts sec ns) as [ns'|].
    - destruct IH as [X Y]. split.
      + intros o' [<-|I]; auto. split; auto. rewrite W. apply Y; auto.
      + intros n H. apply Y. intros F; apply H; cbn; auto.
    - destruct IH as (o' & I & X). exists o'; cbn; auto. }
  destruct (o_config o) eqn:OC; cbn [negb].
  2:{ apply Same; unfold bad, with_file; rewrite OC; destruct (ns (o_name o)); auto. }
  destruct (ns (o_name o)) as [v|] eqn:NV.
  { apply Same; reflexivity. }
  destruct (sec (o_name o)) as [raw|] eqn:SE.
  2:{ apply Same; unfold bad, with_file; rewrite ?OC, ?SE; auto. }
  destruct (o_type o raw) as [v|] eqn:TY.
  2:{ exists o. split; [cbn; auto|]. unfold bad. rewrite NV, OC, SE, TY; auto. }
  specialize (IH (set ns (o_name o) (Some v))).
  destruct (merge_config opts sec (set ns (o_name o) (Some v))) as [ns'|].
  - destruct IH as [X Y]. split.
    + intros o' [<-|I].
      * rewrite Y by auto. rewrite set_same, NV. unfold bad, with_file. rewrite OC, SE, TY. auto.
      * specialize (X o' I). rewrite set_other in X by auto. auto.
    + intros n H. rewrite Y by (intros F; apply H; cbn; auto).
      apply set_other. intros ->. apply H; cbn; auto.
  - destruct IH as (o' & I & X). rewrite set_other in X by auto. exists o'; cbn; auto.
Qed.

Lemma defaults_spec opts : NoDup (map o_name opts) -> forall ns,
  (forall o, In o opts -> set_defaults opts ns (o_name o)
     = match ns (o_name o) with Some v => Some v | None => o_default o end) /\
  (forall n, ~ In n (map o_name opts) -> set_defaults opts ns n = ns n).
Proof.
  unfold set_defaults.
  induction opts as [|o opts IH]; intros ND ns; cbn [fold_left].
  { split; [intros o []|auto]. }
  cbn [map] in ND. inversion_clear ND as [|? ? N ND']. specialize (IH ND').
  set (ns1 := match ns (o_name o) with Some _ => ns | None => set ns (o_name o) (o_default o) end).
  destruct (IH ns1) as [X Y].
  assert (S1 : ns1 (o_name o) = match ns (o_name o) with Some v => Some v | None => o_default o end).
  { unfold ns1. destruct (ns (o_name o)) eqn:E; auto. apply set_same. }
  assert (S2 : forall n, n <> o_name o -> ns1 n = ns n).
  { intros n H. unfold ns1. destruct (ns (o_name o)); auto. apply set_other; auto. }
  split.
  - intros o' [<-|I].
    + rewrite Y by auto. auto.
    + rewrite X by auto. rewrite S2; auto. intros E. apply N. rewrite <- E. apply in_map; auto.
  - intros n H. rewrite Y by (intros F; apply H; cbn; auto). apply S2. intros ->. apply H; cbn; auto.
Qed.

Lemma missing_nil opts ns :
  missing opts ns = [] <-> forall o, In o opts -> o_required o = true -> ns (o_name o) <> None.
Proof.
  unfold missing. split.
  - intros E o I R F. apply map_eq_nil in E.
    assert (J : In o (filter (fun o => o_required o && match ns (o_name o) with None => true | _ => false end) opts)).
    { apply filter_In. rewrite R, F. auto. }
    rewrite E in J. destruct J.
  - intros H. induction opts as [|o opts IH]; cbn; auto.
    destruct (o_required o) eqn:R; cbn.
    + destruct (ns (o_name o)) eqn:E; [apply IH; firstorder|]. exfalso. apply (H o); cbn; auto.
    + apply IH. firstorder.
Qed.

Lemma lit_string l : lit (string_of_list_ascii l) = l.
Proof. apply list_ascii_of_string_of_list_ascii. Qed.
Lemma string_lit s : string_of_list_ascii (lit s) = s.
Proof. apply string_of_list_ascii_of_string. Qed.

(* ---- sizes ---- *)

Lemma size_units_small units n u : 0 <= n < KiB -> units <> [] ->
  size_units units n u = (n, fst (hd ([], 0) units)).
Proof.
  intros H N. destruct units as [|[v w] r]; [congruence|]. cbn.
  rewrite (proj2 (Z.ltb_lt _ _)) by (unfold KiB in *; lia). auto.
Qed.

(* ---- the dictionary of the parser ---- *)

Lemma assoc_put {A} (d : list (str * A)) k v k' :
  assoc (put d k v) k' = if str_eqb k k' then Some v else assoc d k'.
Proof.
  induction d as [|[a x] d IH]; cbn.
  - auto.
  - deq a k.
    + subst a. cbn. deq k k'; auto.
    + cbn. rewrite IH. deq a k'; auto. subst a. deq k k'; auto. congruence.
Qed.

Definition over (opt : str) (acc : option str) (p : str * str) : option str :=
  if str_eqb (keyword_mapping (fst p)) opt then Some (snd p) else acc.

Lemma put_options_get new : forall opts opt,
  assoc (put_options opts new) opt = fold_left (over opt) new (assoc opts opt).
Proof.
  unfold put_options. induction new as [|[n r] new IH]; intros opts opt; cbn [fold_left]; auto.
  rewrite IH, assoc_put. reflexivity.
Qed.

Definition dict_get (st : pstate) (sec opt : str) : option str :=
  match assoc st sec with Some d => assoc d opt | None => None end.

Definition entries (f : cfile) (sec : str) : list (str * str) :=
  List.concat (map snd (filter (fun p => str_eqb (fst p) sec) f)).

Lemma read_file_get f : forall st sec opt,
  dict_get (read_file st f) sec opt = fold_left (over opt) (entries f sec) (dict_get st sec opt).
Proof.
  unfold read_file. induction f as [|[s o] f IH]; intros st sec opt; cbn [fold_left]; auto.
  rewrite IH. unfold entries. cbn [filter fst snd].
  unfold dict_get at 1. rewrite assoc_put. deq s sec.
  - subst s. rewrite put_options_get. cbn [map List.concat snd]. rewrite fold_left_app. f_equal. f_equal.
    unfold dict_get. destruct (assoc st sec); auto.
  - reflexivity.
Qed.

Lemma read_file_section f : forall st sec,
  assoc (read_file st f) sec <> None <-> assoc st sec <> None \/ exists o, In (sec, o) f.
Proof.
  unfold read_file. induction f as [|[s o] f IH]; intros st sec; cbn [fold_left].
  - split; [auto|]. intros [H|(o & [])]; auto.
  - rewrite IH, assoc_put. cbn [fst]. deq s sec.
    + subst s. split; [|left; discriminate]. intros _. right. exists o. cbn; auto.
    + split; (intros [H|(o' & H)]; [auto|right]).
      * exists o'; cbn; auto.
      * destruct H as [[= ? ?]|H]; [congruence|]. eauto.
Qed.

Lemma entries_in f sec x y : In (x, y) (entries f sec) <-> exists o, In (sec, o) f /\ In (x, y) o.
Proof.
  unfold entries. rewrite in_concat. split.
  - intros (l & H & I). apply in_map_iff in H as ([s o] & <- & H). apply filter_In in H as [H E].
    cbn in E. apply str_eqb_eq in E. subst s. eauto.
  - intros (o & H & I). exists o. split; auto. apply in_map_iff. exists (sec, o). split; auto.
    apply filter_In. split; auto. apply str_eqb_refl.
Qed.

Lemma in_keywords s : existsb (fun k => str_eqb (lits k) s) KEYWORDS = true <-> In s (map lit reserved).
Proof.
  assert (KR : KEYWORDS = reserved) by reflexivity. rewrite <- KR. clear KR.
  rewrite existsb_exists. rewrite in_map_iff. split.
  - intros (k & I & E). apply str_eqb_eq in E. exists k; auto.
  - intros (k & E & I). exists k. split; auto. apply str_eqb_eq. auto.
Qed.

Lemma mapping_spec x o : keyword_mapping x = o <-> option_name x o.
Proof.
  unfold keyword_mapping. split.
  - destruct (existsb _ KEYWORDS) eqn:E; intros <-.
    + apply keyword_name; auto. apply in_keywords; auto.
    + apply plain_name; auto. rewrite <- in_keywords. rewrite E. discriminate.
  - destruct 1 as [s l -> N | s l -> N].
    + destruct (existsb _ KEYWORDS) eqn:E; auto. apply in_keywords in E. tauto.
    + apply in_keywords in N. rewrite N. auto.
Qed.

Lemma sets_entries f sec opt raw :
  sets f sec opt raw <-> exists name, In (name, raw) (entries f sec) /\ keyword_mapping name = opt.
Proof.
  unfold sets. split.
  - intros (o & n & H & I & M). apply mapping_spec in M. exists n. split; auto. apply entries_in; eauto.
  - intros (n & I & M). apply entries_in in I as (o & H & I). apply mapping_spec in M. eauto 6.
Qed.

Lemma over_none opt l : forall acc, (forall n r, In (n, r) l -> keyword_mapping n <> opt) ->
  fold_left (over opt) l acc = acc.
Proof.
  induction l as [|[n r] l IH]; intros acc H; cbn [fold_left]; auto.
  rewrite IH by (intros; eapply H; cbn; eauto). unfold over. cbn [fst].
  specialize (H n r (or_introl eq_refl)). apply str_eqb_neq in H. rewrite H. auto.
Qed.
Lemma over_some opt l : forall acc,
  fold_left (over opt) l acc = acc \/
  exists n r, In (n, r) l /\ keyword_mapping n = opt /\ fold_left (over opt) l acc = Some r.
Proof.
  induction l as [|[n r] l IH]; intros acc; cbn [fold_left]; auto.
  destruct (IH (over opt acc (n, r))) as [E | (n' & r' & I & M & E)].
  - rewrite E. unfold over. cbn. deq (keyword_mapping n) opt; auto.
    right. exists n, r. auto.
  - right. exists n', r'. cbn. auto.
Qed.
Lemma over_in opt l : forall acc n r, In (n, r) l -> keyword_mapping n = opt ->
  exists n' r', In (n', r') l /\ keyword_mapping n' = opt /\ fold_left (over opt) l acc = Some r'.
Proof.
  induction l as [|[m x] l IH]; intros acc n r I M; [destruct I|]. cbn [fold_left].
  destruct I as [[= -> ->]|I].
  - destruct (over_some opt l (over opt acc (n, r))) as [E | (n' & r' & I & M' & E)].
    + rewrite E. exists n, r. cbn. unfold over. cbn. rewrite M, str_eqb_refl. auto.
    + exists n', r'. cbn; auto.
  - destruct (IH (over opt acc (m, x)) n r I M) as (n' & r' & I' & M' & E). exists n', r'. cbn; auto.
Qed.

(* ---- files without duplicates ---- *)

Lemma mem_In x l : mem x l = true <-> In x l.
Proof.
  induction l as [|y l IH]; cbn; [split; [discriminate|tauto]|].
  rewrite orb_true_iff, IH, str_eqb_eq. tauto.
Qed.
Lemma nodup_NoDup l : nodup l = true <-> NoDup l.
Proof.
  induction l as [|x l IH]; cbn; [split; auto; constructor|].
  rewrite andb_true_iff, negb_true_iff, IH, <- not_true_iff_false, mem_In. split.
  - intros [? ?]; constructor; auto.
  - inversion 1; auto.
Qed.

Lemma NoDup_split {A} (dec : forall x y : A, {x = y} + {x <> y}) (l : list A) :
  ~ NoDup l -> exists a x b c, l = a ++ x :: b ++ x :: c.
Proof.
  induction l as [|x l IH]; intros H; [destruct H; constructor|].
  destruct (in_dec dec x l) as [I|N].
  - apply in_split in I as (b & c & ->). exists [], x, b, c. auto.
  - destruct IH as (a & y & b & c & ->).
    { intros F. apply H. constructor; auto. }
    exists (x :: a), y, b, c. auto.
Qed.
Lemma split_not_NoDup {A} (a b c : list A) x : ~ NoDup (a ++ x :: b ++ x :: c).
Proof.
  intros H. apply NoDup_remove_2 in H. apply H. rewrite !in_app_iff. cbn. auto.
Qed.

Lemma map_app_inv {A B} (f : A -> B) l a x b :
  map f l = a ++ x :: b -> exists a' y b', l = a' ++ y :: b' /\ map f a' = a /\ f y = x /\ map f b' = b.
Proof.
  intros H. apply map_eq_app in H as (a' & r & -> & <- & H).
  destruct r as [|y r]; cbn in H; [discriminate|]. injection H as <- <-. eauto 8.
Qed.

Lemma dup_fst {A} (f : list (str * A)) (P : str -> bool) :
  ~ NoDup (filter P (map fst f)) <->
  exists a b c s o o', f = a ++ (s, o) :: b ++ (s, o') :: c /\ P s = true.
Proof.
  split.
  - induction f as [|[s o] f IH]; cbn; intros H; [destruct H; constructor|].
    assert (Tail : ~ NoDup (filter P (map fst f)) -> exists a b c s0 o0 o',
        (s, o) :: f = a ++ (s0, o0) :: b ++ (s0, o') :: c /\ P s0 = true).
    { intros T. destruct (IH T) as (a & b & c & s' & o1 & o2 & -> & X).
      exists ((s, o) :: a), b, c, s', o1, o2. auto. }
    destruct (P s) eqn:PS; auto.
    destruct (in_dec (list_eq_dec ascii_dec) s (filter P (map fst f))) as [I|N].
    + apply filter_In in I as [I _]. apply in_map_iff in I as ([s' o'] & E & I). cbn in E. subst s'.
      apply in_split in I as (b & c & ->). exists [], b, c, s, o, o'. auto.
    + apply Tail. intros F. apply H. constructor; auto.
  - intros (a & b & c & s & o & o' & -> & PS) H.
    rewrite !map_app in H. cbn in H. rewrite map_app in H. cbn in H.
    rewrite !filter_app in H. cbn in H. rewrite PS in H. rewrite filter_app in H. cbn in H. rewrite PS in H.
    apply split_not_NoDup in H; auto.
Qed.

Lemma dup_entries (l : list (str * str)) :
  ~ NoDup (map keyword_mapping (map fst l)) <->
  exists name a b c x x' y y', l = a ++ (x, y) :: b ++ (x', y') :: c /\ option_name x name /\ option_name x' name.
Proof.
  rewrite map_map. split.
  - intros H. apply NoDup_split in H; [|apply (list_eq_dec ascii_dec)].
    destruct H as (a & x & b & c & E).
    apply map_app_inv in E as (a' & [n y] & r & -> & _ & En & E).
    apply map_app_inv in E as (b' & [n' y'] & c' & -> & _ & En' & _).
    exists x, a', b', c', n, n', y, y'. split; auto. split; apply mapping_spec; auto.
  - intros (name & a & b & c & x & x' & y & y' & -> & M & M').
    apply mapping_spec in M, M'.
    rewrite map_app. cbn. rewrite map_app. cbn. rewrite M, M'. apply split_not_NoDup.
Qed.

Lemma NoDup_app_l {A} (l l' : list A) : NoDup (l ++ l') -> NoDup l.
Proof.
  induction l as [|x l IH]; cbn; intros H; [constructor|]. inversion_clear H as [|? ? N ND].
  constructor; auto. intros I. apply N, in_app_iff; auto.
Qed.
Lemma NoDup_app_r {A} (l l' : list A) : NoDup (l ++ l') -> NoDup l'.
Proof. induction l as [|x l IH]; cbn; intros H; auto. inversion_clear H; auto. Qed.

Lemma NoDup_dec_str (l : list str) : {NoDup l} + {~ NoDup l}.
Proof.
  destruct (nodup l) eqn:E.
  - left. apply nodup_NoDup; auto.
  - right. rewrite <- nodup_NoDup. rewrite E. discriminate.
Qed.

Lemma filter_dec (f : cfile) sec :
  filter (fun p => if list_eq_dec ascii_dec (fst p) sec then true else false) f
  = filter (fun p => str_eqb (fst p) sec) f.
Proof.
  apply filter_ext. intros [s o]. cbn [fst]. destruct (list_eq_dec ascii_dec s sec) as [X|X].
  - symmetry. apply str_eqb_eq. exact X.
  - symmetry. apply str_eqb_neq. exact X.
Qed.

Lemma entries_dec (f : cfile) sec :
  List.concat (map snd (filter (fun p => if list_eq_dec ascii_dec (fst p) sec then true else false) f))
  = entries f sec.
Proof. rewrite filter_dec. reflexivity. Qed.

Lemma single_entries (f : cfile) sec :
  sec <> DEFAULT -> NoDup (filter (fun s => negb (str_eqb s DEFAULT)) (map fst f)) ->
  entries f sec = [] \/ exists o, In (sec, o) f /\ entries f sec = o.
Proof.
  intros N. unfold entries. induction f as [|[s o] f IH]; cbn; auto. deq s DEFAULT; cbn.
  - intros H. subst s. destruct (str_eqb DEFAULT sec) eqn:E; [apply str_eqb_eq in E; congruence|].
    destruct (IH H) as [|(o' & I & X)]; auto. right; eauto.
  - intros H. inversion_clear H as [|? ? NI ND]. deq s sec.
    + subst s. right. exists o. split; auto. cbn.
      assert (X : filter (fun p => str_eqb (fst p) sec) f = []).
      { destruct (filter (fun p => str_eqb (fst p) sec) f) as [|[s2 o2] r] eqn:EF; auto.
        assert (I : In (s2, o2) (filter (fun p => str_eqb (fst p) sec) f)) by (rewrite EF; cbn; auto).
        apply filter_In in I as [I E2]. cbn in E2. apply str_eqb_eq in E2. subst s2.
        exfalso. apply NI. apply filter_In. split.
        - change sec with (fst (sec, o2)). apply in_map; auto.
        - apply negb_true_iff, str_eqb_neq. auto. }
      rewrite X. cbn. apply app_nil_r.
    + destruct (IH ND) as [|(o' & I & X)]; auto. right; eauto.
Qed.

Lemma valid_file_spec f : valid_file f = true <-> ~ duplicates f.
Proof.
  unfold valid_file. rewrite !andb_true_iff, !nodup_NoDup, forallb_forall.
  split.
  - intros [[A B] C] [D|D].
    + destruct D as (a & b & c & s & o & o' & -> & N). revert A. apply dup_fst.
      exists a, b, c, s, o, o'. split; auto. apply negb_true_iff, str_eqb_neq. auto.
    + destruct D as (sec & name & D). rewrite entries_dec in D.
      assert (X : ~ NoDup (map keyword_mapping (map fst (entries f sec)))).
      { apply dup_entries. exists name. auto. }
      deq sec DEFAULT.
      * subst sec. apply X. unfold entries. rewrite (concat_map fst), map_map. exact B.
      * destruct (single_entries f sec E A) as [Z|(o & I & Z)].
        { apply X. rewrite Z. constructor. }
        { apply X. rewrite Z. apply C in I. cbn in I. apply nodup_NoDup in I. auto. }
  - intros H.
    assert (A : forall sec, NoDup (map keyword_mapping (map fst (entries f sec)))).
    { intros sec. destruct (NoDup_dec_str (map keyword_mapping (map fst (entries f sec)))) as [|N]; auto.
      exfalso. apply H. right. apply dup_entries in N. destruct N as (name & N). exists sec, name.
      rewrite entries_dec. exact N. }
    split; [split|].
    + destruct (NoDup_dec_str (filter (fun s => negb (str_eqb s DEFAULT)) (map fst f))) as [|N]; auto.
      exfalso. apply H. left. apply dup_fst in N as (a & b & c & s & o & o' & -> & N).
      exists a, b, c, s, o, o'. split; auto. apply negb_true_iff, str_eqb_neq in N. auto.
    + specialize (A DEFAULT). unfold entries in A. rewrite (concat_map fst), map_map in A. exact A.
    + intros [s o] I. cbn. apply nodup_NoDup. specialize (A s).
      apply in_split in I as (a & b & ->). unfold entries in A.
      rewrite filter_app in A. cbn in A. rewrite str_eqb_refl in A.
      rewrite map_app, concat_app in A. cbn in A. rewrite !map_app in A.
      apply NoDup_app_r in A. apply NoDup_app_l in A. auto.
Qed.

Lemma sets_unique f sec opt r r' :
  valid_file f = true -> sets f sec opt r -> sets f sec opt r' -> r = r'.
Proof.
  intros V S S'. apply valid_file_spec in V.
  destruct (list_eq_dec ascii_dec r r') as [|N]; auto. exfalso. apply V. right.
  apply sets_entries in S as (n & I & M), S' as (n' & I' & M').
  exists sec, opt. rewrite entries_dec.
  apply in_split in I as (a & b & E). rewrite E in I'.
  apply in_app_iff in I' as [I'|[I'|I']].
  - apply in_split in I' as (a1 & a2 & ->).
    exists a1, a2, b, n', n, r', r. rewrite E. rewrite <- !app_assoc. cbn.
    split; [auto|]. split; apply mapping_spec; auto.
  - congruence.
  - apply in_split in I' as (b1 & b2 & ->).
    exists a, b1, b2, n, n', r, r'. split; [auto|]. split; apply mapping_spec; auto.
Qed.

(* ---- all files ---- *)

Lemma files_section files : forall st sec,
  assoc (fold_left read_file files st) sec <> None <-> assoc st sec <> None \/ has_section files sec.
Proof.
  induction files as [|f files IH]; intros st sec; cbn [fold_left].
  - split; auto. intros [H|(f & o & [] & _)]; auto.
  - rewrite IH, read_file_section. split.
    + intros [[H|(o & H)]|(g & o & H & I)]; auto; right.
      * exists f, o. cbn; auto.
      * exists g, o. cbn; auto.
    + intros [H|(g & o & [<-|H] & I)]; eauto. right. exists g, o; auto.
Qed.

Lemma files_get files sec opt : forall st,
  (never_set files sec opt -> dict_get (fold_left read_file files st) sec opt = dict_get st sec opt) /\
  (forall raw, dict_get (fold_left read_file files st) sec opt = Some raw ->
     last_set files sec opt raw \/ never_set files sec opt /\ dict_get st sec opt = Some raw) /\
  (forallb valid_file files = true -> forall raw, last_set files sec opt raw ->
     dict_get (fold_left read_file files st) sec opt = Some raw).
Proof.
  induction files as [|f files IH]; intros st; cbn [fold_left].
  { split; [auto|]. split.
    - intros raw H. right. split; auto. intros g r [].
    - intros _ raw (b & g & a & E & _). destruct b; discriminate. }
  destruct (IH (read_file st f)) as (A & B & C).
  assert (Dec : (exists r, sets f sec opt r) \/ forall r, ~ sets f sec opt r).
  { destruct (existsb (fun p => str_eqb (keyword_mapping (fst p)) opt) (entries f sec)) eqn:E.
    - apply existsb_exists in E as ([n r] & I & E). apply str_eqb_eq in E. left. exists r.
      apply sets_entries. eauto.
    - right. intros r S. apply sets_entries in S as (n & I & M).
      assert (existsb (fun p => str_eqb (keyword_mapping (fst p)) opt) (entries f sec) = true); [|congruence].
      apply existsb_exists. exists (n, r). split; auto. apply str_eqb_eq. auto. }
  assert (Nf : (forall r, ~ sets f sec opt r) -> dict_get (read_file st f) sec opt = dict_get st sec opt).
  { intros N. rewrite read_file_get. apply over_none. intros n r I M. apply (N r). apply sets_entries; eauto. }
  assert (Sf : forall r, sets f sec opt r -> exists r', sets f sec opt r' /\ dict_get (read_file st f) sec opt = Some r').
  { intros r S. apply sets_entries in S as (n & I & M). rewrite read_file_get.
    destruct (over_in opt (entries f sec) (dict_get st sec opt) n r I M) as (n' & r' & I' & M' & E).
    exists r'. split; auto. apply sets_entries; eauto. }
  split; [|split].
  - intros N. rewrite A by (intros g r H; apply N; cbn; auto). apply Nf. intros r. apply N. cbn; auto.
  - intros raw H. destruct (B raw H) as [L|[N E]].
    + left. destruct L as (b & g & a & -> & S & L). exists (f :: b), g, a. auto.
    + destruct Dec as [(r & S)|Dec].
      * destruct (Sf r S) as (r' & S' & E'). left. exists [], f, files.
        replace raw with r' by congruence. split; [auto|]. split; [auto|]. intros g x I. apply N; auto.
      * right. split; [|rewrite <- Nf; auto]. intros g x [<-|I]; auto.
  - intros V raw (b & g & a & E & S & L). cbn in V. apply andb_true_iff in V as [Vf V].
    destruct b as [|h b]; cbn in E; injection E as -> ->.
    + rewrite A by (intros h x I; apply L; auto).
      destruct (Sf raw S) as (r' & S' & E'). rewrite E'. f_equal. eapply sets_unique; eauto.
    + apply C; auto. exists b, g, a. auto.
Qed.

Lemma parser_get_spec files sec opt :
  keyword_mapping opt = opt ->
  let st := fold_left read_file files [] in
  match parser_get st sec opt with
  | Got raw => text_for files sec opt (Some raw)
  | _ => text_for files sec opt None
  end.
Proof.
  intros M st. unfold parser_get. rewrite M.
  destruct (files_get files sec opt []) as (A & B & _).
  destruct (files_get files DEFAULT opt []) as (A' & B' & _).
  pose proof (files_section files [] sec) as FS. fold st in A, B, A', B', FS.
  assert (Z : forall s, dict_get [] s opt = None) by reflexivity.
  assert (NS : dict_get st sec opt = None -> never_set files sec opt).
  { intros E f raw I S.
    assert (X : exists r, dict_get st sec opt = Some r).
    { clear A B. destruct (in_split _ _ I) as (b & a & ->).
      unfold st. rewrite fold_left_app. cbn [fold_left].
      apply sets_entries in S as (n & J & MM).
      set (s0 := fold_left read_file b []).
      destruct (over_in opt (entries f sec) (dict_get s0 sec opt) n raw J MM) as (n' & r' & J' & M' & E').
      rewrite <- read_file_get in E'.
      set (s1 := read_file s0 f) in *. clearbody s1. clear - E'. revert s1 r' E'.
      induction a as [|g a IH]; intros s1 r' E'; cbn; eauto.
      destruct (over_some opt (entries g sec) (dict_get s1 sec opt)) as [E2|(? & r2 & _ & _ & E2)];
        rewrite <- read_file_get in E2; (eapply IH; rewrite E2; eauto). }
    destruct X. congruence. }
  assert (NS' : dict_get st DEFAULT opt = None -> never_set files DEFAULT opt).
  { clear - M. intros E f raw I S.
    assert (X : exists r, dict_get st DEFAULT opt = Some r).
    { destruct (in_split _ _ I) as (b & a & ->).
      unfold st. rewrite fold_left_app. cbn [fold_left].
      apply sets_entries in S as (n & J & MM).
      set (s0 := fold_left read_file b []).
      destruct (over_in opt (entries f DEFAULT) (dict_get s0 DEFAULT opt) n raw J MM) as (n' & r' & J' & M' & E').
      rewrite <- read_file_get in E'.
      set (s1 := read_file s0 f) in *. clearbody s1. clear - E'. revert s1 r' E'.
      induction a as [|g a IH]; intros s1 r' E'; cbn; eauto.
      destruct (over_some opt (entries g DEFAULT) (dict_get s1 DEFAULT opt)) as [E2|(? & r2 & _ & _ & E2)];
        rewrite <- read_file_get in E2; (eapply IH; rewrite E2; eauto). }
    destruct X. congruence. }
  destruct (assoc st sec) as [opts|] eqn:AS.
  - assert (HS : has_section files sec).
    { assert (X : Some opts <> None) by discriminate. apply FS in X as [X|X]; auto. cbn in X. congruence. }
    destruct (assoc opts opt) as [raw|] eqn:AO.
    + destruct (B raw) as [L|[N E]]; [unfold dict_get; rewrite AS; auto| |rewrite Z in E; discriminate].
      apply in_section; auto.
    + assert (N : never_set files sec opt) by (apply NS; unfold dict_get; rewrite AS; auto).
      destruct (assoc st DEFAULT) as [d|] eqn:AD.
      * destruct (assoc d opt) as [raw|] eqn:AO'.
        { destruct (B' raw) as [L|[_ E]]; [unfold dict_get; rewrite AD; auto| |rewrite Z in E; discriminate].
          apply in_default; auto. }
        { apply not_set; auto. right. apply NS'. unfold dict_get. rewrite AD; auto. }
      * apply not_set; auto. right. apply NS'. unfold dict_get. rewrite AD; auto.
  - apply not_set.
    + apply NS. unfold dict_get. rewrite AS. auto.
    + left. intros H. apply (proj2 FS); auto.
Qed.

Lemma set_last (f : Prop) files sec opt raw : last_set files sec opt raw -> never_set files sec opt -> f.
Proof. intros (b & g & a & -> & S & _) N. exfalso. apply (N g raw); auto. apply in_app_iff; cbn; auto. Qed.

Lemma sets_has files sec opt raw : last_set files sec opt raw -> has_section files sec.
Proof.
  intros (b & g & a & -> & (o & n & I & _) & _). exists g, o. split; auto. apply in_app_iff; cbn; auto.
Qed.

(* The text is determined by the files. *)
Lemma text_for_unique files sec opt a b :
  forallb valid_file files = true -> text_for files sec opt a -> text_for files sec opt b -> a = b.
Proof.
  intros V.
  assert (U : forall s r r', last_set files s opt r -> last_set files s opt r' -> r = r').
  { intros s r r' L L'. destruct (files_get files s opt []) as (_ & _ & C).
    apply (C V) in L. apply (C V) in L'. congruence. }
  intros [r L|r HS N L|N H] [r' L'|r' HS' N' L'|N' H']; auto.
  - f_equal. eapply U; eauto.
  - exact (set_last _ _ _ _ _ L N').
  - exact (set_last _ _ _ _ _ L N').
  - exact (set_last _ _ _ _ _ L' N).
  - f_equal. eapply U; eauto.
  - destruct H' as [H'|H']; [tauto|]. exact (set_last _ _ _ _ _ L H').
  - exact (set_last _ _ _ _ _ L' N).
  - destruct H as [H|H]; [tauto|]. exact (set_last _ _ _ _ _ L' H).
Qed.

Section Load.
Variable lim : option Z.
Variable floats : str -> bool.

Lemma in_strings s l : existsb (fun c => str_eqb (lits c) s) l = true <-> In s (map lit l).
Proof.
  rewrite existsb_exists, in_map_iff. split.
  - intros (k & I & E). apply str_eqb_eq in E. exists k; auto.
  - intros (k & E & I). exists k. split; auto. apply str_eqb_eq. auto.
Qed.

Lemma in_bools (l l' : list string) s : (forall x, In x l <-> In x l') -> In s (map lit l) <-> In s (map lit l').
Proof. intros H. rewrite !in_map_iff. split; intros (x & E & I); exists x; split; auto; apply H; auto. Qed.

Lemma validate_spec d raw v : validate lim floats d raw = Some v <-> typed floats lim d raw v.
Proof.
  assert (T : forall s, In s (map lit TRUE_VALUES) <-> In s (map lit ["true"; "yes"; "1"; "on"]%string)).
  { intros s. apply in_bools. intros x. cbn. tauto. }
  assert (F : forall s, In s (map lit FALSE_VALUES) <-> In s (map lit ["false"; "no"; "0"; "off"]%string)).
  { intros s. apply in_bools. intros x. cbn. tauto. }
  split.
  - destruct d; cbn.
    + intros [= <-]. constructor.
    + destruct (py_int lim raw) eqn:E; intros [= <-]. constructor; auto.
    + destruct (floats raw) eqn:E; intros [= <-]. constructor; auto.
    + unfold bool_of. destruct (existsb _ TRUE_VALUES) eqn:E; [|destruct (existsb _ FALSE_VALUES) eqn:E'];
        cbn; intros [= <-].
      * apply t_true. apply T. apply in_strings; auto.
      * apply t_false. apply F. apply in_strings; auto.
  - destruct 1 as [d s|d s n E|d s E|d s I|d s I]; cbn; auto.
    + rewrite E; auto.
    + rewrite E; auto.
    + apply T, in_strings in I. unfold bool_of. rewrite I. auto.
    + apply F, in_strings in I. unfold bool_of. rewrite I.
      destruct (existsb _ TRUE_VALUES) eqn:E; auto.
      exfalso. clear - E I. apply in_strings in E, I.
      apply in_map_iff in E as (x & E & J), I as (y & I & J').
      assert (Q : lit x = lit y) by congruence.
      cbn in J, J'.
      repeat (destruct J as [<-|J]; [repeat (destruct J' as [<-|J']; [discriminate Q|]); destruct J'|]).
      destruct J.
Qed.

Lemma load_options_spec files sec opts :
  (forall o d, In (o, d) opts -> keyword_mapping o = o) ->
  match load_options lim floats (fold_left read_file files []) sec opts with
  | Some opts' => Forall2 (loaded floats lim files sec) opts opts'
  | None => exists o d raw, In (o, d) opts /\ text_for files sec o (Some raw) /\
              forall v, ~ typed floats lim d raw v
  end.
Proof.
  induction opts as [|[o d] opts IH]; intros K; cbn [load_options]; [constructor|].
  assert (K' : forall o d, In (o, d) opts -> keyword_mapping o = o) by (intros; eapply K; cbn; eauto).
  specialize (IH K').
  pose proof (parser_get_spec files sec o (K o d (or_introl eq_refl))) as P. cbv zeta in P.
  destruct (parser_get (fold_left read_file files []) sec o) as [| |raw] eqn:G.
  - (* no section *)
    assert (NS : ~ has_section files sec).
    { unfold parser_get in G. intros H.
      destruct (assoc (fold_left read_file files []) sec) as [x|] eqn:AS.
      - destruct (assoc x (keyword_mapping o)); [discriminate|].
        destruct (assoc (fold_left read_file files []) DEFAULT) as [y|]; [destruct (assoc y (keyword_mapping o))|]; discriminate.
      - apply (proj2 (files_section files [] sec)); auto. }
    assert (All : forall o d, loaded floats lim files sec (o, d) (o, d)).
    { intros o' d'. apply l_default. apply not_set; auto.
      intros f raw I (opts' & n & J & _). apply NS. exists f, opts'. auto. }
    clear - All. set (l := (o, d) :: opts). clearbody l. induction l as [|[a b] l IH]; constructor; auto.
  - destruct (load_options lim floats (fold_left read_file files []) sec opts) as [opts'|].
    + constructor; auto. apply l_default; auto.
    + destruct IH as (o' & d' & raw & I & T). exists o', d', raw. cbn; auto.
  - destruct (validate lim floats d raw) as [v|] eqn:E.
    + destruct (load_options lim floats (fold_left read_file files []) sec opts) as [opts'|].
      * constructor; auto. eapply l_set; eauto. apply validate_spec; auto.
      * destruct IH as (o' & d' & raw' & I & T). exists o', d', raw'. cbn; auto.
    + exists o, d, raw. cbn. split; [auto|]. split; [auto|]. intros v T. apply validate_spec in T. congruence.
Qed.

Definition section_loaded (files : list cfile) (p q : str * list (str * cval)) : Prop :=
  fst p = fst q /\ Forall2 (loaded floats lim files (fst p)) (snd p) (snd q).

Lemma load_sections_spec files cfg :
  canonical cfg ->
  match load_sections lim floats (fold_left read_file files []) cfg with
  | Some cfg' => Forall2 (section_loaded files) cfg cfg'
  | None => exists sec opts o d raw, In (sec, opts) cfg /\ In (o, d) opts /\
              text_for files sec o (Some raw) /\ forall v, ~ typed floats lim d raw v
  end.
Proof.
  induction cfg as [|[sec opts] cfg IH]; intros K; cbn [load_sections]; [constructor|].
  assert (K' : canonical cfg) by (intros s os o d I J; eapply K; cbn; eauto).
  specialize (IH K').
  pose proof (load_options_spec files sec opts (fun o d I => K sec opts o d (or_introl eq_refl) I)) as P.
  destruct (load_options lim floats (fold_left read_file files []) sec opts) as [opts'|].
  - destruct (load_sections lim floats (fold_left read_file files []) cfg) as [cfg'|].
    + constructor; auto. split; auto.
    + destruct IH as (s & os & o & d & raw & I & J). exists s, os, o, d, raw. cbn; auto.
  - destruct P as (o & d & raw & I & T). exists sec, opts, o, d, raw. cbn; auto.
Qed.

End Load.

(* ---- order of files ---- *)

Lemma str_leb_spec a b : str_leb a b = true <-> ~ name_lt (code b) (code a).
Proof.
  revert b. induction a as [|x a IH]; intros [|y b]; cbn.
  - split; auto. intros _ H. inversion H.
  - split; auto. intros _ H. inversion H.
  - split; [discriminate|]. intros H. exfalso. apply H. constructor.
  - destruct (N.ltb_spec (N_of_ascii x) (N_of_ascii y)) as [L|L].
    + split; auto. intros _ H. inversion H; subst; lia.
    + destruct (N.ltb_spec (N_of_ascii y) (N_of_ascii x)) as [L'|L'].
      * split; [discriminate|]. intros H. exfalso. apply H. constructor. auto.
      * rewrite IH. assert (E : N_of_ascii y = N_of_ascii x) by lia. split.
        { intros H F. inversion F; subst; auto; try lia. }
        { intros H F. apply H. unfold code. cbn. rewrite E. apply lt_same. auto. }
Qed.
Lemma name_lt_irrefl a : ~ name_lt a a.
Proof. induction a; intros H; inversion H; subst; auto; lia. Qed.
Lemma name_lt_trans a b c : name_lt a b -> name_lt b c -> name_lt a c.
Proof.
  intros H. revert c. induction H as [y b|x y a b L|x a b H IH]; intros c H'.
  - inversion H'; constructor.
  - inversion H'; subst; constructor; auto; lia.
  - inversion H'; subst; [constructor; auto|apply lt_same; auto].
Qed.
Lemma name_total a b : name_lt (code a) (code b) \/ a = b \/ name_lt (code b) (code a).
Proof.
  revert b. induction a as [|x a IH]; intros [|y b].
  - auto.
  - left; apply lt_nil.
  - right; right; apply lt_nil.
  - destruct (N.lt_trichotomy (N_of_ascii x) (N_of_ascii y)) as [L|[E|L]].
    + left; apply lt_char; auto.
    + unfold code. cbn [map]. rewrite E. destruct (IH b) as [H|[->|H]].
      * left; apply lt_same; auto.
      * right; left. f_equal. rewrite <- (ascii_N_embedding x), <- (ascii_N_embedding y), E. auto.
      * right; right; apply lt_same; auto.
    + right; right; apply lt_char; auto.
Qed.

Definition le (f g : str * cfile) : Prop := ~ name_lt (code (fst g)) (code (fst f)).
Lemma le_trans f g h : le f g -> le g h -> le f h.
Proof.
  unfold le. intros A B C. destruct (name_total (fst f) (fst g)) as [X|[X|X]]; auto.
  - apply B. eapply name_lt_trans; eauto.
  - rewrite X in C. auto.
Qed.

Inductive sorted : list (str * cfile) -> Prop :=
| s_nil : sorted []
| s_cons f l : (forall g, In g l -> le f g) -> sorted l -> sorted (f :: l).

Lemma insert_in f l g : In g (insert f l) <-> g = f \/ In g l.
Proof.
  induction l as [|h l IH]; cbn; [intuition|].
  destruct (str_leb (fst f) (fst h)); cbn; rewrite ?IH; intuition.
Qed.
Lemma insert_sorted f l : sorted l -> sorted (insert f l).
Proof.
  induction 1 as [|h l H S IH]; cbn; [constructor; [intros g []|constructor]|].
  destruct (str_leb (fst f) (fst h)) eqn:E.
  - apply str_leb_spec in E. constructor; [|constructor; auto].
    intros g [<-|I]; auto. eapply le_trans; [exact E|]. apply H; auto.
  - constructor; auto. intros g I. apply insert_in in I as [->|I]; auto.
    unfold le. intros F. assert (str_leb (fst f) (fst h) = true); [|congruence].
    apply str_leb_spec. intros G. eapply name_lt_irrefl. eapply name_lt_trans; eauto.
Qed.
Lemma sort_sorted l : sorted (sort l).
Proof. induction l; cbn; [constructor|apply insert_sorted; auto]. Qed.

Definition named (n : str) (f : str * cfile) : bool :=
  if list_eq_dec ascii_dec (fst f) n then true else false.
Lemma insert_named n f l : sorted l ->
  filter (named n) (insert f l) = filter (named n) (f :: l).
Proof.
  induction 1 as [|h l H S IH]; cbn [insert]; auto.
  destruct (str_leb (fst f) (fst h)) eqn:E; auto.
  cbn [filter] in *. rewrite IH. unfold named.
  destruct (list_eq_dec ascii_dec (fst h) n) as [A|]; auto.
  destruct (list_eq_dec ascii_dec (fst f) n) as [B|]; auto.
  exfalso. assert (str_leb (fst f) (fst h) = true); [|congruence].
  apply str_leb_spec. rewrite A, B. apply name_lt_irrefl.
Qed.
Lemma sort_named n l : filter (named n) (sort l) = filter (named n) l.
Proof.
  induction l as [|f l IH]; cbn [sort]; auto.
  rewrite insert_named by apply sort_sorted. cbn [filter]. rewrite IH. auto.
Qed.

Lemma sorted_split l : sorted l -> forall a f b g c, l = a ++ f :: b ++ g :: c -> le f g.
Proof.
  induction 1 as [|h l H S IH]; intros a f b g c E; [destruct a; discriminate|].
  destruct a as [|x a]; cbn in E; injection E as -> E.
  - apply H. rewrite E. apply in_app_iff; cbn; auto.
  - eapply IH; eauto.
Qed.
Lemma split_sorted l : (forall a f b g c, l = a ++ f :: b ++ g :: c -> le f g) -> sorted l.
Proof.
  induction l as [|h l IH]; intros H; constructor.
  - intros g I. apply in_split in I as (b & c & ->). apply (H [] h b g c). auto.
  - apply IH. intros a f b g c ->. apply (H (h :: a) f b g c). auto.
Qed.

Lemma sort_in_order l : in_order l (sort l).
Proof.
  split.
  - intros a f b g c E. exact (sorted_split _ (sort_sorted l) a f b g c E).
  - intros n. exact (sort_named n l).
Qed.

Lemma sorted_unique l l' : sorted l -> sorted l' ->
  (forall n, filter (named n) l = filter (named n) l') -> l = l'.
Proof.
  assert (Self : forall f, named (fst f) f = true).
  { intros f. unfold named. destruct (list_eq_dec ascii_dec (fst f) (fst f)); auto. }
  intros S. revert l'. induction S as [|f l H S IH]; intros l' S' F.
  - destruct l' as [|g l']; auto. specialize (F (fst g)). cbn [filter] in F. rewrite Self in F. discriminate.
  - destruct S' as [|g l' H' S'].
    { specialize (F (fst f)). cbn [filter] in F. rewrite Self in F. discriminate. }
    assert (I : In f (filter (named (fst f)) (g :: l'))).
    { rewrite <- F. cbn [filter]. rewrite Self. cbn; auto. }
    assert (I' : In g (filter (named (fst g)) (f :: l))).
    { rewrite F. cbn [filter]. rewrite Self. cbn; auto. }
    apply filter_In in I as [I _], I' as [I' _].
    assert (fst f = fst g).
    { destruct (name_total (fst f) (fst g)) as [X|[X|X]]; auto; exfalso.
      - destruct I as [->|I]; [eapply name_lt_irrefl; eauto|]. apply (H' f I). auto.
      - destruct I' as [->|I']; [eapply name_lt_irrefl; eauto|]. apply (H g I'). auto. }
    assert (E : f = g).
    { specialize (F (fst f)). cbn [filter] in F. rewrite Self in F. rewrite H0 in F at 2.
      rewrite Self in F. congruence. }
    subst g. f_equal. apply IH; auto. intros n. specialize (F n). cbn [filter] in F.
    destruct (named n f); congruence.
Qed.

Lemma in_order_unique l a b : in_order l a -> in_order l b -> a = b.
Proof.
  intros [A A'] [B B']. apply sorted_unique.
  - apply split_sorted. exact A.
  - apply split_sorted. exact B.
  - intros n. specialize (A' n). specialize (B' n). cbv zeta in A', B'.
    etransitivity; [exact A'|]. symmetry. exact B'.
Qed.

Lemma sort_in l f : In f (sort l) <-> In f l.
Proof. induction l as [|g l IH]; cbn; [tauto|]. rewrite insert_in, IH. intuition. Qed.

Lemma named_perm n l l' : NoDup (map fst l) -> Permutation l l' -> filter (named n) l = filter (named n) l'.
Proof.
  intros ND P.
  assert (PF : Permutation (filter (named n) l) (filter (named n) l')).
  { clear ND. induction P; cbn; auto.
    - destruct (named n x); auto.
    - destruct (named n x), (named n y); auto. apply perm_swap.
    - etransitivity; eauto. }
  assert (L : forall l, NoDup (map fst l) -> (List.length (filter (named n) l) <= 1)%nat).
  { clear. induction l as [|f l IH]; cbn; intros H; auto. inversion_clear H as [|? ? N ND].
    destruct (named n f) eqn:E; cbn; auto.
    assert (X : filter (named n) l = []); [|rewrite X; auto].
    destruct (filter (named n) l) as [|g r] eqn:F; auto. exfalso. apply N.
    assert (I : In g (filter (named n) l)) by (rewrite F; cbn; auto).
    apply filter_In in I as [I G]. unfold named in *.
    destruct (list_eq_dec ascii_dec (fst f) n); [|discriminate].
    destruct (list_eq_dec ascii_dec (fst g) n); [|discriminate].
    replace (fst f) with (fst g) by congruence. apply in_map; auto. }
  specialize (L l ND).
  destruct (filter (named n) l) as [|f [|g r]]; cbn in L; try lia.
  - apply Permutation_nil in PF. auto.
  - apply Permutation_length_1_inv in PF. auto.
Qed.
