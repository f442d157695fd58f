(* Lemmas for ShowTheorems.v. *)
From Coq Require Import ZArith List Bool Ascii String Lia FinFun.
From Verif Require Import HeaderModel HeaderSpec HttpModel HttpProofs ConfigModel ConfigSpec ConfigProofs ConfigTheorems ShowModel ShowSpec.
From Verif Require JsonModel JsonSpec JsonProofs JsonTheorems HttpBackendModel HttpBackendProofs.
Import ListNotations.
Open Scope Z_scope.

(* ---- dictionaries ---- *)

Lemma put_new {A} (d : list (str * A)) k v : ~ In k (map fst d) -> put d k v = d ++ [(k, v)].
Proof.
  induction d as [|[k' v'] d IH]; cbn; auto. intros N.
  destruct (str_eqb k' k) eqn:E; [apply HttpProofs.str_eqb_eq in E; subst; tauto|]. rewrite IH; auto.
Qed.

Lemma fold_put {A B} (f : B -> str) (g : B -> A) l : forall d, NoDup (map fst d ++ map f l) ->
  fold_left (fun d p => put d (f p) (g p)) l d = d ++ map (fun p => (f p, g p)) l.
Proof.
  induction l as [|b l IH]; intros d N; cbn; [now rewrite app_nil_r|].
  cbn in N. pose proof (NoDup_remove_2 _ _ _ N) as N2.
  rewrite put_new by (intros I; apply N2, in_or_app; auto).
  rewrite IH; [now rewrite <- app_assoc|]. rewrite map_app, <- app_assoc. exact N.
Qed.

Lemma assoc_in {A} (d : list (str * A)) k v : NoDup (map fst d) -> In (k, v) d -> assoc d k = Some v.
Proof.
  induction d as [|[k' v'] d IH]; cbn; [intros _ []|]. intros N [E|I].
  - injection E as -> ->. now rewrite (proj2 (HttpProofs.str_eqb_eq k k) eq_refl).
  - inversion N as [|? ? N1 N2]; subst. destruct (str_eqb k' k) eqn:E; [|auto].
    apply HttpProofs.str_eqb_eq in E. subst. destruct N1. apply in_map_iff. now exists (k, v).
Qed.

Lemma assoc_none {A} (d : list (str * A)) k : assoc d k = None <-> ~ In k (map fst d).
Proof.
  induction d as [|[k' v'] d IH]; cbn; [tauto|]. destruct (str_eqb k' k) eqn:E.
  - apply HttpProofs.str_eqb_eq in E. subst. split; [discriminate|tauto].
  - rewrite IH. split; [|tauto]. intros N [X|X]; [|auto]. subst.
    rewrite (proj2 (HttpProofs.str_eqb_eq k k) eq_refl) in E. discriminate.
Qed.

Lemma assoc_some {A} (d : list (str * A)) k v : assoc d k = Some v -> In (k, v) d.
Proof.
  induction d as [|[k' v'] d IH]; cbn; [discriminate|]. destruct (str_eqb k' k) eqn:E; [|auto].
  apply HttpProofs.str_eqb_eq in E. subst. intros [= <-]. auto.
Qed.

(* ---- names ---- *)

Lemma after_spec p : forall s r, after p s = Some r <-> s = p ++ r.
Proof.
  induction p as [|c p IH]; intros s r; cbn; [split; [intros [= ->]; auto|intros ->; auto]|].
  destruct s as [|x s]; [split; discriminate|]. destruct (Ascii.eqb c x) eqn:E.
  - apply Ascii.eqb_eq in E. subst. rewrite IH. split; [intros ->; auto|intros [= ->]; auto].
  - apply Ascii.eqb_neq in E. split; [discriminate|intros [= -> _]; tauto].
Qed.

Lemma shown_spec o name : shown o name <-> name = shown_name o.
Proof.
  unfold shown_name. destruct (after KEYWORD_PREFIX o) as [r|] eqn:E.
  - apply after_spec in E. subst. split.
    + inversion 1 as [? P|]; subst; auto. exfalso. eapply P. reflexivity.
    + intros ->. apply s_keyword.
  - split; [inversion 1; subst; auto|].
    + exfalso. match goal with H : after _ _ = None |- _ => rename H into E0 end.
      assert (X : after KEYWORD_PREFIX (lit "keyword__" ++ name) = Some name) by (apply after_spec; reflexivity). congruence.
    + intros ->. apply s_plain. intros r X.
      assert (Y : after KEYWORD_PREFIX o = Some r) by (apply after_spec; exact X). congruence.
Qed.

Lemma shown_inj a b : attribute a -> attribute b -> shown_name a = shown_name b -> a = b.
Proof.
  intros (_ & A2 & A3) (_ & B2 & B3). unfold shown_name.
  destruct (after KEYWORD_PREFIX a) as [r|] eqn:E, (after KEYWORD_PREFIX b) as [q|] eqn:F; auto.
  - apply after_spec in E, F. intros ->. congruence.
  - apply after_spec in E. intros ->. destruct B2. apply A3. exact E.
  - apply after_spec in F. intros ->. destruct A2. apply B3. exact F.
Qed.

Lemma shown_nodup l : NoDup l -> Forall attribute l -> NoDup (map shown_name l).
Proof.
  induction l as [|a l IH]; intros N F; cbn; [constructor|].
  inversion N as [|? ? N1 N2]; subst. inversion F as [|? ? F1 F2]; subst. constructor; auto.
  intros I. apply in_map_iff in I as (b & E & I). rewrite Forall_forall in F2.
  apply shown_inj in E; auto. congruence.
Qed.

Lemma keywords_lower r : In r (map lit reserved) -> map lower r = r.
Proof. cbn. intros H. repeat (destruct H as [<-|H]; [reflexivity|]). destruct H. Qed.

Lemma shown_option o name : attribute o -> shown o name -> option_name name o.
Proof.
  intros (A1 & A2 & A3) S. inversion S as [? P|? E]; subst.
  - apply plain_name; auto. 
  - assert (K : In name (map lit reserved)) by (apply A3; auto).
    pose proof (keyword_name name (map lower name) eq_refl) as X. rewrite (keywords_lower _ K) in X. auto.
Qed.

Lemma shown_mapping o : attribute o -> keyword_mapping (shown_name o) = o.
Proof. intros A. apply mapping_spec. apply shown_option; auto. now apply shown_spec. Qed.

Lemma shown_lower o : attribute o -> map lower (shown_name o) = shown_name o.
Proof.
  intros (A1 & A2 & A3). unfold shown_name. destruct (after KEYWORD_PREFIX o) as [r|] eqn:E; auto.
  apply after_spec in E. apply keywords_lower. auto.
Qed.

(* ---- to_dict ---- *)

Lemma obj_to_dict_map obj : NoDup (map fst obj) -> Forall attribute (map fst obj) ->
  obj_to_dict obj = map (fun p => (shown_name (fst p), snd p)) obj.
Proof.
  intros N F. unfold obj_to_dict. rewrite (fold_put (fun p : str * cval => shown_name (fst p)) snd); auto.
  cbn. rewrite <- map_map. apply shown_nodup; auto.
Qed.

Lemma to_dict_map cfg : proper cfg ->
  to_dict cfg = map (fun p => (fst p, map (fun q => (shown_name (fst q), snd q)) (snd p))) cfg.
Proof.
  intros (N & _ & P). unfold to_dict.
  rewrite (fold_put (fun p : str * list (str * cval) => fst p) (fun p => obj_to_dict (snd p))); auto.
  cbn [app]. apply map_ext_in. intros [sec opts] I. cbn [fst snd]. destruct (P _ _ I) as [P1 P2].
  now rewrite obj_to_dict_map.
Qed.

(* ---- texts ---- *)

Lemma points_chars s : points s = chars s.
Proof. apply map_ext. intros c. unfold nat_of_ascii. now rewrite N_nat_Z. Qed.

Lemma points_inj a b : points a = points b -> a = b.
Proof.
  revert b. induction a as [|x a IH]; intros [|y b] E; cbn in E; try discriminate; auto.
  injection E as E1 E2. f_equal; auto.
  apply N2Z.inj in E1. rewrite <- (ascii_N_embedding x), <- (ascii_N_embedding y). now rewrite E1.
Qed.

Lemma points_nodup l : NoDup l -> NoDup (map points l).
Proof. intros N. apply FinFun.Injective_map_NoDup; auto. intros a b. apply points_inj. Qed.

Lemma points_ok s : JsonSpec.code_points (points s) /\ JsonSpec.unpaired (points s).
Proof.
  assert (U : JsonSpec.unicode (points s)).
  { assert (B : forall c, In c (points s) -> 0 <= c < 256).
    { intros c I. apply in_map_iff in I as (x & <- & _). pose proof (N_ascii_bounded x). lia. }
    split; apply Forall_forall; intros c I; specialize (B c I); lia. }
  split; [apply U|]. now apply JsonTheorems.unicode_unpaired.
Qed.

Section Show.
Variable float_of : str -> bool * Z * list Z * option Z.
Hypothesis FIN : finite float_of.

Lemma value_writable v : JsonSpec.writable (json_value float_of v).
Proof.
  destruct v as [s|n|s|b]; cbn; try constructor; try apply points_ok.
  destruct (float_of s) as [[[neg n] fr] e] eqn:E. apply FIN in E as (A & B & C). now constructor.
Qed.

Lemma value_read v x : x = json_value float_of v <-> read_as float_of v x.
Proof.
  destruct v as [s|n|s|b]; cbn [json_value].
  - rewrite points_chars. split; [intros ->; reflexivity|]. destruct x; cbn; intros R; try contradiction; subst; auto.
  - split; [intros ->; reflexivity|]. destruct x; cbn; intros R; try contradiction; subst; auto.
  - destruct (float_of s) as [[[neg n] fr] e] eqn:E. split; [intros ->; cbn; auto|].
    destruct x; cbn; intros R; try contradiction. rewrite E in R. injection R as -> -> -> ->. auto.
  - split; [intros ->; reflexivity|]. destruct x; cbn; intros R; try contradiction; subst; auto.
Qed.

Lemma dict_writable d : NoDup (map fst d) -> JsonSpec.writable (json_dict float_of d).
Proof.
  intros N. constructor.
  - apply Forall_forall. intros p I. apply in_map_iff in I as (q & <- & _). apply points_ok.
  - apply Forall_forall. intros p I. apply in_map_iff in I as (q & <- & _). apply value_writable.
  - rewrite map_map. cbn [fst]. rewrite <- (map_map fst points). now apply points_nodup.
Qed.

Lemma config_writable d : NoDup (map fst d) -> (forall sec o, In (sec, o) d -> NoDup (map fst o)) ->
  JsonSpec.writable (json_config float_of d).
Proof.
  intros N P. constructor.
  - apply Forall_forall. intros p I. apply in_map_iff in I as (q & <- & _). apply points_ok.
  - apply Forall_forall. intros p I. apply in_map_iff in I as ((sec, o) & <- & I). cbn. eapply dict_writable, P; eauto.
  - rewrite map_map. cbn [fst]. rewrite <- (map_map fst points). now apply points_nodup.
Qed.

End Show.

(* ---- texts of values ---- *)

Lemma py_str_text v : text_of v (py_str v).
Proof.
  destruct v as [s|n|s|[]]; cbn [py_str]; [apply x_str| |apply x_float|apply x_true|apply x_false].
  destruct (Z_lt_le_dec n 0) as [L|L].
  - destruct (HttpBackendProofs.show_neg n L) as (ds & D & ->).
    rewrite <- (Z.opp_involutive n). apply (x_neg ds (- n)); auto. lia.
  - constructor. apply HttpBackendProofs.show_decimal. auto.
Qed.

Lemma rdigits_length fuel : forall n k, 0 <= n < 10 ^ Z.of_nat (S k) ->
  (List.length (HttpBackendModel.rdigits fuel n) <= S k)%nat.
Proof.
  induction fuel as [|fuel IH]; intros n k H; cbn [HttpBackendModel.rdigits]; [cbn; lia|].
  destruct (Z.ltb_spec n 10); cbn [List.length]; [lia|].
  destruct k as [|k]; [cbn in H; lia|].
  assert (X : (List.length (HttpBackendModel.rdigits fuel (n / 10)) <= S k)%nat); [|lia].
  apply IH. split; [apply Z.div_pos; lia|]. apply Z.div_lt_upper_bound; [lia|].
  rewrite Nat2Z.inj_succ, Z.pow_succ_r in H by lia. lia.
Qed.

Lemma py_int_signed lim s n : decimal s n -> digits_fit lim s -> py_int lim (lit "-" ++ s) = inl (- n).
Proof.
  intros D L. pose proof (proj1 (HeaderProofs.decimal_spec s n) D) as (N & G & V).
  unfold py_int.
  assert (S : strip (lit "-" ++ s) = lit "-" ++ s).
  { unfold strip. change (lstrip (lit "-" ++ s)) with (lit "-" ++ s).
    assert (X : lstrip (rev (lit "-" ++ s)) = rev (lit "-" ++ s)).
    { change (rev (lit "-" ++ s)) with (rev s ++ ["-"%char]).
      destruct (rev s) as [|c r] eqn:E; [reflexivity|].
      assert (Dc : is_digit c = true).
      { unfold HeaderProofs.digits in G. rewrite Forall_forall in G. apply G. apply in_rev. rewrite E. left; auto. }
      cbn. rewrite HeaderProofs.digit_not_space; auto. }
    rewrite X. apply rev_involutive. }
  rewrite S. change (lit "-" ++ s) with ("-"%char :: s). cbn [Ascii.eqb Bool.eqb]. rewrite HeaderProofs.int_digits_all; auto.
  assert (I : int_of_digits lim s = inl n).
  { destruct lim as [m|]; [rewrite HeaderProofs.int_of_digits_lim by exact L|];
      rewrite HeaderProofs.int_of_digits_none; congruence. }
  rewrite I. cbn. f_equal.
Qed.

Lemma py_int_show lim n : (forall m, lim = Some m -> 0 < m /\ Z.abs n < 10 ^ m) ->
  py_int lim (HttpBackendModel.show n) = inl n.
Proof.
  intros F.
  assert (G : forall p, 0 <= p -> p = Z.abs n ->
    let ds := rev (HttpBackendModel.rdigits (S (Z.to_nat (Z.log2 p))) p) in decimal ds p /\ digits_fit lim ds).
  { intros p P E ds. split; [apply HttpBackendProofs.nat_decimal; auto|].
    unfold digits_fit. destruct lim as [m|]; auto. destruct (F m eq_refl) as [M A]. subst ds. rewrite rev_length.
    rewrite <- (Z2Nat.id m) in * by lia. destruct (Z.to_nat m) as [|k]; [cbn in M; lia|].
    apply inj_le. apply rdigits_length. lia. }
  unfold HttpBackendModel.show. destruct (Z.ltb_spec n 0).
  - destruct (G (- n) ltac:(lia) ltac:(lia)) as [D L].
    pose proof (py_int_signed lim _ _ D L) as X. rewrite Z.opp_involutive in X. exact X.
  - destruct (G n ltac:(lia) ltac:(lia)) as [D L]. apply (py_int_decimal lim _ _ D L).
Qed.

(* ---- reading the file back ---- *)

Definition kind (a b : cval) : Prop :=
  match a, b with
  | CStr _, CStr _ | CInt _, CInt _ | CFloat _, CFloat _ | CBool _, CBool _ => True
  | _, _ => False
  end.

Lemma validate_back lim floats d v : kind d v ->
  (forall m n, lim = Some m -> v = CInt n -> 0 < m /\ Z.abs n < 10 ^ m) ->
  (forall s, v = CFloat s -> floats s = true) ->
  validate lim floats d (py_str v) = Some v.
Proof.
  intros K I F. destruct d, v; cbn in K; try contradiction; cbn [validate py_str]; auto.
  - rewrite py_int_show; auto.
  - rewrite (F _ eq_refl). auto.
  - match goal with b : bool |- _ => destruct b; reflexivity end.
Qed.

Definition file_of (cfg : config) : cfile :=
  map (fun p => (fst p, map (fun q => (shown_name (fst q), py_str (snd q))) (snd p))) cfg.

Lemma as_file_map cfg : proper cfg -> as_file cfg = file_of cfg.
Proof.
  intros P. unfold as_file. rewrite to_dict_map by exact P. rewrite map_map. apply map_ext. intros [sec opts].
  cbn [fst snd]. rewrite map_map. reflexivity.
Qed.

Lemma mapped_names opts : Forall attribute (map fst opts) ->
  map (fun q : str * cval => (keyword_mapping (shown_name (fst q)), py_str (snd q))) opts =
  map (fun q => (fst q, py_str (snd q))) opts.
Proof.
  intros F. apply map_ext_in. intros [o v] I. cbn [fst snd]. rewrite shown_mapping; auto.
  rewrite Forall_forall in F. apply F. apply in_map_iff. now exists (o, v).
Qed.

Lemma put_options_map opts : NoDup (map fst opts) -> Forall attribute (map fst opts) ->
  put_options [] (map (fun q => (shown_name (fst q), py_str (snd q))) opts) = map (fun q => (fst q, py_str (snd q))) opts.
Proof.
  intros N F. unfold put_options.
  rewrite (fold_put (fun p : str * str => keyword_mapping (fst p)) snd).
  - cbn [app]. rewrite map_map. cbn [fst snd]. apply mapped_names. auto.
  - cbn [app map]. rewrite map_map. cbn [fst snd].
    assert (E : map (fun q : str * cval => keyword_mapping (shown_name (fst q))) opts = map fst opts).
    { apply map_ext_in. intros [o v] I. cbn [fst]. apply shown_mapping. rewrite Forall_forall in F.
      apply F. apply in_map_iff. now exists (o, v). }
    rewrite E. auto.
Qed.

Lemma read_file_map cfg : proper cfg ->
  read_file [] (file_of cfg) = map (fun p => (fst p, map (fun q => (fst q, py_str (snd q))) (snd p))) cfg.
Proof.
  intros (N & _ & P). unfold read_file, file_of.
  assert (G : forall l st, (forall sec opts, In (sec, opts) l -> NoDup (map fst opts) /\ Forall attribute (map fst opts)) ->
    NoDup (map fst st ++ map fst l) ->
    fold_left (fun st p => put st (fst p) (put_options (match assoc st (fst p) with Some o => o | None => [] end) (snd p)))
      (map (fun p => (fst p, map (fun q => (shown_name (fst q), py_str (snd q))) (snd p))) l) st =
    st ++ map (fun p => (fst p, map (fun q => (fst q, py_str (snd q))) (snd p))) l).
  { induction l as [|[sec opts] l IH]; intros st Q M; cbn [map fold_left fst snd]; [now rewrite app_nil_r|].
    cbn [map fst] in M. pose proof (NoDup_remove_2 _ _ _ M) as M2.
    assert (A : ~ In sec (map fst st)) by (intros I; apply M2, in_or_app; auto).
    rewrite (proj2 (assoc_none st sec) A). destruct (Q sec opts ltac:(left; auto)) as [Q1 Q2].
    rewrite put_options_map by assumption. rewrite put_new by exact A.
    rewrite IH; [rewrite <- app_assoc; reflexivity| |].
    - intros s o I. apply (Q s o). right; auto.
    - rewrite map_app, <- app_assoc. exact M. }
  rewrite G; auto.
Qed.

Lemma valid_back cfg : proper cfg -> valid_file (file_of cfg) = true.
Proof.
  intros (N & D & P). unfold valid_file.
  assert (M : map fst (file_of cfg) = map fst cfg) by (unfold file_of; rewrite map_map; reflexivity).
  rewrite !andb_true_iff, !nodup_NoDup, forallb_forall. split; [split|].
  - rewrite M. apply NoDup_filter. auto.
  - assert (E : filter (fun p : str * list (str * str) => str_eqb (fst p) DEFAULT) (file_of cfg) = []).
    { assert (Q : forall p, In p (file_of cfg) -> str_eqb (fst p) DEFAULT = false).
      { intros p I. apply str_eqb_neq. intros E. apply D. rewrite <- M. apply in_map_iff. exists p. split; auto. }
      revert Q. generalize (file_of cfg). intros l. induction l as [|p l IH]; intros Q; [reflexivity|].
      cbn [filter]. rewrite (Q p (or_introl eq_refl)). apply IH. intros q I. apply Q. right; auto. }
    rewrite E. constructor.
  - intros [sec opts] I. unfold file_of in I. apply in_map_iff in I as ((sec', opts') & E & I).
    cbn [fst snd] in E. injection E as <- <-. cbn [fst snd]. destruct (P _ _ I) as [P1 P2].
    apply nodup_NoDup. rewrite !map_map. cbn [fst].
    assert (E : map (fun q : str * cval => keyword_mapping (shown_name (fst q))) opts' = map fst opts').
    { apply map_ext_in. intros [o v] J. cbn [fst]. apply shown_mapping. rewrite Forall_forall in P2.
      apply P2. apply in_map_iff. now exists (o, v). }
    rewrite E. auto.
Qed.

Lemma get_back cfg sec opts o v : proper cfg -> In (sec, opts) cfg -> In (o, v) opts ->
  parser_get (read_file [] (file_of cfg)) sec o = Got (py_str v).
Proof.
  intros Pr I J. pose proof Pr as (N & _ & P). destruct (P _ _ I) as [P1 P2].
  rewrite read_file_map by exact Pr. unfold parser_get.
  rewrite (assoc_in _ sec (map (fun q => (fst q, py_str (snd q))) opts)).
  - assert (A : attribute o).
    { rewrite Forall_forall in P2. apply P2. apply in_map_iff. now exists (o, v). }
    assert (K : keyword_mapping o = o).
    { apply mapping_spec. apply plain_name; [symmetry; apply A|apply A]. }
    rewrite K. rewrite (assoc_in _ o (py_str v)); auto.
    + rewrite map_map. cbn [fst]. auto.
    + apply in_map_iff. now exists (o, v).
  - rewrite map_map. cbn [fst]. auto.
  - apply in_map_iff. exists (sec, opts). auto.
Qed.

Definition like (d c : config) : Prop :=
  Forall2 (fun p q => fst p = fst q /\
    Forall2 (fun a b : str * cval => fst a = fst b /\ kind (snd a) (snd b)) (snd p) (snd q)) d c.

Lemma load_back lim floats d cfg : proper cfg -> like d cfg -> ints_fit lim cfg -> floats_fit floats cfg ->
  load lim floats d [as_file cfg] = Some cfg.
Proof.
  intros P L I F. unfold load. rewrite as_file_map by exact P. cbn [forallb fold_left].
  rewrite valid_back by exact P. cbn [andb].
  assert (G : forall d c, like d c -> incl c cfg -> load_sections lim floats (read_file [] (file_of cfg)) d = Some c).
  { intros d' c H. induction H as [|[s o] [s' o'] d' c [E1 E2] H IH]; intros S; [reflexivity|].
    cbn [fst snd] in *. subst s'. cbn [load_sections].
    assert (J : In (s, o') cfg) by (apply S; left; auto).
    assert (O : forall a b, Forall2 (fun a b : str * cval => fst a = fst b /\ kind (snd a) (snd b)) a b -> incl b o' ->
      load_options lim floats (read_file [] (file_of cfg)) s a = Some b).
    { intros a b X. induction X as [|[x dv] [x' v] a b [X1 X2] X IHX]; intros T; [reflexivity|].
      cbn [fst snd] in *. subst x'. cbn [load_options].
      assert (T1 : In (x, v) o') by (apply T; left; auto).
      rewrite (get_back cfg s o' x v) by auto.
      rewrite validate_back.
      - rewrite IHX; auto. intros y Y. apply T. right; auto.
      - exact X2.
      - intros m n A B. subst v. eapply I; eauto.
      - intros t B. subst v. eapply F; eauto. }
    rewrite (O o o' E2) by apply incl_refl. rewrite IH; auto. intros y Y. apply S. right; auto. }
  apply G; auto. apply incl_refl.
Qed.

(* What load makes is like the defaults. *)
Lemma load_like lim floats d files cfg : canonical d -> load lim floats d files = Some cfg -> like d cfg.
Proof.
  intros K H. pose proof (config_values lim floats d files cfg K H) as V. clear K H. unfold like.
  induction V as [|p q d c [A B] V IH]; constructor; auto.
  split; auto. clear - B. induction B as [|a b l l' X B IHB]; constructor; auto.
  inversion X as [? ? ? ? T Y|o d]; subst; cbn [fst snd]; split; auto.
  - inversion Y; subst; exact Logic.I.
  - destruct d; exact Logic.I.
Qed.

Lemma proper_canonical cfg : proper cfg -> canonical cfg.
Proof.
  intros (_ & _ & P) sec opts o v I J. destruct (P _ _ I) as [_ P2]. rewrite Forall_forall in P2.
  assert (A : attribute o) by (apply P2, in_map_iff; now exists (o, v)).
  apply mapping_spec. apply plain_name; [symmetry; apply A|apply A].
Qed.

Lemma like_names d c : like d c -> map fst c = map fst d.
Proof. induction 1 as [|p q d c [A _] H IH]; cbn; congruence. Qed.

Lemma like_in d c : like d c -> forall sec o', In (sec, o') c -> exists o, In (sec, o) d /\ map fst o' = map fst o.
Proof.
  induction 1 as [|[s o] [s' o1] d c [A B] H IH]; intros sec o' I; [destruct I|]. cbn [fst snd] in *. subst s'.
  destruct I as [E|I].
  - injection E as <- <-. exists o. split; [left; auto|].
    clear - B. induction B as [|a b l l' [X _] B IHB]; cbn; congruence.
  - destruct (IH _ _ I) as (x & X & Y). exists x. split; [right; auto|auto].
Qed.

Lemma like_proper d c : like d c -> proper d -> proper c.
Proof.
  intros L (N & D & P). unfold proper. rewrite (like_names d c L). split; [exact N|]. split; [exact D|].
  intros sec o' I. destruct (like_in d c L _ _ I) as (o & J & ->). eapply P; eauto.
Qed.

Lemma load_floats lim floats d files cfg : canonical d -> floats_fit floats d ->
  load lim floats d files = Some cfg -> floats_fit floats cfg.
Proof.
  intros K F H. pose proof (config_values lim floats d files cfg K H) as V. clear H K. unfold floats_fit in *.
  induction V as [|[s o] [s' o'] d c [A B] V IH]; intros sec opts x t I J; [destruct I|]. cbn [fst snd] in *. subst s'.
  destruct I as [E|I].
  - injection E as <- <-.
    assert (G : forall y u, In (y, CFloat u) o -> floats u = true) by (intros y u Y; eapply F; [left; reflexivity|exact Y]).
    clear - B J G. induction B as [|a b l l' X B IHB]; [destruct J|]. destruct J as [E|J].
    + subst b. inversion X as [? ? ? ? T Y|]; subst.
      * inversion Y; subst; auto.
      * eapply G. left. reflexivity.
    + apply IHB; auto. intros y u Y. eapply G. right. exact Y.
  - eapply IH; eauto. intros s2 o2 x2 t2 I2 J2. eapply F; [right; exact I2|exact J2].
Qed.

(* ---- the parser of the logging module ---- *)

Lemma read_options_map l : forall opts, NoDup (map fst opts ++ map (fun p : str * cval => map lower (fst p)) l) ->
  read_options opts l = Some (opts ++ map (fun p => (map lower (fst p), py_str (snd p))) l).
Proof.
  induction l as [|[k v] l IH]; intros opts N; cbn [read_options map fst snd]; [now rewrite app_nil_r|].
  cbn [map fst] in N. pose proof (NoDup_remove_2 _ _ _ N) as N2.
  assert (A : ~ In (map lower k) (map fst opts)) by (intros I; apply N2, in_or_app; auto).
  rewrite (proj2 (assoc_none opts _) A). rewrite put_new by exact A. rewrite IH.
  - rewrite <- app_assoc. reflexivity.
  - rewrite map_app, <- app_assoc. exact N.
Qed.

Lemma read_dict_map l : forall st, NoDup (map fst st ++ map fst l) ->
  (forall sec opts, In (sec, opts) l -> NoDup (map (fun p : str * cval => map lower (fst p)) opts)) ->
  read_dict st l = Some (st ++ map (fun p => (fst p, map (fun q => (map lower (fst q), py_str (snd q))) (snd p))) l).
Proof.
  induction l as [|[s o] l IH]; intros st N P; cbn [read_dict map fst snd]; [now rewrite app_nil_r|].
  cbn [map fst] in N. pose proof (NoDup_remove_2 _ _ _ N) as N2.
  assert (A : ~ In s (map fst st)) by (intros I; apply N2, in_or_app; auto).
  rewrite (proj2 (assoc_none st _) A). rewrite read_options_map by (cbn [map app]; apply (P s o); left; auto).
  rewrite put_new by exact A. rewrite IH.
  - rewrite <- app_assoc. reflexivity.
  - rewrite map_app, <- app_assoc. exact N.
  - intros x y I. apply (P x y). right; auto.
Qed.

Lemma logger_parser_map cfg : proper cfg -> logger_parser cfg = Some (file_of cfg).
Proof.
  intros Pr. pose proof Pr as (N & _ & P). unfold logger_parser. rewrite to_dict_map by exact Pr.
  assert (Low : forall opts, Forall attribute (map fst opts) ->
    map (fun q : str * cval => map lower (shown_name (fst q))) opts = map (fun q => shown_name (fst q)) opts).
  { intros opts F. apply map_ext_in. intros [o v] I. cbn [fst]. apply shown_lower. rewrite Forall_forall in F.
    apply F. apply in_map_iff. now exists (o, v). }
  rewrite read_dict_map.
  - cbn [app]. f_equal. unfold file_of. rewrite map_map. apply map_ext_in. intros [sec opts] I. cbn [fst snd].
    f_equal. rewrite map_map. apply map_ext_in. intros [o v] J. cbn [fst snd]. f_equal.
    destruct (P _ _ I) as [_ P2]. apply shown_lower. rewrite Forall_forall in P2.
    apply P2. apply in_map_iff. now exists (o, v).
  - cbn [map app]. rewrite map_map. cbn [fst]. auto.
  - intros sec opts I. apply in_map_iff in I as ((s', o') & E & I). cbn [fst snd] in E. injection E as <- <-.
    destruct (P _ _ I) as [P1 P2]. rewrite map_map. cbn [fst]. rewrite Low by exact P2.
    rewrite <- (map_map fst shown_name). apply shown_nodup; auto.
Qed.

(* ---- json.dumps with an indent ---- *)

Import JsonModel JsonSpec JsonProofs.

Lemma newline_white n : white (newline n).
Proof.
  unfold white, newline. constructor; [auto|]. apply Forall_forall. intros c I. apply repeat_spec in I. auto.
Qed.

Lemma lines_items level f l : l <> [] -> Forall (fun v => jval v (f v)) l ->
  forall w w', white w -> white w' -> jitems l (w ++ join_lines level (map f l) ++ w').
Proof.
  intros N F. induction F as [|v l V F IH]; [congruence|]. intros w w' W W'.
  destruct l as [|v' l].
  - apply i_last; auto.
  - change (join_lines level (map f (v :: v' :: l)))
      with (f v ++ 44 :: newline level ++ join_lines level (map f (v' :: l))).
    rewrite <- app_assoc. cbn [app]. rewrite <- app_assoc.
    apply (i_more v (v' :: l) w (f v) []); auto; [apply white_nil|].
    apply IH; auto; [discriminate|apply newline_white].
Qed.

Lemma lines_members level f d : d <> [] ->
  Forall (fun p => code_points (fst p) /\ unpaired (fst p)) d -> Forall (fun p => jval (snd p) (f (snd p))) d ->
  forall w w', white w -> white w' ->
  jmembers d (w ++ join_lines level (map (fun p => match p with (k, x) => quote k ++ 58 :: 32 :: f x end) d) ++ w').
Proof.
  intros N K F. induction F as [|(k, v) d V F IH]; [congruence|]. intros w w' W W'.
  inversion K as [|? ? K1 K2]; subst. destruct K1 as (K1 & K1'). cbn [fst snd] in *.
  pose proof (quote_chars k K1 K1') as Q.
  assert (T : forall z, (quote k ++ 58 :: 32 :: f v) ++ z = 34 :: flat_map escape k ++ 34 :: [] ++ 58 :: [32] ++ f v ++ z).
  { intros z. unfold quote. cbn [app]. rewrite <- !app_assoc. cbn [app]. reflexivity. }
  destruct d as [|p d].
  - cbn [map join_lines]. rewrite T.
    apply (m_last k v w _ [] [32] (f v) w'); auto; [apply white_nil|apply white_space].
  - cbn [map]. cbn [join_lines]. rewrite <- app_assoc. rewrite T. cbn [app]. rewrite <- app_assoc.
    apply (m_more k v (p :: d) w _ [] [32] (f v) []); auto; [apply white_nil|apply white_space|apply white_nil|].
    apply IH; auto; [discriminate|apply newline_white].
Qed.

Lemma pretty_jval v : writable v -> forall level, jval v (pretty level v).
Proof.
  induction v as [|b|n|neg n fr e|s|l IH|d IH] using value_rect'; intros W level;
    try (exact (dumps_jval _ W)).
  - destruct l as [|v l]; [exact (dumps_jval _ W)|]. cbn [pretty]. inversion W as [| | | | |? Ws|]; subst.
    assert (X : jitems (v :: l) (newline (S level) ++ join_lines (S level) (map (pretty (S level)) (v :: l)) ++ newline level)).
    { apply lines_items; auto using newline_white; [discriminate|]. rewrite Forall_forall in *. auto. }
    pose proof (j_list _ _ X) as Y. rewrite <- !app_assoc in Y. exact Y.
  - destruct d as [|p d]; [exact (dumps_jval _ W)|]. cbn [pretty]. inversion W as [| | | | | |? K Ws ND]; subst.
    assert (X : jmembers (p :: d) (newline (S level) ++ join_lines (S level)
        (map (fun p => match p with (k, x) => quote k ++ 58 :: 32 :: pretty (S level) x end) (p :: d)) ++ newline level)).
    { apply (lines_members (S level) (pretty (S level))); auto using newline_white; [discriminate|].
      rewrite Forall_forall in *. auto. }
    pose proof (j_object _ _ X ND) as Y. rewrite <- !app_assoc in Y. exact Y.
Qed.
