(* C44-C47: TLS versions, sizes, options and configuration files. *)
From Coq Require Import ZArith List Bool Ascii String Lia Permutation.
From Verif Require Import HeaderModel HeaderSpec HeaderProofs HttpModel HttpProofs
  ConfigModel ConfigSpec ConfigProofs.
Import ListNotations.
Open Scope Z_scope.

(* ---- C44: TLS ---- *)

(* With enable_tls1_1, connections below TLS 1.1 are refused.  Missing from
   C44: without it nothing below TLS 1.2 is taken, which does not hold. *)
Theorem tls_minimum_version_partial v :
  (allows (server_context true) v -> allows TLSv1_1 v) /\
  (allows (client_context true) v -> allows TLSv1_1 v).
Proof. unfold allows. cbn. auto. Qed.
Example tls_case : allows (server_context true) TLSv1_2 /\ ~ allows (server_context true) TLSv1.
Proof. unfold allows. cbn. lia. Qed.

(* In the default configuration, of a daemon with one empty file, TLS 1.0 and
   1.1 connections are taken. *)
Theorem tls_minimum_version_refuted :
  exists cfg enable,
    load_config None (fun _ => true) defaults [(lit "50-vdsm.conf", [])] [] = Some cfg /\
    (exists opts, In (lit "tls", opts) cfg /\ In (lit "enable_tls1_1", CBool enable) opts) /\
    enable = false /\
    allows (server_context enable) TLSv1 /\ allows (server_context enable) TLSv1_1 /\
    allows (client_context enable) TLSv1.
Proof.
  exists defaults, false. split; [vm_compute; reflexivity|].
  split; [eexists; split; [right; left; reflexivity|do 4 right; left; reflexivity]|].
  split; [reflexivity|]. unfold allows. cbn. lia.
Qed.

(* The option does the opposite of its name: whatever is taken when it is on is
   taken when it is off, and something is taken only when it is off. *)
Theorem enable_tls1_1_refuted :
  (forall v, allows (server_context true) v -> allows (server_context false) v) /\
  exists v, allows (server_context false) v /\ ~ allows (server_context true) v.
Proof.
  unfold allows. split.
  - intros v. cbn. lia.
  - exists TLSv1. cbn. lia.
Qed.

(* ---- C45: sizes ---- *)

Lemma not_unit c : is_digit c = true -> assoc SUFFIXES [lower c] = None.
Proof.
  intros H. destruct c as [[] [] [] [] [] [] [] []]; try discriminate H; reflexivity.
Qed.

Lemma unit_letter c w : assoc SUFFIXES [lower c] = Some w <-> unit_of [c] w.
Proof.
  split.
  - destruct c as [[] [] [] [] [] [] [] []]; cbn; intros [= <-];
      first [apply (u_kib "k"%char); auto; fail | apply (u_kib "K"%char); auto; fail
            | apply (u_mib "m"%char); auto; fail | apply (u_mib "M"%char); auto; fail
            | apply (u_gib "g"%char); auto; fail | apply (u_gib "G"%char); auto; fail
            | apply (u_tib "t"%char); auto; fail | apply (u_tib "T"%char); auto; fail].
  - inversion 1 as [|? [?|?]|? [?|?]|? [?|?]|? [?|?]]; subst; reflexivity.
Qed.

Lemma py_int_decimal lim s n : decimal s n -> digits_fit lim s -> py_int lim s = inl n.
Proof.
  intros H L.
  assert (X := content_length_decimal lim s n H).
  unfold content_length in X.
  destruct (py_int lim s) as [m|e].
  - destruct (m <? 0); [discriminate X; intros k ->; exact L|]. 
    assert (Y : @inl (option Z) hexc (Some m) = inl (Some n)) by (apply X; intros k ->; exact L). congruence.
  - discriminate X. intros k ->; exact L.
Qed.

Lemma last_app {A} (l : list A) x d : last (l ++ [x]) d = x.
Proof. induction l as [|y l IH]; cbn; auto. destruct (l ++ [x]) eqn:E; auto. destruct l; discriminate. Qed.

Lemma limits_spec minimum maximum n :
  (if n <? minimum then None
   else match maximum with Some m => if n >? m then None else Some n | None => Some n end) = Some n
  /\ within minimum maximum n
  \/
  (if n <? minimum then None
   else match maximum with Some m => if n >? m then None else Some n | None => Some n end) = None
  /\ ~ within minimum maximum n.
Proof.
  unfold within. destruct (Z.ltb_spec n minimum); [right; split; auto; lia|].
  destruct maximum as [m|]; [|left; split; auto; lia].
  rewrite Z.gtb_ltb. destruct (Z.ltb_spec m n); [right; split; auto; lia|left; split; auto; lia].
Qed.

(* A size is accepted exactly when it is within the limits, with the number it
   denotes. *)
Theorem size_accepted lim minimum maximum d u k w :
  decimal d k -> unit_of u w -> digits_fit lim d ->
  (within minimum maximum (k * w) -> size_call lim minimum maximum (d ++ u) = Some (k * w)) /\
  (~ within minimum maximum (k * w) -> size_call lim minimum maximum (d ++ u) = None).
Proof.
  intros D U L. pose proof (py_int_decimal lim d k D L) as P.
  assert (X : size_call lim minimum maximum (d ++ u)
    = if k * w <? minimum then None
      else match maximum with Some m => if k * w >? m then None else Some (k * w) | None => Some (k * w) end).
  { destruct u as [|c u].
    - assert (w = 1) by (inversion U; auto). subst w. rewrite app_nil_r, Z.mul_1_r.
      unfold size_call. destruct d as [|c0 d0] eqn:E.
      { apply decimal_spec in D as [D _]. congruence. }
      rewrite <- E in *. rewrite not_unit; [rewrite P; reflexivity|].
      apply decimal_spec in D as (_ & D & _).
      assert (I : In (last d c0) d).
      { destruct (exists_last (l := d)) as (l & x & ->); [rewrite E; discriminate|].
        rewrite last_app. apply in_app_iff; cbn; auto. }
      unfold digits in D. rewrite Forall_forall in D. apply D; auto.
    - assert (u = []) by (inversion U; auto). subst u. apply unit_letter in U.
      unfold size_call. destruct (d ++ [c]) as [|c0 r] eqn:E; [destruct d; discriminate|].
      rewrite <- E. rewrite last_app, removelast_last, U, P. reflexivity. }
  rewrite X. destruct (limits_spec minimum maximum (k * w)) as [[-> W]|[-> W]]; tauto.
Qed.
Example size_case :
  decimal (lit "64") 64 /\ unit_of (lit "K") 1024 /\
  within 65536 (Some (16 * 1024 ^ 2)) (64 * 1024) /\
  size_call (Some 4300) 65536 (Some (16 * 1024 ^ 2)) (lit "64K") = Some 65536 /\
  size_call (Some 4300) 65536 (Some (16 * 1024 ^ 2)) (lit "17m") = None.
Proof.
  split; [apply (dec_more (lit "6") 6 "4"%char 4); [constructor|]; split; [lia|reflexivity|lia|reflexivity]|].
  split; [apply u_kib; auto|]. split; [unfold within; lia|]. split; reflexivity.
Qed.

(* What is accepted: a text int() takes and a unit, within the limits. *)
Theorem size_meaning lim minimum maximum s n :
  size_call lim minimum maximum s = Some n <->
  within minimum maximum n /\
  exists t u k w, s = t ++ u /\ unit_of u w /\ py_int lim t = inl k /\ n = k * w /\
    (u = [] -> forall t' c w', s = t' ++ [c] -> ~ unit_of [c] w').
Proof.
  unfold size_call. destruct s as [|c0 r] eqn:E.
  { split; [discriminate|]. intros (_ & t & u & k & w & X & _ & P & _).
    destruct t; [discriminate P|discriminate X]. }
  rewrite <- E. assert (NE : s <> []) by (rewrite E; discriminate). clear E r.
  destruct (exists_last NE) as (t & c & E). rewrite E, last_app, removelast_last. 
  destruct (assoc SUFFIXES [lower c]) as [w|] eqn:A.
  - apply unit_letter in A. destruct (py_int lim t) as [k|e] eqn:P.
    + destruct (limits_spec minimum maximum (k * w)) as [[-> W]|[-> W]].
      * split.
        { intros [= <-]. split; auto. exists t, [c], k, w. do 4 (split; [auto|]). discriminate. }
        { intros (_ & t' & u & k' & w' & X & U & P' & -> & N).
          destruct u as [|c' u]; [exfalso; apply (N eq_refl t c w); auto|].
          assert (u = []) by (inversion U; auto). subst u.
          apply app_inj_tail in X as [<- <-]. apply unit_letter in U, A. congruence. }
      * split; [discriminate|]. intros (W' & t' & u & k' & w' & X & U & P' & -> & N).
        destruct u as [|c' u]; [exfalso; apply (N eq_refl t c w); auto|].
        assert (u = []) by (inversion U; auto). subst u.
        apply app_inj_tail in X as [<- <-]. apply unit_letter in U, A.
        replace k' with k in * by congruence. replace w' with w in * by congruence. tauto.
    + split; [discriminate|]. intros (W' & t' & u & k' & w' & X & U & P' & -> & N).
      destruct u as [|c' u]; [exfalso; apply (N eq_refl t c w); auto|].
      assert (u = []) by (inversion U; auto). subst u.
      apply app_inj_tail in X as [<- <-]. congruence.
  - assert (NU : forall w, ~ unit_of [c] w) by (intros w U; apply unit_letter in U; congruence).
    assert (K : forall t' u k' w', t ++ [c] = t' ++ u -> unit_of u w' -> py_int lim t' = inl k' ->
                py_int lim (t ++ [c]) = inl k' /\ w' = 1).
    { intros t' u k' w' X U P. destruct u as [|c' u].
      - rewrite app_nil_r in X. rewrite X. split; auto. inversion U; auto.
      - assert (u = []) by (inversion U; auto). subst u.
        apply app_inj_tail in X as [_ <-]. exfalso. eapply NU; eauto. }
    destruct (py_int lim (t ++ [c])) as [k|e] eqn:P.
    + destruct (limits_spec minimum maximum k) as [[-> W]|[-> W]].
      * split.
        { intros [= <-]. split; auto. exists (t ++ [c]), [], k, 1.
          split; [symmetry; apply app_nil_r|]. split; [constructor|]. split; [auto|]. split; [lia|].
          intros _ t' c' w' X. apply app_inj_tail in X as [_ <-]. auto. }
        { intros (_ & t' & u & k' & w' & X & U & P' & -> & N).
          destruct (K t' u k' w' X U P') as [Q ->]. f_equal. injection Q as ->. lia. }
      * split; [discriminate|]. intros (W' & t' & u & k' & w' & X & U & P' & -> & N).
        destruct (K t' u k' w' X U P') as [Q ->]. injection Q as ->. rewrite Z.mul_1_r in W'. tauto.
    + split; [discriminate|]. intros (W' & t' & u & k' & w' & X & U & P' & -> & N).
      destruct (K t' u k' w' X U P') as [Q ->]. discriminate.
Qed.
Example size_meaning_case : size_call None 0 None (lit "+5k") = Some 5120.
Proof. reflexivity. Qed.

Lemma plain_not_space c : plain c -> is_space c = false /\ c <> "_"%char /\ c <> "-"%char /\ c <> "+"%char.
Proof.
  intros H. split; [|repeat split; intros ->; unfold plain in H; cbn in H; lia].
  unfold plain in H. cbv zeta in H. unfold is_space.
  destruct (N.leb_spec (N_of_ascii c) 13), (N.eqb_spec (N_of_ascii c) 32),
    (N.eqb_spec (N_of_ascii c) 133), (N.eqb_spec (N_of_ascii c) 160); lia.
Qed.

Lemma int_digits_plain s ds : Forall plain s -> int_digits s = Some ds -> ds = s /\ digits s /\ s <> [].
Proof.
  intros F. revert ds. induction F as [|c s P F IH]; intros ds; [discriminate|].
  cbn [int_digits]. destruct (is_digit c) eqn:D; [|discriminate].
  destruct s as [|d s].
  - intros [= <-]. split; auto. split; [constructor; auto|discriminate].
  - inversion F; subst. destruct (plain_not_space d) as (_ & N & _); auto.
    destruct (Ascii.eqb_spec d "_"%char); [congruence|].
    destruct (int_digits (d :: s)) as [l|]; [|discriminate]. intros [= <-].
    destruct (IH l eq_refl) as (-> & D' & _). split; auto. split; [constructor; auto|discriminate].
Qed.

Lemma py_int_plain lim s n : Forall plain s -> py_int lim s = inl n -> decimal s n.
Proof.
  intros F. unfold py_int.
  assert (L : forall l, Forall plain l -> lstrip l = l).
  { intros l [|c r P _]; auto. cbn. destruct (plain_not_space c P) as [-> _]. auto. }
  unfold strip. rewrite (L s F), (L (rev s)), rev_involutive by (apply Forall_rev; auto).
  destruct s as [|c s]; [discriminate|]. inversion F; subst.
  destruct (plain_not_space c) as (_ & _ & N1 & N2); auto.
  destruct (Ascii.eqb_spec c "-"%char); [congruence|]. destruct (Ascii.eqb_spec c "+"%char); [congruence|].
  destruct (int_digits (c :: s)) as [ds|] eqn:I; [|discriminate].
  apply int_digits_plain in I as (-> & D & NE); auto.
  destruct (int_of_digits lim (c :: s)) as [m|] eqn:I; [|discriminate]. cbn [bind]. rewrite Z.mul_1_l. intros [= <-].
  apply decimal_spec. split; [auto|]. split; [auto|].
  unfold int_of_digits in I. destruct lim as [l|]; [destruct (l <? _); [discriminate|]|];
    injection I as <-; reflexivity.
Qed.

(* Of the texts of letters and digits, only sizes are accepted. *)
Theorem size_plain lim minimum maximum s n :
  Forall plain s -> size_call lim minimum maximum s = Some n ->
  denotes s n /\ within minimum maximum n.
Proof.
  intros F H. apply size_meaning in H as (W & t & u & k & w & -> & U & P & -> & _).
  split; auto. exists t, u, k, w. split; auto. split; auto.
  apply Forall_app in F as [F _]. eapply py_int_plain; eauto.
Qed.
Example size_plain_case : Forall plain (lit "3g") /\ size_call None 0 None (lit "3g") = Some (3 * 2 ^ 30) /\
  size_call None 0 None (lit "3x") = None /\ size_call None 0 None (lit "g") = None.
Proof. split; [repeat constructor; unfold plain; cbn; lia|]. repeat split. Qed.

(* Other texts are accepted: spaces, signs and underscores. *)
Theorem size_grammar_refuted : exists s n, size_call None 0 None s = Some n /\ ~ exists m, denotes s m.
Proof.
  exists (lit " 1_0 k"), 10240. split; [reflexivity|].
  intros (m & d & u & k & w & E & D & U & _).
  apply decimal_spec in D as (N & D & _). destruct d as [|c d]; [congruence|].
  injection E as <- _. inversion D; subst. discriminate.
Qed.

(* The text of a size is the largest unit not larger than the size, and the
   whole number of units, for sizes less than 1024 TiB. *)
Theorem size_text_partial n :
  0 <= n < 2 ^ 50 ->
  exists w, unit_of (snd (size_str n)) w /\ 0 <= fst (size_str n) < 1024 /\
    fst (size_str n) * w <= n < (fst (size_str n) + 1) * w /\
    (w = 1 \/ 1 <= fst (size_str n)).
Proof.
  intros H. change (2 ^ 50) with (1024 * 1024 * 1024 * 1024 * 1024) in H.
  unfold size_str, SUFFIXES. cbn [size_units]. unfold KiB.
  assert (D : forall a, 1024 * (a / 1024) <= a < 1024 * (a / 1024) + 1024).
  { intros a. pose proof (Z.div_mod a 1024). pose proof (Z.mod_pos_bound a 1024). lia. }
  pose proof (D n) as D1. set (n1 := n / 1024) in *. clearbody n1.
  pose proof (D n1) as D2. set (n2 := n1 / 1024) in *. clearbody n2.
  pose proof (D n2) as D3. set (n3 := n2 / 1024) in *. clearbody n3.
  pose proof (D n3) as D4. set (n4 := n3 / 1024) in *. clearbody n4.
  repeat match goal with
  | |- context [?a <? 1024] => destruct (Z.ltb_spec a 1024)
  end; cbn [fst snd].
  - exists 1. split; [constructor|]. lia.
  - exists 1024. split; [apply u_kib; auto|]. lia.
  - exists (1024 * 1024). split; [apply u_mib; auto|]. lia.
  - exists (1024 * 1024 * 1024). split; [apply u_gib; auto|]. lia.
  - exists (1024 * 1024 * 1024 * 1024). split; [apply u_tib; auto|]. lia.
  - exfalso. lia.
Qed.
Example size_text_case : size_str (16 * 1024 ^ 2) = (16, lit "m") /\ size_str 65536 = (64, lit "k").
Proof. split; reflexivity. Qed.

(* From 1024 TiB on the text is wrong by a factor of 1024. *)
Theorem size_text_large_wrong n :
  2 ^ 50 <= n -> snd (size_str n) = lit "t" /\ fst (size_str n) = n / 2 ^ 50 /\
  (fst (size_str n) + 1) * 2 ^ 40 <= n.
Proof.
  intros H. change (2 ^ 50) with (1024 * 1024 * 1024 * 1024 * 1024) in *.
  change (2 ^ 40) with (1024 * 1024 * 1024 * 1024).
  assert (E : n / (1024 * 1024 * 1024 * 1024 * 1024) = n / 1024 / 1024 / 1024 / 1024 / 1024).
  { rewrite !Z.div_div by (try discriminate; reflexivity). reflexivity. }
  rewrite E. unfold size_str, SUFFIXES. cbn [size_units]. unfold KiB.
  assert (D : forall a, 1024 * (a / 1024) <= a < 1024 * (a / 1024) + 1024).
  { intros a. pose proof (Z.div_mod a 1024). pose proof (Z.mod_pos_bound a 1024). lia. }
  clear E.
  pose proof (D n) as D1. set (n1 := n / 1024) in *. clearbody n1.
  pose proof (D n1) as D2. set (n2 := n1 / 1024) in *. clearbody n2.
  pose proof (D n2) as D3. set (n3 := n2 / 1024) in *. clearbody n3.
  pose proof (D n3) as D4. set (n4 := n3 / 1024) in *. clearbody n4.
  pose proof (D n4) as D5. set (n5 := n4 / 1024) in *. clearbody n5.
  rewrite !(proj2 (Z.ltb_ge _ _)) by lia. cbn [fst snd].
  split; [reflexivity|]. split; [reflexivity|]. lia.
Qed.
Example size_text_large_case : size_str (2 ^ 50) = (1, lit "t").
Proof. reflexivity. Qed.
Theorem size_text_refuted :
  exists n w, 0 <= n /\ unit_of (snd (size_str n)) w /\
    ~ (fst (size_str n) * w <= n < (fst (size_str n) + 1) * w).
Proof.
  exists (2 ^ 50), (2 ^ 40). split; [lia|]. split; [apply u_tib; auto|].
  destruct (size_text_large_wrong (2 ^ 50)) as (_ & _ & H); lia.
Qed.

(* ---- C46: options ---- *)

Lemma options_nodup lim : NoDup (map o_name (OPTIONS lim)).
Proof. cbn. repeat constructor; cbn; intuition discriminate. Qed.

Lemma missing_in opts ns m : In m (missing opts ns) ->
  exists o, In o opts /\ o_required o = true /\ ns (o_name o) = None.
Proof.
  unfold missing. intros I. apply in_map_iff in I as (o & _ & I). apply filter_In in I as [I R].
  apply andb_true_iff in R as [R N]. exists o. split; [auto|]. split; [auto|].
  destruct (ns (o_name o)); [discriminate|auto].
Qed.

Opaque set_defaults missing merge_config parsed OPTIONS.
Section Options.
Variable lim : option Z.
Let opts := OPTIONS lim.

Transparent OPTIONS.
Lemma config_arg cmd : parsed opts cmd "config"%string = cmd "config"%string.
Proof.
  assert (I : In (Opt "config" true false false text None) opts) by (cbn; auto).
  exact (parsed_spec opts cmd _ (options_nodup lim) I).
Qed.
Opaque OPTIONS.

Lemma parse_none cmd :
  match parsed opts cmd "config"%string with Some (VStr (_ :: _)) => False | _ => True end ->
  forall name, ~ chosen cmd name.
Proof.
  rewrite config_arg. intros H name [N E]. rewrite E in H.
  destruct (lit name) as [|c r] eqn:L; auto. apply N. rewrite <- (string_lit name), L. auto.
Qed.

Lemma chosen_unique cmd a b : chosen cmd a -> chosen cmd b -> a = b.
Proof.
  intros [_ A] [_ B]. rewrite A in B. injection B as B.
  rewrite <- (string_lit a), <- (string_lit b). unfold lit in *. congruence.
Qed.

Lemma merged_value cmd sec o ns :
  In o opts ->
  ns (o_name o) = match with_file sec o (parsed opts cmd (o_name o)) with
                  | Some v => Some v | None => o_default o end ->
  bad sec o (parsed opts cmd (o_name o)) = false ->
  value_of cmd (Some sec) o (ns (o_name o)).
Proof.
  intros I E B. rewrite (parsed_spec opts cmd o (options_nodup lim) I) in *. rewrite E. clear E.
  unfold with_file, bad in *.
  destruct (o_args o) eqn:A; [destruct (cmd (o_name o)) as [v|] eqn:C|].
  - apply from_cmd; auto.
  - destruct (o_config o) eqn:CF; cbn [andb] in B.
    + destruct (sec (o_name o)) as [raw|] eqn:S.
      * destruct (o_type o raw) as [v|] eqn:T; [|discriminate]. eapply from_config; eauto.
      * apply from_default; auto. intros se [= <-]; auto.
    + apply from_default; auto. congruence.
  - destruct (o_config o) eqn:CF; cbn [andb] in B.
    + destruct (sec (o_name o)) as [raw|] eqn:S.
      * destruct (o_type o raw) as [v|] eqn:T; [|discriminate]. eapply from_config; eauto. congruence.
      * apply from_default; [congruence|]. intros se [= <-]; auto.
    + apply from_default; congruence.
Qed.

Lemma unmerged_value cmd o ns :
  In o opts ->
  ns (o_name o) = match parsed opts cmd (o_name o) with Some v => Some v | None => o_default o end ->
  value_of cmd None o (ns (o_name o)).
Proof.
  intros I E. rewrite (parsed_spec opts cmd o (options_nodup lim) I) in *. rewrite E.
  destruct (o_args o) eqn:A; [destruct (cmd (o_name o)) as [v|] eqn:C|].
  - apply from_cmd; auto.
  - apply from_default; auto. discriminate.
  - apply from_default; congruence.
Qed.

Lemma bad_spec cmd sec o :
  In o opts -> bad sec o (parsed opts cmd (o_name o)) = true -> bad_value cmd (Some sec) o.
Proof.
  intros I. rewrite (parsed_spec opts cmd o (options_nodup lim) I). unfold bad, bad_value.
  destruct (o_args o) eqn:A; [destruct (cmd (o_name o)) as [v|] eqn:C; [discriminate|]|];
    (destruct (o_config o) eqn:CF; cbn [andb]; [|discriminate];
     destruct (sec (o_name o)) as [raw|] eqn:S; [|discriminate];
     destruct (o_type o raw) eqn:T; [discriminate|]); intros _;
    exists sec, raw; do 4 (split; [congruence|]); auto.
Qed.

Lemma parse_cases cmd file :
  match parse opts cmd file with
  | Some ns => exists sec, selected cmd file sec /\
      forall o, In o opts -> value_of cmd sec o (ns (o_name o)) /\ (o_required o = true -> ns (o_name o) <> None)
  | None =>
      (exists name, chosen cmd name /\ file name = None) \/
      exists sec, selected cmd file sec /\
        ((exists o, In o opts /\ bad_value cmd sec o) \/
         (exists o, In o opts /\ o_required o = true /\ value_of cmd sec o None))
  end.
Proof.
  pose proof (options_nodup lim) as ND. fold opts in ND.
  assert (Fin : forall sec ns, selected cmd file sec ->
    (forall o, In o opts -> value_of cmd sec o (set_defaults opts ns (o_name o))) ->
    match (match missing opts (set_defaults opts ns) with [] => Some (set_defaults opts ns) | _ => None end) with
    | Some ns => exists sec, selected cmd file sec /\
        forall o, In o opts -> value_of cmd sec o (ns (o_name o)) /\ (o_required o = true -> ns (o_name o) <> None)
    | None =>
        (exists name, chosen cmd name /\ file name = None) \/
        exists sec, selected cmd file sec /\
          ((exists o, In o opts /\ bad_value cmd sec o) \/
           (exists o, In o opts /\ o_required o = true /\ value_of cmd sec o None))
    end).
  { intros sec ns S V. destruct (missing opts (set_defaults opts ns)) as [|m ms] eqn:M.
    - exists sec. split; auto. intros o I. split; auto. rewrite missing_nil in M. intros R. apply M; auto.
    - right. exists sec. split; auto. right.
      assert (I : In m (missing opts (set_defaults opts ns))) by (rewrite M; cbn; auto).
      apply missing_in in I as (o & I & R & N). exists o. split; auto. split; auto.
      specialize (V o I). rewrite N in V. auto. }
  assert (None_case : (forall name, ~ chosen cmd name) ->
    forall o, In o opts -> value_of cmd None o (set_defaults opts (parsed opts cmd) (o_name o))).
  { intros _ o I. apply unmerged_value; auto.
    destruct (defaults_spec opts ND (parsed opts cmd)) as [X _]. apply X; auto. }
  unfold parse. cbv zeta. pose proof (parse_none cmd) as PN.
  destruct (parsed opts cmd "config"%string) as [[[|c r]| |]|] eqn:E;
    try exact (Fin None (parsed opts cmd) (sel_none _ _ (PN I)) (None_case (PN I))).
  rewrite config_arg in E.
  assert (C : chosen cmd (string_of_list_ascii (c :: r))).
  { split; [discriminate|]. rewrite lit_string. auto. }
  destruct (file (string_of_list_ascii (c :: r))) as [sec|] eqn:F; [|left; eauto].
  assert (S : selected cmd file (Some sec)) by (eapply sel_some; eauto).
  pose proof (merge_spec opts sec ND (parsed opts cmd)) as M.
  destruct (merge_config opts sec (parsed opts cmd)) as [ns|].
  - destruct M as [M _]. apply (Fin (Some sec)); auto. intros o I.
    destruct (defaults_spec opts ND ns) as [X _]. destruct (M o I) as [B W].
    apply merged_value; auto. rewrite X by auto. rewrite W. reflexivity.
  - destruct M as (o & I & B). right. exists (Some sec). split; auto. left. exists o. split; auto.
    apply bad_spec; auto.
Qed.

End Options.
Transparent set_defaults missing merge_config parsed OPTIONS.

(* Every option has the value of the command line, else the value of the
   section chosen with --config, else the default; required options have a
   value. *)
Theorem option_priority lim cmd file ns :
  parse (OPTIONS lim) cmd file = Some ns ->
  exists sec, selected cmd file sec /\
    forall o, In o (OPTIONS lim) ->
      value_of cmd sec o (ns (o_name o)) /\ (o_required o = true -> ns (o_name o) <> None).
Proof. intros E. pose proof (parse_cases lim cmd file) as P. rewrite E in P. auto. Qed.

Lemma selected_unique cmd file a b : selected cmd file a -> selected cmd file b -> a = b.
Proof.
  intros [N|n s C F] [N'|n' s' C' F']; auto.
  - exfalso. eapply N; eauto.
  - exfalso. eapply N'; eauto.
  - assert (n = n') by (eapply chosen_unique; eauto). subst n'. congruence.
Qed.

Lemma value_of_unique cmd sec o a b : value_of cmd sec o a -> value_of cmd sec o b -> a = b.
Proof.
  intros [v A C|raw v se C S O R T|C D] [v' A' C'|raw' v' se' C' S' O' R' T'|C' D']; try congruence.
  - rewrite C' in C by auto. discriminate.
  - rewrite C' in C by auto. discriminate.
  - rewrite C in C' by auto. discriminate.
  - rewrite (D' se) in R by auto. discriminate.
  - rewrite C in C' by auto. discriminate.
  - rewrite (D se') in R' by auto. discriminate.
Qed.

(* Parsing fails exactly when the section is missing, a value of the file which
   is used is not valid, or a required option has no value. *)
Theorem option_errors lim cmd file :
  parse (OPTIONS lim) cmd file = None <->
  (exists name, chosen cmd name /\ file name = None) \/
  exists sec, selected cmd file sec /\
    ((exists o, In o (OPTIONS lim) /\ bad_value cmd sec o) \/
     (exists o, In o (OPTIONS lim) /\ o_required o = true /\ value_of cmd sec o None)).
Proof.
  pose proof (parse_cases lim cmd file) as P.
  split; [intros E; rewrite E in P; auto|].
  destruct (parse (OPTIONS lim) cmd file) as [ns|]; auto.
  destruct P as (sec & S & V). intros [(n & C & F)|(sec' & S' & X)]; exfalso.
  - destruct S as [N|n' s C' F']; [eapply N; eauto|].
    assert (n = n') by (eapply chosen_unique; eauto). subst n'. congruence.
  - assert (sec' = sec) by (eapply selected_unique; eauto). subst sec'.
    destruct X as [(o & I & se & raw & A & B & C & D & T)|(o & I & R & VN)].
    + destruct (V o I) as [W _]. destruct W as [v Ar Cm|raw' v se' Cm S2 O2 R2 T2|Cm D2].
      * rewrite A in Cm by auto. discriminate.
      * congruence.
      * rewrite (D2 se) in D by auto. discriminate.
    + destruct (V o I) as [W N]. apply (N R). eapply value_of_unique; eauto.
Qed.

Definition example_cmd : space := fun n =>
  if String.eqb n "config" then Some (VStr (lit "prod"))
  else if String.eqb n "username" then Some (VStr (lit "admin"))
  else None.
Definition example_section : section := fun n =>
  if String.eqb n "engine_url" then Some (lit "https://engine")
  else if String.eqb n "username" then Some (lit "other")
  else if String.eqb n "secure" then Some (lit "No")
  else None.
Definition example_file : string -> option section := fun n =>
  if String.eqb n "prod" then Some example_section else None.
Example option_case :
  match parse (OPTIONS None) example_cmd example_file with
  | Some ns => ns "username"%string = Some (VStr (lit "admin")) /\
               ns "engine_url"%string = Some (VStr (lit "https://engine")) /\
               ns "secure"%string = Some (VBool false) /\
               ns "disk_timeout"%string = Some (VInt 120)
  | None => False
  end.
Proof. vm_compute. auto. Qed.
Example option_error_cases :
  parse (OPTIONS None) (fun n => if String.eqb n "username" then Some (VStr (lit "a")) else None) example_file
    = None /\
  parse (OPTIONS None) (fun n => if String.eqb n "config" then Some (VStr (lit "test")) else None) example_file
    = None.
Proof. split; reflexivity. Qed.

Lemma rstrip_spec s : without_newlines s (rstrip_newlines s).
Proof.
  unfold rstrip_newlines, without_newlines. generalize (ascii_of_N 10). intros nl.
  set (skip := fix skip (l : str) : str :=
    match l with
    | c :: r => if Ascii.eqb c nl then skip r else l
    | [] => []
    end).
  assert (A : forall l, exists k, l = repeat nl k ++ skip l).
  { induction l as [|c l IH]; [exists 0%nat; auto|]. cbn.
    destruct (Ascii.eqb_spec c nl) as [->|N].
    - destruct IH as (k & IH). exists (S k). cbn. f_equal. auto.
    - exists 0%nat. auto. }
  assert (B : forall l, match skip l with [] => True | c :: _ => c <> nl end).
  { induction l as [|c l IH]; cbn; auto. destruct (Ascii.eqb_spec c nl); auto. }
  assert (R : forall k, rev (repeat nl k) = repeat nl k).
  { induction k as [|k IH]; auto. cbn [repeat rev]. rewrite IH. clear IH.
    induction k as [|k IH]; [reflexivity|]. cbn [repeat List.app]. rewrite IH. reflexivity. }
  split.
  - destruct (A (rev s)) as (k & E). exists k.
    rewrite <- (rev_involutive s) at 1. rewrite E at 1. rewrite rev_app_distr, R. auto.
  - intros t' E. specialize (B (rev s)). apply (f_equal (@rev ascii)) in E.
    rewrite rev_involutive, rev_app_distr in E. cbn in E. rewrite E in B. auto.
Qed.

(* The password: the content of the password file without newlines at the end,
   else the value of the configuration file, else what the user types; other
   options are not changed. *)
Theorem password_priority ns read prompt :
  match read_password ns read prompt with
  | Some ns' =>
      (forall n, n <> "password"%string -> ns' n = ns n) /\
      ((exists path s pw, path <> [] /\ ns "password_file"%string = Some (VStr path) /\
          read path = Some s /\ without_newlines s pw /\ ns' "password"%string = Some (VStr pw)) \/
       ((forall path, path <> [] -> ns "password_file"%string <> Some (VStr path)) /\
        ((exists v, ns "password"%string = Some v /\ ns' "password"%string = Some v) \/
         (ns "password"%string = None /\ ns' "password"%string = Some (VStr prompt)))))
  | None => exists path, path <> [] /\ ns "password_file"%string = Some (VStr path) /\ read path = None
  end.
Proof.
  assert (Rest : (forall path, path <> [] -> ns "password_file"%string <> Some (VStr path)) ->
    match (match ns "password"%string with
           | None => Some (set ns "password" (Some (VStr prompt)))
           | Some _ => Some ns
           end) with
    | Some ns' =>
      (forall n, n <> "password"%string -> ns' n = ns n) /\
      ((exists path s pw, path <> [] /\ ns "password_file"%string = Some (VStr path) /\
          read path = Some s /\ without_newlines s pw /\ ns' "password"%string = Some (VStr pw)) \/
       ((forall path, path <> [] -> ns "password_file"%string <> Some (VStr path)) /\
        ((exists v, ns "password"%string = Some v /\ ns' "password"%string = Some v) \/
         (ns "password"%string = None /\ ns' "password"%string = Some (VStr prompt)))))
    | None => exists path, path <> [] /\ ns "password_file"%string = Some (VStr path) /\ read path = None
    end).
  { intros N. destruct (ns "password"%string) as [v|] eqn:E.
    - split; auto. right. split; auto. left. eauto.
    - split; [intros n D; apply set_other; auto|]. right. split; auto. }
  unfold read_password.
  destruct (ns "password_file"%string) as [[[|c r]|b|z]|] eqn:PF;
    try (apply Rest; intros path NE X; congruence).
  destruct (read (c :: r)) as [s|] eqn:R.
  - split; [intros n D; apply set_other; auto|]. left.
    exists (c :: r), s, (rstrip_newlines s). split; [discriminate|]. split; auto. split; auto.
    split; [apply rstrip_spec|auto].
  - exists (c :: r). split; [discriminate|auto].
Qed.
Example password_case :
  match read_password (fun n => if String.eqb n "password_file" then Some (VStr (lit "pw"))
                                else if String.eqb n "password" then Some (VStr (lit "x")) else None)
          (fun _ => Some (lit "secret" ++ [ascii_of_N 10])) [] with
  | Some ns => ns "password"%string = Some (VStr (lit "secret"))
  | None => False
  end.
Proof. reflexivity. Qed.

(* ---- C47: configuration files ---- *)

Section Files.
Variable lim : option Z.
Variable floats : str -> bool.

(* Loading keeps the sections and options of the configuration, and each option
   gets the last value of the files, in the type of its default, or keeps its
   default. *)
Theorem config_values cfg files cfg' :
  canonical cfg -> load lim floats cfg files = Some cfg' ->
  Forall2 (fun p q => fst p = fst q /\
             Forall2 (loaded floats lim files (fst p)) (snd p) (snd q)) cfg cfg'.
Proof.
  intros K H. unfold load in H. destruct (forallb valid_file files); [|discriminate].
  pose proof (load_sections_spec lim floats files cfg K) as P. rewrite H in P. exact P.
Qed.

(* Loading fails exactly when a file has duplicates or the last value of an
   option is not a value of its type. *)
Theorem config_errors cfg files :
  canonical cfg ->
  load lim floats cfg files = None <->
  (exists f, In f files /\ duplicates f) \/
  (exists sec opts o d raw, In (sec, opts) cfg /\ In (o, d) opts /\
     text_for files sec o (Some raw) /\ forall v, ~ typed floats lim d raw v).
Proof.
  intros K. unfold load.
  assert (Dec : forallb valid_file files = false <-> exists f, In f files /\ duplicates f).
  { split.
    - intros H. induction files as [|f files IH]; cbn in H; [discriminate|].
      destruct (valid_file f) eqn:V; cbn in H.
      + destruct (IH H) as (g & I & D). exists g; cbn; auto.
      + exists f. split; [cbn; auto|].
        unfold valid_file in V.
        destruct (NoDup_dec_str (filter (fun s => negb (str_eqb s DEFAULT)) (map fst f))) as [A|A].
        2:{ left. apply dup_fst in A as (a & b & c & s & o & o' & -> & N).
            exists a, b, c, s, o, o'. split; auto. apply negb_true_iff, str_eqb_neq in N. exact N. }
        rewrite (proj2 (nodup_NoDup _) A) in V. cbn [andb] in V.
        assert (X : forall sec, ~ NoDup (map keyword_mapping (map fst (entries f sec))) -> duplicates f).
        { intros sec N. right. apply dup_entries in N as (name & N). exists sec, name.
          rewrite entries_dec. exact N. }
        apply andb_false_iff in V as [V|V].
        * apply (X DEFAULT). rewrite <- nodup_NoDup. unfold entries. rewrite (concat_map fst), map_map.
          rewrite V. discriminate.
        * assert (Y : exists p, In p f /\ nodup (map keyword_mapping (map fst (snd p))) = false).
          { clear - V. induction f as [|p f IH]; cbn in V; [discriminate|].
            apply andb_false_iff in V as [V|V]; [exists p; cbn; auto|].
            destruct (IH V) as (q & I & N). exists q; cbn; auto. }
          destruct Y as ([s o] & I & N). apply (X s). cbn in N.
          rewrite <- not_true_iff_false, nodup_NoDup in N. intros F. apply N.
          apply in_split in I as (a & b & ->). unfold entries in F.
          rewrite filter_app in F. cbn in F. rewrite str_eqb_refl in F.
          rewrite map_app, concat_app in F. cbn in F. rewrite !map_app in F.
          apply NoDup_app_r in F. apply NoDup_app_l in F. auto.
    - intros (f & I & D). rewrite <- not_true_iff_false. rewrite forallb_forall. intros H.
      apply H in I. apply valid_file_spec in I. auto. }
  pose proof (load_sections_spec lim floats files cfg K) as P.
  destruct (forallb valid_file files) eqn:V.
  - destruct (load_sections lim floats (fold_left read_file files []) cfg) as [cfg'|].
    + split; [discriminate|]. intros [D|(sec & opts & o & d & raw & I & J & T & N)].
      * apply Dec in D. discriminate.
      * exfalso. clear Dec K. induction P as [|p q cfg cfg' [E F] P IH]; [destruct I|].
        destruct I as [->|I]; [|auto]. cbn [fst snd] in F. clear - F J T N V.
        induction F as [|x y l l' L F IH]; [destruct J|].
        destruct J as [->|J]; auto. inversion L; subst.
        { assert (E : Some raw0 = Some raw) by (eapply text_for_unique; eauto).
          injection E as ->. eapply N; eauto. }
        { assert (E : None = Some raw) by (eapply text_for_unique; eauto). discriminate. }
    + split; auto.
  - split; auto. intros _. left. apply Dec; auto.
Qed.

(* The files of both directories are loaded by name; files with the same name
   in the order of /etc, then the vendor's. Without a file in /etc it is an
   error. *)
Theorem config_order defaults etc vendor :
  match etc with
  | [] => load_config lim floats defaults etc vendor = None
  | _ => exists l, in_order (etc ++ vendor) l /\
           (forall l', in_order (etc ++ vendor) l' -> l' = l) /\
           load_config lim floats defaults etc vendor = load lim floats defaults (map snd l)
  end.
Proof.
  destruct etc as [|f etc]; [reflexivity|].
  exists (sort ((f :: etc) ++ vendor)). split; [apply sort_in_order|]. split; [|reflexivity].
  intros l' H. eapply in_order_unique; eauto. apply sort_in_order.
Qed.

(* The order in which the file system lists the files does not matter. *)
Theorem config_listing defaults etc etc' vendor vendor' :
  NoDup (map fst etc) -> NoDup (map fst vendor) ->
  Permutation etc etc' -> Permutation vendor vendor' ->
  load_config lim floats defaults etc vendor = load_config lim floats defaults etc' vendor'.
Proof.
  intros N N' P P'. unfold load_config.
  destruct etc as [|f etc].
  { apply Permutation_nil in P. subst etc'. auto. }
  destruct etc' as [|f' etc'].
  { symmetry in P. apply Permutation_nil in P. discriminate. }
  f_equal. f_equal. apply sorted_unique; try apply sort_sorted.
  intros n. rewrite !sort_named, !filter_app. f_equal; apply named_perm; auto.
Qed.

Lemma never_after files sec o (g : cfile) : (forall raw, ~ sets g sec o raw) ->
  never_set files sec o -> never_set (g :: files) sec o.
Proof. intros A B f raw [<-|I]; auto. Qed.

(* A value in the file with the largest name of those that have the option is
   the value of the option. *)
Theorem largest_name_wins defaults etc vendor cfg' sec opts o d n f raw :
  canonical defaults ->
  load_config lim floats defaults etc vendor = Some cfg' ->
  In (sec, opts) defaults -> In (o, d) opts ->
  In (n, f) (etc ++ vendor) -> sets f sec o raw ->
  (forall m g raw', In (m, g) (etc ++ vendor) -> (m, g) <> (n, f) -> sets g sec o raw' ->
     name_lt (code m) (code n)) ->
  exists opts' v, In (sec, opts') cfg' /\ In (o, v) opts' /\ typed floats lim d raw v.
Proof.
  intros K H I J IF S Max. unfold load_config in H.
  destruct etc as [|e etc]; [discriminate|]. set (all := (e :: etc) ++ vendor) in *.
  assert (V : forallb valid_file (map snd (sort all)) = true).
  { unfold load in H. destruct (forallb valid_file (map snd (sort all))); auto. discriminate. }
  apply config_values in H; auto.
  assert (L : last_set (map snd (sort all)) sec o raw).
  { assert (A : forall l, sorted l -> (forall x, In x l -> In x all) -> In (n, f) l -> last_set (map snd l) sec o raw).
    { induction 1 as [|[m g] l Le So IH]; intros Sub In'; [destruct In'|].
      destruct (in_dec (fun x y : str * cfile =>
         ltac:(repeat decide equality)) (n, f) l) as [Y|Y].
      - destruct IH as (b & g' & a & E & S' & L'); auto.
        { intros x X. apply Sub; cbn; auto. }
        exists (g :: b), g', a. cbn. rewrite E. auto.
      - destruct In' as [[= -> ->]|]; [|tauto]. exists [], f, (map snd l). split; auto. split; auto.
        intros g' raw' X S'. apply in_map_iff in X as ([m' g''] & <- & X). cbn in S'.
        assert (B : name_lt (code m') (code n)).
        { apply (Max m' g'' raw'); auto. apply Sub; cbn; auto. intros [= -> ->]. tauto. }
        apply (Le (m', g'') X). exact B. }
    apply A; [apply sort_sorted| |].
    - intros x X. exact (proj1 (sort_in _ _) X).
    - exact (proj2 (sort_in _ _) IF). }
  clear Max IF S. induction H as [|[s os] [s' os'] cfg cfg' [E F] P IH]; [destruct I|].
  cbn [fst snd] in *. destruct I as [[= -> ->]|I].
  - subst s'. exists os'.
    assert (X : exists v, In (o, v) os' /\ typed floats lim d raw v).
    { clear - F J L V. induction F as [|x y l l' Lo F IH]; [destruct J|].
      destruct J as [->|J]; [|destruct (IH J) as (v & A & B); exists v; cbn; auto].
      inversion Lo; subst.
      - assert (E : Some raw0 = Some raw) by (eapply text_for_unique; eauto; apply in_section; auto).
        injection E as ->. exists v. cbn; auto.
      - assert (E : None = Some raw) by (eapply text_for_unique; eauto; apply in_section; auto). discriminate. }
    destruct X as (v & A & B). exists v. cbn; auto.
  - destruct IH as (os2 & v & A & B); auto.
    { intros a b c dd X Y. eapply K; cbn; eauto. }
    exists os2, v. cbn; auto.
Qed.

End Files.

Example defaults_canonical : canonical defaults.
Proof.
  intros sec opts o d I J. cbn in I.
  repeat (destruct I as [I|I];
    [injection I as <- <-; repeat (destruct J as [J|J]; [injection J as <- <-; reflexivity|]); destruct J|]).
  destruct I.
Qed.

(* The safe values are those used when no file says something else: privileges
   are dropped, TLS is used, TLS 1.1 is not, control is a local socket. *)
Theorem safe_defaults lim floats files cfg' sec o v :
  load lim floats defaults files = Some cfg' ->
  In (sec, o, v) [(lit "daemon", lit "drop_privileges", CBool true); (lit "tls", lit "enable", CBool true);
                  (lit "tls", lit "enable_tls1_1", CBool false); (lit "control", lit "transport", CStr (lit "unix"))] ->
  never_set files sec o -> never_set files (lit "DEFAULT") o ->
  exists opts, In (sec, opts) cfg' /\ In (o, v) opts.
Proof.
  intros H I N1 N2. pose proof (config_values lim floats _ _ _ defaults_canonical H) as F.
  assert (P : exists opts, In (sec, opts) defaults /\ In (o, v) opts).
  { cbn in I. repeat (destruct I as [I|I]; [injection I as <- <- <-; eexists; split; [cbn; eauto 6|cbn; eauto 10]|]). destruct I. }
  destruct P as (opts & I1 & I2). clear I H.
  induction F as [|[s1 o1] [s2 o2] cfg cfg' [E G] F IH]; [destruct I1|]. destruct I1 as [I1|I1].
  - injection I1 as -> ->. cbn [fst snd] in *. subst s2. exists o2. split; [left; reflexivity|].
    clear IH F. induction G as [|[a d] [b e] l l' R G IH]; [destruct I2|]. destruct I2 as [I2|I2].
    + injection I2 as -> ->. left. inversion R as [? ? raw ? T|? ? T]; subst; auto.
      exfalso. inversion T as [? (x & f & z & EF & S & _)|? _ _ (x & f & z & EF & S & _)|]; subst.
      * eapply (N1 f); eauto. apply in_or_app. right. left. reflexivity.
      * eapply (N2 f); eauto. apply in_or_app. right. left. reflexivity.
    + right. auto.
  - destruct (IH I1) as (q & A & B). exists q. split; auto. right. exact A.
Qed.
Print Assumptions safe_defaults.
(* Files without these options: their values stay. *)
Example safe_defaults_case : exists cfg',
  load None (fun _ => true) defaults [[(lit "daemon", [(lit "user_name", lit "me")])]] = Some cfg' /\
  never_set [[(lit "daemon", [(lit "user_name", lit "me")])]] (lit "daemon") (lit "drop_privileges").
Proof.
  eexists. split; [vm_compute; reflexivity|]. intros f raw [<-|[]] (opts & name & [I|[]] & J & O).
  injection I as <-. destruct J as [J|[]]. injection J as <- _. inversion O as [? ? E1 _ E2|? ? E1 K E2]; subst; discriminate.
Qed.

(* A vendor file between two files of /etc, a keyword option, a value in
   DEFAULT. *)
Definition example_etc : list (str * cfile) :=
  [ (lit "99-user.conf", [ (lit "control", [(lit "port", lit "54324")]) ]);
    (lit "50-vdsm.conf", [ (lit "DEFAULT", [(lit "remove_timeout", lit "30")]);
                           (lit "tls", [(lit "Enable_TLS1_1", lit "Yes"); (lit "key_file", lit "/k")]);
                           (lit "control", [(lit "port", lit "1"); (lit "transport", lit "tcp")]);
                           (lit "unknown", [(lit "x", lit "y")]) ]) ].
Definition example_vendor : list (str * cfile) :=
  [ (lit "75-vendor.conf", [ (lit "control", [(lit "port", lit "2"); (lit "transport", lit "unix")]);
                             (lit "handler_stderr", [(lit "class", lit "H")]) ]) ].
Definition lookup (cfg : config) (sec o : string) : option cval :=
  match assoc cfg (lit sec) with Some opts => assoc opts (lit o) | None => None end.
Example config_case :
  match load_config None (fun _ => true) defaults example_etc example_vendor with
  | Some cfg =>
      lookup cfg "control" "port" = Some (CInt 54324) /\
      lookup cfg "control" "transport" = Some (CStr (lit "unix")) /\
      lookup cfg "control" "remove_timeout" = Some (CInt 30) /\
      lookup cfg "tls" "enable_tls1_1" = Some (CBool true) /\
      lookup cfg "daemon" "max_connections" = Some (CInt 8) /\
      lookup cfg "handler_stderr" "keyword__class" = Some (CStr (lit "H"))
  | None => False
  end.
Proof. vm_compute. repeat split. Qed.
Example config_error_case :
  load_config None (fun _ => true) defaults
    [(lit "a.conf", [(lit "control", [(lit "port", lit "x")])])] [] = None /\
  load_config None (fun _ => true) defaults
    [(lit "a.conf", [(lit "control", [(lit "port", lit "1"); (lit "PORT", lit "1")])])] [] = None.
Proof. split; reflexivity. Qed.

Print Assumptions tls_minimum_version_refuted.
Print Assumptions size_meaning.
Print Assumptions size_plain.
Print Assumptions size_text_partial.
Print Assumptions option_priority.
Print Assumptions option_errors.
Print Assumptions password_priority.
Print Assumptions config_values.
Print Assumptions config_errors.
Print Assumptions config_listing.
Print Assumptions largest_name_wins.

(* ---- C46: values of options ---- *)
Lemma lower_letter c : lower c = c /\ ~ (65 <= N_of_ascii c <= 90)%N \/
  (65 <= N_of_ascii c <= 90)%N /\ N_of_ascii (lower c) = (N_of_ascii c + 32)%N.
Proof.
  unfold lower. destruct ((65 <=? N_of_ascii c)%N && (N_of_ascii c <=? 90)%N) eqn:E.
  - apply andb_prop in E as [E1 E2]. apply N.leb_le in E1, E2. right. split; [lia|].
    apply N_ascii_embedding. lia.
  - left. split; auto. intros [E1 E2]. apply N.leb_le in E1, E2. rewrite E1, E2 in E. discriminate.
Qed.
Lemma ascii_N_inj a b : N_of_ascii a = N_of_ascii b -> a = b.
Proof. intros E. rewrite <- (ascii_N_embedding a), <- (ascii_N_embedding b), E. auto. Qed.
(* Options, booleans and units are read in any case. *)
Theorem any_case a b : map lower a = map lower b <-> same_case a b.
Proof.
  assert (CH : forall c d, lower c = lower d <-> same_letter c d).
  { intros c d. unfold same_letter. destruct (lower_letter c) as [[C1 C2]|[C1 C2]], (lower_letter d) as [[D1 D2]|[D1 D2]]; split.
    - rewrite C1, D1. auto.
    - intros [->|(i & I & [[E1 E2]|[E1 E2]])]; auto; lia.
    - intros E. rewrite C1 in E. subst c. right. exists (N_of_ascii d - 65)%N. split; [lia|]. right. lia.
    - intros [->|(i & I & [[E1 E2]|[E1 E2]])]; auto; [lia|]. apply ascii_N_inj. rewrite C1, D2. lia.
    - intros E. rewrite D1 in E. subst d. right. exists (N_of_ascii c - 65)%N. split; [lia|]. left. lia.
    - intros [->|(i & I & [[E1 E2]|[E1 E2]])]; auto; [|lia]. apply ascii_N_inj. rewrite D1, C2. lia.
    - intros E. left. apply ascii_N_inj. apply (f_equal N_of_ascii) in E. lia.
    - intros [->|(i & I & [[E1 E2]|[E1 E2]])]; auto; lia. }
  unfold same_case. revert b. induction a as [|c a IH]; intros [|d b]; cbn [map].
  - split; [constructor|auto].
  - split; [discriminate|intros H; inversion H].
  - split; [discriminate|intros H; inversion H].
  - split.
    + intros [= E1 E2]. constructor; [apply CH; auto|apply IH; auto].
    + intros H. inversion H; subst. f_equal; [apply CH; auto|apply IH; auto].
Qed.
Print Assumptions any_case.

Lemma choices_spec l s v : choices l s = Some v <-> In s (map lit l) /\ v = VStr s.
Proof.
  unfold choices. destruct (existsb _ l) eqn:E.
  - apply existsb_exists in E as (c & I & E). split.
    + intros [= <-]. split; auto. apply in_map_iff. exists c. split; auto. apply str_eqb_eq; auto.
    + intros [_ ->]. auto.
  - split; [discriminate|]. intros [I _]. apply in_map_iff in I as (c & <- & I).
    assert (existsb (fun c0 => str_eqb (lits c0) (lit c)) l = true); [|congruence].
    apply existsb_exists. exists c. split; auto. apply str_eqb_eq. auto.
Qed.
(* Exactly these texts are values of the options. *)
Theorem option_values lim o s v : In o (OPTIONS lim) ->
  (o_type o s = Some v <-> meant lim (o_name o) s v).
Proof.
  intros I.
  assert (T : forall n, ~ In n ["output"; "log_level"; "secure"; "disk_timeout"]%string ->
              text s = Some v <-> meant lim n s v).
  { intros n N. unfold text, meant. split.
    - intros [= <-]. auto 8.
    - cbn [In] in N. intros [[-> _]|[[-> _]|[[-> _]|[[-> _]|[_ ->]]]]]; auto; exfalso; tauto. }
  cbn [OPTIONS In] in I. repeat destruct I as [I|I]; try contradiction; subst o; cbn [o_type o_name];
    try (apply T; cbn [In]; intros X; repeat destruct X as [X|X]; try discriminate X; contradiction).
  - (* secure *) unfold bool_string, bool_of, meant.
    assert (K : forall l, existsb (fun c => str_eqb (lits c) (map lower s)) l = true <-> exists t, In t l /\ lits t = map lower s).
    { intros l. rewrite existsb_exists. split; intros (t & A & B); exists t; (split; [auto|]); apply str_eqb_eq; auto. }
    assert (Q : forall t, In t (TRUE_VALUES ++ FALSE_VALUES) -> (lits t = map lower s <-> same_case s (lit t))).
    { intros t A. rewrite <- any_case. assert (map lower (lit t) = lits t) as ->; [|split; auto].
      cbn [TRUE_VALUES FALSE_VALUES app In] in A. repeat destruct A as [<-|A]; try reflexivity. contradiction. }
    split.
    + intros H. right. right. left. split; [auto|].
      destruct (existsb _ TRUE_VALUES) eqn:E1; [|destruct (existsb _ FALSE_VALUES) eqn:E2; [|discriminate]].
      * injection H as <-. apply K in E1 as (t & A & B). exists t, true.
        split; [apply Q; [apply in_or_app; auto|auto]|]. split; [auto|].
        cbn [TRUE_VALUES In] in A. repeat destruct A as [<-|A]; try contradiction; cbn [In]; auto 10.
      * injection H as <-. apply K in E2 as (t & A & B). exists t, false.
        split; [apply Q; [apply in_or_app; auto|auto]|]. split; [auto|].
        cbn [FALSE_VALUES In] in A. repeat destruct A as [<-|A]; try contradiction; cbn [In]; auto 10.
    + intros [[X _]|[[X _]|[(_ & t & b & SC & -> & IN)|[[X _]|[X _]]]]]; try discriminate.
      2:{ exfalso. apply X. cbn. auto. }
      assert (A : In t (TRUE_VALUES ++ FALSE_VALUES)).
      { cbn [In] in IN. repeat destruct IN as [IN|IN]; try contradiction; injection IN as <- <-; cbn; auto 10. }
      apply Q in SC; auto. rewrite <- SC.
      cbn [In] in IN. repeat destruct IN as [IN|IN]; try contradiction; injection IN as <- <-; reflexivity.
  - (* output *) rewrite choices_spec. unfold meant. split; [auto|].
    intros [[_ X]|[[X _]|[[X _]|[[X _]|[X _]]]]]; try discriminate; auto. exfalso. apply X. cbn. auto.
  - (* disk_timeout *) unfold int_type, meant. split.
    + destruct (py_int lim s) as [n|]; [|discriminate]. intros [= <-]. right. right. right. left. eauto.
    + intros [[X _]|[[X _]|[[X _]|[(_ & n & -> & ->)|[X _]]]]]; try discriminate; auto. exfalso. apply X. cbn. auto.
  - (* log_level *) rewrite choices_spec. unfold meant. split; [auto|].
    intros [[X _]|[[_ X]|[[X _]|[[X _]|[X _]]]]]; try discriminate; auto. exfalso. apply X. cbn. auto.
Qed.
Print Assumptions option_values.
Example option_values_case :
  meant None "secure" (lit "YeS") (VBool true) /\ ~ (exists v, meant None "log_level" (lit "trace") v) /\
  meant None "log_level" (lit "info") (VStr (lit "info")) /\ same_case (lit "AZ[`az") (lit "az[`AZ").
Proof.
  assert (O : forall n, In n (map o_name (OPTIONS None)) -> exists o, In o (OPTIONS None) /\ o_name o = n).
  { intros n I. apply in_map_iff in I as (o & E & I). eauto. }
  split; [|split; [|split]].
  - right. right. left. split; [auto|]. exists "yes"%string, true. split; [apply any_case; reflexivity|]. split; [auto|]. cbn. auto.
  - intros [v [[X _]|[[_ [X _]]|[[X _]|[[X _]|[X _]]]]]]; try discriminate.
    + cbn in X. repeat destruct X as [X|X]; try discriminate. contradiction.
    + apply X. cbn. auto.
  - right. left. split; [auto|]. split; [cbn; auto|auto].
  - apply any_case. reflexivity.
Qed.

(* The password is not taken from the command line, and only the address of the
   engine and the user must be given; the defaults. *)
Theorem option_table lim o : In o (OPTIONS lim) ->
  (o_required o = true <-> In (o_name o) ["engine_url"; "username"]%string) /\
  (o_args o = false <-> In (o_name o) ["password"; "disk_timeout"]%string) /\
  (o_config o = false <-> In (o_name o) ["config"; "password_file"; "output"]%string) /\
  (forall v, o_default o = Some v <->
     In (o_name o, v) [("secure", VBool true); ("output", VStr (lit "text")); ("disk_timeout", VInt 120);
                       ("log_level", VStr (lit "warning")); ("description", VStr (lit "Uploaded by ovirt-img"))]%string) /\
  forall v, o_default o = Some v -> forall s, v = VStr s -> meant lim (o_name o) s v.
Proof.
  intros I.
  assert (M : forall v, o_default o = Some v -> forall s, v = VStr s -> meant lim (o_name o) s v).
  { intros v D s ->. apply option_values; auto.
    cbn [OPTIONS In] in I. repeat destruct I as [I|I]; try contradiction; subst o; cbn [o_default] in D; try discriminate;
      injection D as <-; reflexivity. }
  assert (B : (o_required o = true <-> In (o_name o) ["engine_url"; "username"]%string) /\
  (o_args o = false <-> In (o_name o) ["password"; "disk_timeout"]%string) /\
  (o_config o = false <-> In (o_name o) ["config"; "password_file"; "output"]%string) /\
  (forall v, o_default o = Some v <->
     In (o_name o, v) [("secure", VBool true); ("output", VStr (lit "text")); ("disk_timeout", VInt 120);
                       ("log_level", VStr (lit "warning")); ("description", VStr (lit "Uploaded by ovirt-img"))]%string)).
  { clear M.
    cbn [OPTIONS In] in I. repeat destruct I as [I|I]; try contradiction; subst o; cbn [o_required o_args o_config o_default o_name In];
    (split; [split; [first [discriminate|auto]|intros X; repeat destruct X as [X|X]; first [discriminate X|contradiction|reflexivity]]|]);
    (split; [split; [first [discriminate|auto]|intros X; repeat destruct X as [X|X]; first [discriminate X|contradiction|reflexivity]]|]);
    (split; [split; [first [discriminate|auto]|intros X; repeat destruct X as [X|X]; first [discriminate X|contradiction|reflexivity]]|]);
    (intros v; split; [intros D; first [discriminate D|injection D as <-; auto 10]|
      intros X; repeat destruct X as [X|X]; first [discriminate X|contradiction|injection X as <-; reflexivity]]). }
  destruct B as (B1 & B2 & B3 & B4). auto.
Qed.
Print Assumptions option_table.
Example option_table_case : exists o, In o (OPTIONS None) /\ o_name o = "password"%string /\ o_args o = false.
Proof. eexists. split; [right; right; right; left; reflexivity|]. split; reflexivity. Qed.
