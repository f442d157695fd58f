(* Proofs about the texts of JSON. *)
From Coq Require Import ZArith List Bool Lia String.
From Verif Require Import JsonModel JsonSpec.
Import ListNotations.
Open Scope Z_scope.

(* ---- white space and digits ---- *)

Lemma white_ws c : (c = 32 \/ c = 9 \/ c = 10 \/ c = 13) <-> is_ws c = true.
Proof. unfold is_ws. rewrite !orb_true_iff, !Z.eqb_eq. tauto. Qed.

Lemma skip_white w t : white w -> skip (w ++ t) = skip t.
Proof.
  induction 1 as [|c w C W IH]; [reflexivity|]. cbn.
  apply white_ws in C. rewrite C. exact IH.
Qed.

Lemma skip_white_nil w : white w -> skip w = [].
Proof. intros W. rewrite <- (app_nil_r w). rewrite skip_white by exact W. reflexivity. Qed.

Lemma skip_other c t : is_ws c = false -> skip (c :: t) = c :: t.
Proof. intros C. cbn. now rewrite C. Qed.

(* The text does not start with a digit. *)
Definition no_digit (t : text) : Prop :=
  match t with [] => True | c :: _ => c < 48 \/ 57 < c end.

Lemma digits_stop t : no_digit t -> digits t = ([], t).
Proof.
  destruct t as [|c t]; [reflexivity|]. cbn [no_digit digits]. intros C.
  destruct ((48 <=? c) && (c <=? 57)) eqn:E; [|reflexivity].
  apply andb_prop in E. lia.
Qed.

Lemma digits_map ds t : Forall (fun d => 0 <= d <= 9) ds -> no_digit t ->
  digits (map (fun d => 48 + d) ds ++ t) = (ds, t).
Proof.
  intros D N. induction D as [|d ds D Ds IH]; [apply digits_stop, N|].
  cbn [map app digits].
  replace ((48 <=? 48 + d) && (48 + d <=? 57)) with true by (symmetry; apply andb_true_intro; lia).
  rewrite IH. f_equal. f_equal. lia.
Qed.

Lemma decimal_digits t n : decimal t n ->
  exists ds, ds <> [] /\ Forall (fun d => 0 <= d <= 9) ds /\ t = map (fun d => 48 + d) ds /\ number_of ds = n.
Proof.
  induction 1 as [d D|t n d T IH D].
  - exists [d]. split; [discriminate|]. split; [now repeat constructor|]. split; [reflexivity|]. cbn. lia.
  - destruct IH as (ds & N & F & -> & V). exists (ds ++ [d]). split; [now destruct ds|].
    split; [apply Forall_app; split; [exact F|now repeat constructor]|].
    split; [now rewrite map_app|].
    unfold number_of in *. rewrite fold_left_app. cbn [fold_left]. lia.
Qed.

Lemma decimal_read t n r : decimal t n -> no_digit r ->
  exists ds, ds <> [] /\ digits (t ++ r) = (ds, r) /\ number_of ds = n.
Proof.
  intros D R. destruct (decimal_digits t n D) as (ds & N & F & -> & V).
  exists ds. split; [exact N|]. split; [now apply digits_map|exact V].
Qed.

Lemma decimal_head t n : decimal t n -> exists c r, t = c :: r /\ 48 <= c <= 57.
Proof.
  induction 1 as [d D|t n d T (c & r & -> & C) D].
  - exists (48 + d), []. split; [reflexivity|lia].
  - exists c, (r ++ [48 + d]). split; [reflexivity|lia].
Qed.

(* ---- numbers ---- *)

(* What may follow a number. *)
Definition stop (t : text) : Prop :=
  match t with [] => True | c :: _ => c = 32 \/ c = 9 \/ c = 10 \/ c = 13 \/ c = 44 \/ c = 93 \/ c = 125 end.

Lemma stop_no_digit t : stop t -> no_digit t.
Proof. destruct t; cbn; lia. Qed.

Lemma white_stop w t : white w -> stop t -> stop (w ++ t).
Proof. intros [|c w' C W] S; [exact S|]. cbn. tauto. Qed.

Lemma exponent_read e et r : exp_part e et -> stop r -> exponent (et ++ r) = (e, r).
Proof.
  intros E S. pose proof (stop_no_digit r S) as N.
  destruct E as [|c t n C D|c t n C D|c t n C D].
  - cbn [app]. destruct r as [|c r]; [reflexivity|]. cbn in S |- *.
    destruct ((c =? 101) || (c =? 69)) eqn:E; [|reflexivity]. apply orb_prop in E. lia.
  - destruct (decimal_read t n r D N) as (ds & ND & G & V).
    destruct (decimal_head t n D) as (h & x & -> & H).
    cbn [app exponent sign] in G |- *. replace ((c =? 101) || (c =? 69)) with true by (symmetry; apply orb_true_iff; lia).
    replace (h =? 45) with false by lia. replace (h =? 43) with false by lia. rewrite G.
    destruct ds; [congruence|]. now rewrite V.
  - destruct (decimal_read t n r D N) as (ds & ND & G & V).
    cbn [app exponent sign]. replace ((c =? 101) || (c =? 69)) with true by (symmetry; apply orb_true_iff; lia).
    change (43 =? 45) with false. change (43 =? 43) with true. cbn iota. rewrite G.
    destruct ds; [congruence|]. now rewrite V.
  - destruct (decimal_read t n r D N) as (ds & ND & G & V).
    cbn [app exponent sign]. replace ((c =? 101) || (c =? 69)) with true by (symmetry; apply orb_true_iff; lia).
    change (45 =? 45) with true. cbn iota. rewrite G.
    destruct ds; [congruence|]. now rewrite V.
Qed.

Lemma exp_part_head e et r : exp_part e et -> stop r -> no_digit (et ++ r) /\ hd 0 (et ++ r) <> 46.
Proof.
  intros E S. destruct E as [|c t n C D|c t n C D|c t n C D]; cbn; [|lia..].
  destruct r; cbn in *; lia.
Qed.

Lemma fraction_read fr ft r : frac_part fr ft -> no_digit r -> hd 0 r <> 46 -> fraction (ft ++ r) = (fr, r).
Proof.
  intros F N H. destruct F as [|ds ND D].
  - cbn [app]. destruct r as [|c r]; [reflexivity|]. cbn in H |- *.
    replace (c =? 46) with false by lia. reflexivity.
  - cbn [app fraction]. change (46 =? 46) with true. cbn iota. rewrite (digits_map ds r D N).
    destruct ds; congruence.
Qed.

Lemma number_rest_real neg n fr e ft et r :
  frac_part fr ft -> exp_part e et -> fr <> [] \/ e <> None -> stop r ->
  number_rest neg n (ft ++ et ++ r) = (VReal neg n fr e, r).
Proof.
  intros F E X S. unfold number_rest. destruct (exp_part_head e et r E S) as (A & B).
  rewrite (fraction_read fr ft (et ++ r) F A B), (exponent_read e et r E S).
  destruct fr; [|reflexivity]. destruct e; [reflexivity|]. destruct X; congruence.
Qed.

Lemma number_rest_int neg n r : stop r -> number_rest neg n r = (VInt (if neg then - n else n), r).
Proof.
  intros S. unfold number_rest. destruct (exp_part_head None [] r e_none S) as (A & B).
  pose proof (fraction_read [] [] r f_none A B) as Y. cbn [app] in Y. rewrite Y. pose proof (exponent_read None [] r e_none S) as X.
  cbn [app] in X. now rewrite X.
Qed.

Lemma number_split neg t n r : integral t n -> no_digit r ->
  number (minus neg ++ t ++ r) = Some (number_rest neg n r).
Proof.
  intros (D & L) N. destruct (decimal_head t n D) as (c & x & -> & C).
  assert (M : number (minus neg ++ (c :: x) ++ r) =
    if c =? 48 then Some (number_rest neg 0 (x ++ r))
    else match digits ((c :: x) ++ r) with
         | ([], _) => None
         | (ds, r) => Some (number_rest neg (number_of ds) r)
         end).
  { destruct neg; cbn [minus app]; unfold number; [reflexivity|]. replace (c =? 45) with false by lia. reflexivity. }
  rewrite M.
  destruct (c =? 48) eqn:E.
  - destruct L as [L|L]; [|cbn in L; lia]. injection L as -> ->. cbn [app].
    destruct (decimal_digits [48] n D) as (ds & ND & Fd & Hd & V).
    destruct ds as [|d [|d' ds]]; try discriminate; [].
    apply (f_equal (hd 0)) in Hd. cbn [hd map] in Hd. unfold number_of in V. cbn [fold_left] in V. replace n with 0 by lia. reflexivity.
  - destruct (decimal_read (c :: x) n r D N) as (ds & ND & G & V). rewrite G.
    destruct ds; [congruence|]. now rewrite V.
Qed.

Lemma number_read v t r : jnumber v t -> stop r -> number (t ++ r) = Some (v, r).
Proof.
  intros J S. destruct J as [neg t n I|neg t n fr e ft et I F E X].
  - rewrite <- app_assoc, (number_split neg t n r I (stop_no_digit r S)), (number_rest_int neg n r S). reflexivity.
  - rewrite <- !app_assoc. destruct (exp_part_head e et r E S) as (A & B).
    rewrite (number_split neg t n (ft ++ et ++ r) I).
    + now rewrite (number_rest_real neg n fr e ft et r F E X S).
    + destruct F; [exact A|]. cbn. lia.
Qed.

Lemma number_head v t : jnumber v t -> exists c x, t = c :: x /\ (c = 45 \/ 48 <= c <= 57).
Proof.
  intros [neg t' n (D & _)|neg t' n fr e ft et (D & _) F E X];
    destruct (decimal_head t' n D) as (c & x & -> & C); destruct neg; cbn; eexists _, _; split; try reflexivity; lia.
Qed.

(* ---- strings ---- *)

Lemma hex_read c v : hex c v -> hex_value c = Some v.
Proof.
  unfold hex, hex_value. intros [(C & ->)|[(C & ->)|(C & ->)]].
  - now replace ((48 <=? c) && (c <=? 57)) with true by (symmetry; apply andb_true_intro; lia).
  - replace ((48 <=? c) && (c <=? 57)) with false by (symmetry; apply andb_false_iff; lia).
    now replace ((97 <=? c) && (c <=? 102)) with true by (symmetry; apply andb_true_intro; lia).
  - replace ((48 <=? c) && (c <=? 57)) with false by (symmetry; apply andb_false_iff; lia).
    replace ((97 <=? c) && (c <=? 102)) with false by (symmetry; apply andb_false_iff; lia).
    now replace ((65 <=? c) && (c <=? 70)) with true by (symmetry; apply andb_true_intro; lia).
Qed.

Lemma hex_value_hex c v : hex_value c = Some v -> hex c v.
Proof.
  unfold hex, hex_value.
  destruct ((48 <=? c) && (c <=? 57)) eqn:A.
  { intros [= <-]. apply andb_prop in A. left. lia. }
  destruct ((97 <=? c) && (c <=? 102)) eqn:B.
  { intros [= <-]. apply andb_prop in B. right. left. lia. }
  destruct ((65 <=? c) && (c <=? 70)) eqn:D; [|discriminate].
  intros [= <-]. apply andb_prop in D. right. right. lia.
Qed.

Lemma unit_read x u r : unit_text x u -> exists h, x = 92 :: 117 :: h /\ hex4 (h ++ r) = Some (u, r).
Proof.
  intros (a & b & c & d & a' & b' & c' & d' & -> & A & B & C & D & ->).
  exists [a; b; c; d]. split; [reflexivity|]. cbn [app hex4].
  now rewrite (hex_read a a' A), (hex_read b b' B), (hex_read c c' C), (hex_read d d' D).
Qed.

Lemma low_read y v r : unit_text y v -> low v -> low_escape (y ++ r) = Some (v, r).
Proof.
  intros Y L. destruct (unit_read y v r Y) as (h & -> & H). cbn [app low_escape].
  change ((92 =? 92) && (117 =? 117)) with true. cbn iota. rewrite H. unfold low in L.
  now replace ((56320 <=? v) && (v <=? 57343)) with true by (symmetry; apply andb_true_intro; lia).
Qed.

Lemma low_escape_inv t r v x : low_escape (t ++ 34 :: r) = Some (v, x) ->
  exists y t', t = y ++ t' /\ unit_text y v /\ low v.
Proof.
  intros H. destruct t as [|a t]; [cbn in H; destruct r; discriminate|].
  destruct t as [|b t].
  { cbn [app low_escape] in H. change (34 =? 117) with false in H. rewrite andb_false_r in H. discriminate. }
  cbn [app low_escape] in H.
  destruct ((a =? 92) && (b =? 117)) eqn:E; [|discriminate]. apply andb_prop in E as (E1 & E2).
  apply Z.eqb_eq in E1, E2. subst a b.
  destruct (hex4 (t ++ 34 :: r)) as [[v' x']|] eqn:G; [|discriminate].
  destruct ((56320 <=? v') && (v' <=? 57343)) eqn:L; [|discriminate]. injection H as <- <-.
  apply andb_prop in L.
  destruct t as [|a [|b [|c [|d t]]]]; cbn [app hex4] in G.
  - destruct r as [|? [|? [|? ?]]]; discriminate.
  - destruct r as [|? [|? ?]]; try discriminate.
    destruct (hex_value a); [|discriminate]. discriminate.
  - destruct r as [|? ?]; try discriminate.
    destruct (hex_value a), (hex_value b); discriminate.
  - destruct (hex_value a), (hex_value b), (hex_value c); discriminate.
  - destruct (hex_value a) as [a'|] eqn:A; [|discriminate].
    destruct (hex_value b) as [b'|] eqn:B; [|discriminate].
    destruct (hex_value c) as [c'|] eqn:C; [|discriminate].
    destruct (hex_value d) as [d'|] eqn:D; [|discriminate].
    injection G as <- <-. exists [92; 117; a; b; c; d], t. split; [reflexivity|].
    split; [|unfold low; lia].
    exists a, b, c, d, a', b', c', d'. repeat split; auto using hex_value_hex.
Qed.

Lemma string_read s t r fuel : jchars s t -> (List.length t < fuel)%nat ->
  scanstring fuel (t ++ 34 :: r) = Some (s, r).
Proof.
  intros J. revert fuel.
  induction J as [|c s t C1 C2 C3 J IH|c e s t I J IH|u x s t U N J IH|u v x y s t U V Hu Lv J IH];
    intros [|fuel] F; try (cbn in F; lia).
  - reflexivity.
  - cbn [app scanstring]. replace (c =? 34) with false by lia. replace (c =? 92) with false by lia.
    replace (c <? 32) with false by lia. rewrite IH by (cbn in F; lia). reflexivity.
  - cbn [app scanstring]. change (92 =? 34) with false. change (92 =? 92) with true. cbn iota.
    cbn in I.
    repeat (destruct I as [I|I]; [injection I as <- <-; cbn iota; cbn; rewrite IH by (cbn in F; lia); reflexivity|]).
    contradiction.
  - destruct (unit_read x u (t ++ 34 :: r) U) as (h & -> & H). rewrite <- app_assoc. cbn [app scanstring].
    change (92 =? 34) with false. change (92 =? 92) with true. change (117 =? 117) with true. cbn iota.
    rewrite H. rewrite app_length in F. cbn in F.
    destruct ((55296 <=? u) && (u <=? 56319)) eqn:E.
    + destruct (low_escape (t ++ 34 :: r)) as [[v z]|] eqn:L.
      * exfalso. apply N. apply andb_prop in E. split; [unfold high; lia|].
        destruct (low_escape_inv t r v z L) as (y & t' & T & Y & W). exists y, v, t'. auto.
      * rewrite IH by lia. reflexivity.
    + rewrite IH by lia. reflexivity.
  - destruct (unit_read x u (y ++ t ++ 34 :: r) U) as (h & -> & H). rewrite <- !app_assoc. cbn [app scanstring].
    change (92 =? 34) with false. change (92 =? 92) with true. change (117 =? 117) with true. cbn iota.
    rewrite H. rewrite !app_length in F. cbn in F. unfold high in Hu.
    replace ((55296 <=? u) && (u <=? 56319)) with true by (symmetry; apply andb_true_intro; lia).
    rewrite (low_read y v (t ++ 34 :: r) V Lv). rewrite IH by lia. reflexivity.
Qed.

(* ---- values ---- *)

Scheme jval_mut := Induction for jval Sort Prop
with jitems_mut := Induction for jitems Sort Prop
with jmembers_mut := Induction for jmembers Sort Prop.
Combined Scheme json_mut from jval_mut, jitems_mut, jmembers_mut.

Lemma text_eqb_spec a b : text_eqb a b = true <-> a = b.
Proof.
  revert b. induction a as [|x a IH]; intros [|y b]; cbn; try (split; congruence).
  rewrite andb_true_iff, Z.eqb_eq, IH. split; [intros (-> & ->)|intros [= -> ->]]; auto.
Qed.

Lemma assign_new d k x : ~ In k (map fst d) -> assign d k x = d ++ [(k, x)].
Proof.
  induction d as [|(k', x') d IH]; [reflexivity|]. cbn. intros N.
  destruct (text_eqb k k') eqn:E.
  - apply text_eqb_spec in E. subst. tauto.
  - rewrite IH by tauto. reflexivity.
Qed.

Lemma dict_of_nodup d : NoDup (map fst d) -> dict_of d = d.
Proof.
  intros N. unfold dict_of.
  assert (G : forall l acc, NoDup (map fst (acc ++ l)) ->
            fold_left (fun d p => assign d (fst p) (snd p)) l acc = acc ++ l).
  { induction l as [|(k, x) l IH]; intros acc A; [now rewrite app_nil_r|].
    cbn [fold_left fst snd]. rewrite assign_new.
    - rewrite IH by now rewrite <- app_assoc. now rewrite <- app_assoc.
    - rewrite map_app in A. cbn in A. apply NoDup_remove_2 in A. rewrite in_app_iff in A. tauto. }
  now apply (G d []).
Qed.

(* The first character of a value. *)
Lemma jval_head v t : jval v t ->
  exists c x, t = c :: x /\ is_ws c = false /\ c <> 93 /\ c <> 125.
Proof.
  intros J. inversion J; subst; try (eexists _, _; split; [reflexivity|]; repeat split; (reflexivity || lia)).
  match goal with H : jnumber _ _ |- _ => destruct (number_head _ _ H) as (c & x & -> & C) end.
  exists c, x. split; [reflexivity|]. repeat split; try lia.
  unfold is_ws. rewrite !orb_false_iff, !Z.eqb_neq. lia.
Qed.

Lemma jitems_head l t : jitems l t -> forall r, exists c x, skip (t ++ r) = c :: x /\ is_ws c = false /\ c <> 93.
Proof.
  intros [v w t' w' W J W'|v l' w t' w' r' W J W' I] r;
    destruct (jval_head _ _ J) as (c & x & -> & A & B & _);
    rewrite <- app_assoc, skip_white by exact W; cbn [app]; rewrite skip_other by exact A;
    eexists _, _; split; [reflexivity|now split|reflexivity|now split].
Qed.

Lemma jmembers_head d t : jmembers d t -> forall r, exists x, skip (t ++ r) = 34 :: x.
Proof.
  intros [k v w kt w' w'' t' w3 W J W' W'' V W3|k v d' w kt w' w'' t' w3 r' W J W' W'' V W3 I] r;
    rewrite <- app_assoc, skip_white by exact W; eexists; reflexivity.
Qed.

Lemma scan_mut :
  (forall v t, jval v t -> forall r fuel, stop r -> (List.length t < fuel)%nat ->
     scan fuel (t ++ r) = Some (v, r)) /\
  (forall l t, jitems l t -> forall r fuel, (S (List.length t) < fuel)%nat ->
     items fuel (skip (t ++ 93 :: r)) = Some (l, r)) /\
  (forall d t, jmembers d t -> forall r fuel, (List.length t < fuel)%nat ->
     members fuel (skip (t ++ 125 :: r)) = Some (d, r)).
Proof.
  apply json_mut.
  - intros r [|fuel] S F; [cbn in F; lia|]. reflexivity.
  - intros r [|fuel] S F; [cbn in F; lia|]. reflexivity.
  - intros r [|fuel] S F; [cbn in F; lia|]. reflexivity.
  - (* number *)
    intros v t J r [|fuel] S F; [cbn in F; lia|].
    pose proof (number_read v t r J S) as R. destruct (number_head v t J) as (c & x & -> & C).
    cbn [app] in *. cbn [scan]. rewrite R.
    replace (c =? 34) with false by lia. replace (c =? 123) with false by lia. replace (c =? 91) with false by lia.
    change (chars_of "null") with [110; 117; 108; 108]. change (chars_of "true") with [116; 114; 117; 101].
    change (chars_of "false") with [102; 97; 108; 115; 101]. cbn [word].
    replace (110 =? c) with false by lia. replace (116 =? c) with false by lia. replace (102 =? c) with false by lia.
    reflexivity.
  - (* string *)
    intros s t J r [|fuel] S F; [cbn in F; lia|]. cbn [app scan]. change (34 =? 34) with true. cbn iota.
    rewrite <- app_assoc. cbn [app].
    rewrite (string_read s t r _ J) by (rewrite app_length; cbn; lia). reflexivity.
  - (* [] *)
    intros w W r [|fuel] S F; [cbn in F; lia|]. cbn [app scan]. change (91 =? 34) with false.
    change (91 =? 123) with false. change (91 =? 91) with true. cbn iota.
    rewrite <- app_assoc, skip_white by exact W. reflexivity.
  - (* list *)
    intros l t J IH r [|fuel] S F; [cbn in F; lia|]. cbn [app scan]. change (91 =? 34) with false.
    change (91 =? 123) with false. change (91 =? 91) with true. cbn iota.
    rewrite <- app_assoc. cbn [app]. destruct (jitems_head l t J (93 :: r)) as (c & x & E & C & N).
    cbn [List.length] in F. rewrite app_length in F. cbn in F.
    pose proof (IH r fuel ltac:(lia)) as Q. rewrite E in Q |- *.
    replace (c =? 93) with false by lia. rewrite Q. reflexivity.
  - (* {} *)
    intros w W r [|fuel] S F; [cbn in F; lia|]. cbn [app scan]. change (123 =? 34) with false.
    change (123 =? 123) with true. cbn iota.
    rewrite <- app_assoc, skip_white by exact W. reflexivity.
  - (* object *)
    intros d t J IH N r [|fuel] S F; [cbn in F; lia|]. cbn [app scan]. change (123 =? 34) with false.
    change (123 =? 123) with true. cbn iota.
    rewrite <- app_assoc. cbn [app]. destruct (jmembers_head d t J (125 :: r)) as (x & E).
    cbn [List.length] in F. rewrite app_length in F. cbn in F.
    pose proof (IH r fuel ltac:(lia)) as Q. rewrite E in Q |- *.
    change (34 =? 125) with false. cbn iota. rewrite Q, (dict_of_nodup d N). reflexivity.
  - (* last item *)
    intros v w t w' W J IH W' r [|fuel] F; [cbn in F; lia|].
    rewrite !app_length in F. rewrite <- !app_assoc, skip_white by exact W.
    destruct (jval_head v t J) as (c & x & E & C & _).
    assert (K : skip (t ++ w' ++ 93 :: r) = t ++ w' ++ 93 :: r) by (subst t; apply skip_other, C).
    cbn [items]. rewrite K, IH; [|apply white_stop; [exact W'|cbn; lia]|lia].
    rewrite skip_white by exact W'. reflexivity.
  - (* more items *)
    intros v l w t w' r' W J IH W' I IHl r [|fuel] F; [cbn in F; lia|].
    rewrite !app_length in F. cbn [List.length] in F. rewrite <- !app_assoc, skip_white by exact W.
    destruct (jval_head v t J) as (c & x & E & C & _).
    assert (K : skip (t ++ w' ++ (44 :: r') ++ 93 :: r) = t ++ w' ++ 44 :: r' ++ 93 :: r) by (subst t; apply skip_other, C).
    cbn [items]. rewrite K, IH; [|apply white_stop; [exact W'|cbn; lia]|lia].
    rewrite skip_white by exact W'. rewrite skip_other by reflexivity.
    change (44 =? 93) with false. change (44 =? 44) with true. cbn iota.
    rewrite IHl by lia. reflexivity.
  - (* last member *)
    intros k v w kt w' w'' t w3 W Jk W' W'' J IH W3 r [|fuel] F; [cbn in F; lia|].
    repeat (rewrite app_length in F || cbn [List.length] in F).
    repeat (rewrite <- app_assoc || rewrite <- app_comm_cons). rewrite skip_white by exact W.
    rewrite skip_other by reflexivity. cbn [members]. change (34 =? 34) with true. cbn iota.
    rewrite (string_read k kt _ _ Jk) by (rewrite app_length; cbn; lia).
    rewrite skip_white by exact W'. rewrite skip_other by reflexivity. change (58 =? 58) with true. cbn iota.
    rewrite skip_white by exact W''.
    destruct (jval_head v t J) as (c & x & E & C & _).
    assert (K : skip (t ++ w3 ++ 125 :: r) = t ++ w3 ++ 125 :: r) by (subst t; apply skip_other, C).
    rewrite K, IH; [|apply white_stop; [exact W3|cbn; lia]|lia].
    rewrite skip_white by exact W3. reflexivity.
  - (* more members *)
    intros k v d w kt w' w'' t w3 r' W Jk W' W'' J IH W3 I IHd r [|fuel] F; [cbn in F; lia|].
    repeat (rewrite app_length in F || cbn [List.length] in F).
    repeat (rewrite <- app_assoc || rewrite <- app_comm_cons). rewrite skip_white by exact W.
    rewrite skip_other by reflexivity. cbn [members]. change (34 =? 34) with true. cbn iota.
    rewrite (string_read k kt _ _ Jk) by (rewrite app_length; cbn; lia).
    rewrite skip_white by exact W'. rewrite skip_other by reflexivity. change (58 =? 58) with true. cbn iota.
    rewrite skip_white by exact W''.
    destruct (jval_head v t J) as (c & x & E & C & _).
    assert (K : skip (t ++ w3 ++ 44 :: r' ++ 125 :: r) = t ++ w3 ++ 44 :: r' ++ 125 :: r) by (subst t; apply skip_other, C).
    rewrite K, IH; [|apply white_stop; [exact W3|cbn; lia]|lia].
    rewrite skip_white by exact W3. rewrite skip_other by reflexivity.
    change (44 =? 125) with false. change (44 =? 44) with true. cbn iota.
    rewrite IHd by lia. reflexivity.
Qed.

Lemma loads_read v t : json_text v t -> loads t = Some v.
Proof.
  intros (w & t' & w' & -> & W & J & W'). unfold loads. rewrite skip_white by exact W.
  destruct (jval_head v t' J) as (c & x & E & C & _).
  assert (K : skip (t' ++ w') = t' ++ w') by (subst t'; apply skip_other, C).
  rewrite K. destruct scan_mut as (M & _). rewrite (M v t' J).
  - now rewrite skip_white_nil.
  - rewrite <- (app_nil_r w'). now apply white_stop.
  - rewrite !app_length. lia.
Qed.

(* ---- dumps ---- *)

Lemma dec_loop_ok fuel n : 0 <= n < 2 ^ (Z.of_nat (S fuel)) ->
  decimal (dec_loop (S fuel) n) n /\ (0 < n -> hd 0 (dec_loop (S fuel) n) <> 48).
Proof.
  revert n. induction fuel as [|fuel IH]; intros n N.
  - change (2 ^ Z.of_nat 1) with 2 in N. cbn [dec_loop]. replace (n <? 10) with true by lia.
    split; [constructor; lia|]. cbn [hd]. lia.
  - remember (S fuel) as f eqn:F. cbn [dec_loop]. destruct (n <? 10) eqn:E.
    + split; [constructor; lia|]. cbn [hd]. lia.
    + assert (Q : 0 <= n / 10 < 2 ^ Z.of_nat f).
      { replace (Z.of_nat (S f)) with (1 + Z.of_nat f) in N by lia.
        rewrite Z.pow_add_r in N by lia. split; [apply Z.div_pos; lia|]. apply Z.div_lt_upper_bound; lia. }
      destruct (IH (n / 10) Q) as (D & H).
      pose proof (Z.mod_pos_bound n 10 ltac:(lia)) as M.
      pose proof (Z.div_mod n 10 ltac:(lia)) as DM.
      split.
      * pose proof (d_more _ _ (n mod 10) D ltac:(lia)) as G. rewrite <- DM in G. exact G.
      * intros _. destruct (decimal_head _ _ D) as (c & x & G & _). rewrite G in H |- *. cbn [hd app] in *.
        apply H. apply Z.ltb_ge in E. apply Z.div_str_pos. lia.
Qed.

Lemma dec_ok n : 0 <= n -> integral (dec n) n.
Proof.
  intros N. unfold dec.
  assert (B : 0 <= n < 2 ^ Z.of_nat (S (Z.to_nat (Z.log2 n)))).
  { split; [exact N|]. rewrite Nat2Z.inj_succ, Z2Nat.id by apply Z.log2_nonneg.
    destruct (Z.eq_dec n 0) as [->|Z0]; [reflexivity|]. apply Z.log2_spec. lia. }
  destruct (dec_loop_ok _ n B) as (D & H). split; [exact D|].
  destruct (Z.eq_dec n 0) as [->|Z0]; [left; reflexivity|right; apply H; lia].
Qed.

Lemma int_ok n : jnumber (VInt n) (int_text n).
Proof.
  unfold int_text. destruct (n <? 0) eqn:E.
  - replace (VInt n) with (VInt (if true then - (- n) else - n)) by (f_equal; lia).
    apply (n_int true). apply dec_ok. lia.
  - apply (n_int false). apply dec_ok. lia.
Qed.

Lemma two_digits_ok n : 0 <= n -> decimal (two_digits n) n.
Proof.
  intros N. unfold two_digits. destruct (n <? 10) eqn:E.
  - assert (D : dec n = [48 + n]).
    { unfold dec. cbn [dec_loop]. now rewrite E. }
    rewrite D. replace n with (10 * 0 + n) at 2 by lia. apply (d_more [48] 0 n); [|lia].
    apply (d_one 0). lia.
  - apply dec_ok, N.
Qed.

Lemma exp_ok e : exp_part e (exp_text e).
Proof.
  destruct e as [n|]; [|constructor]. cbn [exp_text]. destruct (n <? 0) eqn:E.
  - replace (Some n) with (Some (- - n)) by (f_equal; lia). apply e_minus; [lia|]. apply two_digits_ok. lia.
  - apply e_plus; [lia|]. apply two_digits_ok. lia.
Qed.

Lemma real_ok neg n fr e : 0 <= n -> Forall (fun d => 0 <= d <= 9) fr -> fr <> [] \/ e <> None ->
  jnumber (VReal neg n fr e) (real_text neg n fr e).
Proof.
  intros N F X. unfold real_text. apply n_real; [now apply dec_ok| |apply exp_ok|exact X].
  destruct fr; [constructor|]. constructor; [discriminate|exact F].
Qed.

Lemma hex_digit_ok n : 0 <= n <= 15 -> hex (hex_digit n) n.
Proof. intros N. unfold hex, hex_digit. destruct (n <? 10) eqn:E; lia. Qed.

Lemma u_escape_ok n : 0 <= n < 65536 -> unit_text (u_escape n) n.
Proof.
  intros N.
  assert (A : 0 <= n / 4096 <= 15) by (split; [apply Z.div_pos; lia|apply Z.lt_succ_r; apply Z.div_lt_upper_bound; lia]).
  pose proof (Z.mod_pos_bound (n / 256) 16 ltac:(lia)) as B.
  pose proof (Z.mod_pos_bound (n / 16) 16 ltac:(lia)) as C.
  pose proof (Z.mod_pos_bound n 16 ltac:(lia)) as D.
  exists (hex_digit (n / 4096)), (hex_digit (n / 256 mod 16)), (hex_digit (n / 16 mod 16)), (hex_digit (n mod 16)).
  exists (n / 4096), (n / 256 mod 16), (n / 16 mod 16), (n mod 16).
  split; [reflexivity|]. split; [apply hex_digit_ok; lia|]. split; [apply hex_digit_ok; lia|].
  split; [apply hex_digit_ok; lia|]. split; [apply hex_digit_ok; lia|].
  pose proof (Z.div_mod n 16 ltac:(lia)) as E1. pose proof (Z.div_mod (n / 16) 16 ltac:(lia)) as E2.
  pose proof (Z.div_mod (n / 256) 16 ltac:(lia)) as E3.
  rewrite Z.div_div in E2 by lia. rewrite Z.div_div in E3 by lia. change (16 * 16) with 256 in E2.
  change (256 * 16) with 4096 in E3. lia.
Qed.

Lemma unit_unique x u v : unit_text x u -> unit_text x v -> u = v.
Proof.
  intros U V. destruct (unit_read x u [] U) as (h & -> & H). destruct (unit_read _ v [] V) as (h' & E & H').
  injection E as <-. congruence.
Qed.

Lemma u_escape_form n : exists a b c d, u_escape n = [92; 117; a; b; c; d].
Proof. repeat eexists. Qed.

(* The escape of a character starts with \uXXXX of a low surrogate only when the
   character is one. *)
Lemma escape_low b t y v t' : 0 <= b < 1114112 -> escape b ++ t = y ++ t' -> unit_text y v -> low v -> low b.
Proof.
  intros B E Y L.
  assert (F : forall n z, 0 <= n < 65536 -> u_escape n ++ z = y ++ t' -> n = v).
  { intros n z N G. pose proof (u_escape_ok n N) as U. destruct Y as (a1 & b1 & c1 & d1 & a' & b' & c' & d' & -> & Y).
    destruct (u_escape_form n) as (a2 & b2 & c2 & d2 & W). rewrite W in *. cbn [app] in G. injection G as -> -> -> -> ->.
    apply (unit_unique _ n v U). exists a1, b1, c1, d1, a', b', c', d'. auto. }
  assert (G : exists a b c d, y = [92; 117; a; b; c; d]).
  { destruct Y as (a1 & b1 & c1 & d1 & a' & b' & c' & d' & -> & Y). repeat eexists. }
  destruct G as (a1 & b1 & c1 & d1 & ->).
  unfold escape in E.
  destruct (b =? 34); [cbn [app] in E; discriminate|].
  destruct (b =? 92) eqn:E92; [cbn [app] in E; discriminate|].
  destruct ((32 <=? b) && (b <=? 126)); [cbn [app] in E; apply (f_equal (hd 0)) in E; cbn in E; lia|].
  destruct (b =? 10); [cbn [app] in E; discriminate|].
  destruct (b =? 13); [cbn [app] in E; discriminate|].
  destruct (b =? 9); [cbn [app] in E; discriminate|].
  destruct (b =? 12); [cbn [app] in E; discriminate|].
  destruct (b =? 8); [cbn [app] in E; discriminate|].
  destruct (b <? 65536) eqn:S.
  - rewrite (F b t); [exact L|lia|exact E].
  - exfalso. rewrite <- app_assoc in E.
    assert (Q : 0 <= (b - 65536) / 1024 < 1024) by (split; [apply Z.div_pos; lia|apply Z.div_lt_upper_bound; lia]).
    apply F in E; [|lia]. unfold low in L. lia.
Qed.

Lemma quote_chars s : code_points s -> unpaired s -> jchars s (flat_map escape s).
Proof.
  induction s as [|c s IH]; intros C U; [constructor|].
  inversion C as [|? ? C1 C2]; subst.
  assert (U' : unpaired s) by (destruct s; [exact Logic.I|apply U]).
  specialize (IH C2 U'). cbn [flat_map]. unfold escape at 1.
  destruct (c =? 34) eqn:E1; [apply Z.eqb_eq in E1; subst; apply c_short; [cbn; tauto|exact IH]|].
  destruct (c =? 92) eqn:E2; [apply Z.eqb_eq in E2; subst; apply c_short; [cbn; tauto|exact IH]|].
  destruct ((32 <=? c) && (c <=? 126)) eqn:E3; [apply andb_prop in E3; apply c_plain; [lia..|exact IH]|].
  destruct (c =? 10) eqn:E4; [apply Z.eqb_eq in E4; subst; apply c_short; [cbn; tauto|exact IH]|].
  destruct (c =? 13) eqn:E5; [apply Z.eqb_eq in E5; subst; apply c_short; [cbn; tauto|exact IH]|].
  destruct (c =? 9) eqn:E6; [apply Z.eqb_eq in E6; subst; apply c_short; [cbn; tauto|exact IH]|].
  destruct (c =? 12) eqn:E7; [apply Z.eqb_eq in E7; subst; apply c_short; [cbn; tauto|exact IH]|].
  destruct (c =? 8) eqn:E8; [apply Z.eqb_eq in E8; subst; apply c_short; [cbn; tauto|exact IH]|].
  destruct (c <? 65536) eqn:E9.
  - apply c_unit; [apply u_escape_ok; lia| |exact IH].
    intros (H & y & v & t' & T & Y & L). destruct s as [|b s].
    + cbn in T. destruct Y as (a1 & b1 & c1 & d1 & a' & b' & c' & d' & -> & Y). discriminate.
    + cbn [flat_map] in T. inversion C2; subst.
      apply (escape_low b _ y v t') in T; [|assumption..]. destruct U as (U & _). tauto.
  - rewrite <- app_assoc.
    assert (Q : 0 <= (c - 65536) / 1024 < 1024) by (split; [apply Z.div_pos; lia|apply Z.div_lt_upper_bound; lia]).
    pose proof (Z.mod_pos_bound (c - 65536) 1024 ltac:(lia)) as M.
    pose proof (Z.div_mod (c - 65536) 1024 ltac:(lia)) as DM.
    replace (c :: s) with (65536 + (55296 + (c - 65536) / 1024 - 55296) * 1024 +
       (56320 + (c - 65536) mod 1024 - 56320) :: s) by (f_equal; lia).
    apply c_pair; [apply u_escape_ok; lia|apply u_escape_ok; lia|unfold high; lia|unfold low; lia|exact IH].
Qed.

(* Induction on values *)
Lemma value_rect' (P : value -> Prop) :
  P VNull -> (forall b, P (VBool b)) -> (forall n, P (VInt n)) -> (forall neg n fr e, P (VReal neg n fr e)) ->
  (forall s, P (VStr s)) -> (forall l, Forall P l -> P (VList l)) ->
  (forall d, Forall (fun p => P (snd p)) d -> P (VObj d)) -> forall v, P v.
Proof.
  intros Hn Hb Hi Hr Hs Hl Ho. fix IH 1. intros [|b|n|neg n fr e|s|l|d].
  - exact Hn.
  - apply Hb.
  - apply Hi.
  - apply Hr.
  - apply Hs.
  - apply Hl. induction l as [|v l IHl]; constructor; [apply IH|exact IHl].
  - apply Ho. induction d as [|p d IHd]; constructor; [apply IH|exact IHd].
Qed.

Lemma white_nil : white []. Proof. constructor. Qed.
Lemma white_space : white [32]. Proof. repeat constructor. Qed.

Lemma join_items l : l <> [] -> Forall (fun v => jval v (dumps v)) l ->
  forall w, white w -> jitems l (w ++ join (map dumps l)).
Proof.
  intros N F. induction F as [|v l V F IH]; [congruence|]. intros w W.
  destruct l as [|v' l].
  - cbn [map join]. rewrite <- (app_nil_r (dumps v)). apply i_last; [exact W|exact V|apply white_nil].
  - change (join (map dumps (v :: v' :: l))) with (dumps v ++ 44 :: 32 :: join (map dumps (v' :: l))).
    apply (i_more v (v' :: l) w (dumps v) []); [exact W|exact V|apply white_nil|].
    apply (IH ltac:(discriminate) [32] white_space).
Qed.

Definition member_text (p : text * value) : text :=
  match p with (k, x) => quote k ++ 58 :: 32 :: dumps x end.

Lemma join_members d : d <> [] ->
  Forall (fun p => code_points (fst p) /\ unpaired (fst p)) d -> Forall (fun p => jval (snd p) (dumps (snd p))) d ->
  forall w, white w -> jmembers d (w ++ join (map member_text d)).
Proof.
  intros N K F. induction F as [|(k, v) d V F IH]; [congruence|]. intros w W.
  inversion K as [|? ? K1 K2]; subst. destruct K1 as (K1 & K1'). cbn [fst snd] in *.
  pose proof (quote_chars k K1 K1') as Q.
  assert (T : forall z, member_text (k, v) ++ z =
     34 :: flat_map escape k ++ 34 :: [] ++ 58 :: [32] ++ dumps v ++ [] ++ z).
  { intros z. unfold member_text, quote. cbn [app]. rewrite <- !app_assoc. cbn [app]. reflexivity. }
  destruct d as [|p d].
  - cbn [map join]. rewrite <- (app_nil_r (member_text (k, v))), T.
    apply (m_last k v w _ [] [32] (dumps v) []); [exact W|exact Q|apply white_nil|apply white_space|exact V|apply white_nil].
  - change (join (map member_text ((k, v) :: p :: d)))
      with (member_text (k, v) ++ 44 :: 32 :: join (map member_text (p :: d))).
    rewrite T.
    apply (m_more k v (p :: d) w _ [] [32] (dumps v) []); [exact W|exact Q|apply white_nil|apply white_space|exact V|apply white_nil|].
    apply (IH ltac:(discriminate) K2 [32] white_space).
Qed.

Lemma dumps_jval v : writable v -> jval v (dumps v).
Proof.
  induction v as [|b|n|neg n fr e|s|l IH|d IH] using value_rect'; intros W; inversion W; subst.
  - constructor.
  - destruct b; constructor.
  - apply j_number, int_ok.
  - apply j_number. now apply real_ok.
  - apply j_string. now apply quote_chars.
  - cbn [dumps]. destruct l as [|v l]; [apply (j_no_items []), white_nil|].
    apply j_list. apply (join_items (v :: l) ltac:(discriminate)) with (w := []); [|apply white_nil].
    match goal with H : Forall writable _ |- _ => rename H into Ws end.
    rewrite Forall_forall in *. auto.
  - cbn [dumps]. destruct d as [|p d]; [apply (j_no_members []), white_nil|].
    apply j_object; [|assumption].
    apply (join_members (p :: d) ltac:(discriminate)) with (w := []); [assumption| |apply white_nil].
    match goal with H : Forall (fun p => writable (snd p)) _ |- _ => rename H into Ws end.
    rewrite Forall_forall in *. auto.
Qed.

Lemma dumps_text v : writable v -> json_text v (dumps v).
Proof.
  intros W. exists [], (dumps v), []. rewrite app_nil_r.
  split; [reflexivity|]. split; [apply white_nil|]. split; [now apply dumps_jval|apply white_nil].
Qed.

Lemma body_text v : writable v -> json_text v (json_body v).
Proof.
  intros W. exists [], (dumps v), [10].
  split; [reflexivity|]. split; [apply white_nil|]. split; [now apply dumps_jval|].
  constructor; [auto|constructor].
Qed.

(* ---- printable ---- *)

Lemma printable_app a b : printable a -> printable b -> printable (a ++ b).
Proof. intros A B. apply Forall_app. now split. Qed.

Lemma decimal_printable t n : decimal t n -> printable t.
Proof.
  induction 1 as [d D|t n d T IH D]; [repeat constructor; lia|].
  apply printable_app; [exact IH|repeat constructor; lia].
Qed.

Lemma hex_digit_printable n : 0 <= n <= 15 -> 32 <= hex_digit n <= 126.
Proof. unfold hex_digit. destruct (n <? 10) eqn:E; lia. Qed.

Lemma u_escape_printable n : 0 <= n < 65536 -> printable (u_escape n).
Proof.
  intros N. unfold u_escape.
  assert (A : 0 <= n / 4096 <= 15) by (split; [apply Z.div_pos; lia|apply Z.lt_succ_r; apply Z.div_lt_upper_bound; lia]).
  pose proof (Z.mod_pos_bound (n / 256) 16 ltac:(lia)) as B.
  pose proof (Z.mod_pos_bound (n / 16) 16 ltac:(lia)) as C.
  pose proof (Z.mod_pos_bound n 16 ltac:(lia)) as D.
  repeat apply Forall_cons; try lia; try (apply hex_digit_printable; lia). constructor.
Qed.

Lemma escape_printable c : 0 <= c < 1114112 -> printable (escape c).
Proof.
  intros C. unfold escape, printable.
  destruct (c =? 34); [repeat constructor; lia|].
  destruct (c =? 92); [repeat constructor; lia|].
  destruct ((32 <=? c) && (c <=? 126)) eqn:E; [apply andb_prop in E; repeat constructor; lia|].
  destruct (c =? 10); [repeat constructor; lia|].
  destruct (c =? 13); [repeat constructor; lia|].
  destruct (c =? 9); [repeat constructor; lia|].
  destruct (c =? 12); [repeat constructor; lia|].
  destruct (c =? 8); [repeat constructor; lia|].
  destruct (c <? 65536) eqn:S; [apply u_escape_printable; lia|].
  assert (Q : 0 <= (c - 65536) / 1024 < 1024) by (split; [apply Z.div_pos; lia|apply Z.div_lt_upper_bound; lia]).
  pose proof (Z.mod_pos_bound (c - 65536) 1024 ltac:(lia)) as M.
  apply printable_app; apply u_escape_printable; lia.
Qed.

Lemma quote_printable s : code_points s -> printable (quote s).
Proof.
  intros C. unfold quote. apply (Forall_cons 34); [lia|]. apply printable_app; [|repeat constructor; lia].
  induction C as [|c s C1 C2 IH]; [constructor|]. cbn [flat_map]. apply printable_app; [now apply escape_printable|exact IH].
Qed.

Lemma join_printable l : Forall printable l -> printable (join l).
Proof.
  induction 1 as [|x l X F IH]; [constructor|]. destruct l as [|y l]; [exact X|].
  change (join (x :: y :: l)) with (x ++ 44 :: 32 :: join (y :: l)).
  apply printable_app; [exact X|]. constructor; [lia|]. constructor; [lia|exact IH].
Qed.

Lemma int_printable n : printable (int_text n).
Proof.
  unfold int_text. destruct (n <? 0) eqn:E.
  - constructor; [lia|]. apply (decimal_printable _ (- n)). apply dec_ok. lia.
  - apply (decimal_printable _ n). apply dec_ok. lia.
Qed.

Lemma exp_printable e : printable (exp_text e).
Proof.
  destruct e as [n|]; [|constructor]. cbn [exp_text]. constructor; [lia|].
  destruct (n <? 0) eqn:E; (constructor; [lia|]); eapply decimal_printable; apply two_digits_ok; lia.
Qed.

Lemma dumps_printable v : writable v -> printable (dumps v).
Proof.
  induction v as [|b|n|neg n fr e|s|l IH|d IH] using value_rect'; intros W; inversion W; subst.
  - change (dumps VNull) with [110; 117; 108; 108]. repeat (apply Forall_cons; [lia|]). apply Forall_nil.
  - destruct b; [change (dumps (VBool true)) with [116; 114; 117; 101]|
      change (dumps (VBool false)) with [102; 97; 108; 115; 101]];
      repeat (apply Forall_cons; [lia|]); apply Forall_nil.
  - apply int_printable.
  - cbn [dumps]. unfold real_text. apply printable_app; [destruct neg; repeat constructor; lia|].
    apply printable_app; [apply (decimal_printable _ n); apply dec_ok; assumption|].
    apply printable_app; [|apply exp_printable].
    assert (D : printable (map (fun d => 48 + d) fr)).
    { apply Forall_map. match goal with H : Forall _ fr |- _ => revert H end. apply Forall_impl. intros; lia. }
    destruct fr; [constructor|]. constructor; [lia|exact D].
  - now apply quote_printable.
  - cbn [dumps]. apply (Forall_cons 91); [lia|]. apply printable_app; [|repeat constructor; lia].
    apply join_printable. apply Forall_map. rewrite Forall_forall in *. auto.
  - cbn [dumps]. apply (Forall_cons 123); [lia|]. apply printable_app; [|repeat constructor; lia].
    apply join_printable. apply Forall_map.
    match goal with H : Forall (fun p => writable (snd p)) _ |- _ => rename H into Ws end.
    match goal with H : Forall (fun p => code_points (fst p) /\ _) _ |- _ => rename H into Ks end.
    rewrite Forall_forall in *. intros (k, x) I. apply printable_app; [apply quote_printable; apply (Ks (k, x) I)|].
    constructor; [lia|]. constructor; [lia|]. apply (IH (k, x) I). apply (Ws (k, x) I).
Qed.

(* ---- equal names ---- *)

Lemma assign_in d k x : NoDup (map fst d) ->
  NoDup (map fst (assign d k x)) /\ (forall k', In k' (map fst (assign d k x)) <-> k' = k \/ In k' (map fst d)) /\
  (forall k' x', In (k', x') (assign d k x) <-> (k' = k /\ x' = x) \/ (k' <> k /\ In (k', x') d)).
Proof.
  induction d as [|(k0, x0) d IH]; intros N.
  - cbn. split; [repeat constructor; tauto|]. split; [intros; intuition congruence|].
    intros. split; [intros [H|[]]; injection H as <- <-; auto|]. intros [(-> & ->)|(_ & [])]. auto.
  - cbn [map fst] in N. inversion N as [|? ? N1 N2]; subst. destruct (IH N2) as (A & B & C).
    cbn [assign]. destruct (text_eqb k k0) eqn:E.
    + apply text_eqb_spec in E. subst k0. split; [exact N|]. split; [cbn; intuition congruence|].
      intros k' x'. cbn. split.
      * intros [H|H]; [injection H as <- <-; auto|].
        right. split; [|auto]. intros ->. apply N1. apply (in_map fst) in H. exact H.
      * intros [(-> & ->)|(Hn & [H|H])]; auto. injection H as <- <-. congruence.
    + assert (K : k <> k0) by (intros ->; rewrite (proj2 (text_eqb_spec k0 k0) eq_refl) in E; discriminate).
      split; [|split].
      * cbn [map fst]. constructor; [|exact A]. rewrite B. intros [H|H]; [congruence|tauto].
      * intros k'. cbn [map fst In]. rewrite B. intuition congruence.
      * intros k' x'. cbn [In]. rewrite C. split.
        -- intros [H|[H|(Hn & H)]]; [injection H as <- <-; right; split; auto|auto|auto].
        -- intros [H|(Hn & [H|H])]; auto.
Qed.

Lemma last_member_in k d x : last_member k d x -> In k (map fst d).
Proof. induction 1; cbn; auto. Qed.

Lemma last_member_snoc d k x k' x' :
  last_member k' (d ++ [(k, x)]) x' <-> (k' = k /\ x' = x) \/ (k' <> k /\ last_member k' d x').
Proof.
  induction d as [|p d IH].
  - cbn. split.
    + inversion 1; subst; auto. match goal with H : last_member _ [] _ |- _ => inversion H end.
    + intros [(-> & ->)|(_ & H)]; [apply l_here; cbn; auto|inversion H].
  - cbn [app]. split.
    + inversion 1 as [y e N E|q y e L E]; subst.
      * right. rewrite map_app, in_app_iff in N. cbn in N. split; [intuition congruence|]. apply l_here. tauto.
      * apply IH in L. destruct L as [L|(L1 & L2)]; [auto|]. right. split; [exact L1|now apply l_later].
    + intros [H|(Hn & H)]; [apply l_later, IH; auto|].
      inversion H as [y e N E|q y e L E]; subst.
      * apply l_here. rewrite map_app, in_app_iff. cbn. intuition congruence.
      * apply l_later, IH. auto.
Qed.

Lemma dict_of_last d : NoDup (map fst (dict_of d)) /\ (forall k x, In (k, x) (dict_of d) <-> last_member k d x).
Proof.
  unfold dict_of. induction d as [|(k, x) d IH] using rev_ind.
  - cbn. split; [constructor|]. intros. split; [tauto|inversion 1].
  - rewrite fold_left_app. cbn [fold_left fst snd]. destruct IH as (A & B).
    destruct (assign_in _ k x A) as (N & _ & I). split; [exact N|].
    intros k' x'. rewrite I, last_member_snoc, B. tauto.
Qed.

Lemma loads_members d t : jmembers d t -> loads (123 :: t ++ [125]) = Some (VObj (dict_of d)).
Proof.
  intros J. unfold loads. rewrite skip_other by reflexivity.
  remember (List.length (123 :: t ++ [125])) as n eqn:L. cbn [List.length] in L. rewrite app_length in L. cbn in L.
  cbn [scan]. change (123 =? 34) with false. change (123 =? 123) with true. cbn iota.
  destruct (jmembers_head d t J [125]) as (x & E).
  destruct scan_mut as (_ & _ & M). specialize (M d t J [] n ltac:(lia)). rewrite E in M |- *.
  change (34 =? 125) with false. cbn iota. rewrite M. reflexivity.
Qed.

(* ---- lines ---- *)

Lemma printable_no_newline t : printable t -> ~ In 10 t.
Proof. intros P H. unfold printable in P. rewrite Forall_forall in P. specialize (P 10 H). lia. Qed.

Lemma split_line a b t u : ~ In 10 a -> ~ In 10 b -> a ++ 10 :: t = b ++ 10 :: u -> a = b /\ t = u.
Proof.
  revert b. induction a as [|x a IH]; intros [|y b] A B E.
  - injection E as ->. auto.
  - apply (f_equal (hd 0)) in E. cbn [app hd] in E. exfalso. apply B. left. auto.
  - apply (f_equal (hd 0)) in E. cbn [app hd] in E. exfalso. apply A. left. exact E.
  - cbn [app] in E. injection E as -> E. apply IH in E as (-> & ->); [auto|..]; cbn in *; tauto.
Qed.

Lemma lines_unique t ls : lines_of t ls -> forall ls', lines_of t ls' -> ls = ls'.
Proof.
  induction 1 as [|l t ls N L IH]; intros ls' L'.
  - inversion L' as [|l' t' ls'' N' L'' E]; [reflexivity|]. exfalso. symmetry in E. now apply app_cons_not_nil in E.
  - inversion L' as [E|l' t' ls'' N' L'' E]; [exfalso; now apply app_cons_not_nil in E|].
    apply split_line in E as (<- & <-); [|assumption..]. f_equal. now apply IH.
Qed.
