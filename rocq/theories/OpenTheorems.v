(* The image of a ticket is opened for what the ticket permits, and nothing is
   changed by that. *)
From Coq Require Import ZArith List Bool String Lia Arith.
From Verif Require Import UrlModel OpenModel OpenSpec OpenProofs.
Import ListNotations.
Open Scope Z_scope.

(* The one new descriptor is for the path in the URL, for direct I/O, for
   writing only if the ticket permits it; the backend has the options of the
   ticket and of the configuration. *)
Theorem image_opened w t c x b w' :
  get_file w t c x = Done b w' ->
  exists fl, fds w' = (io_fd (b_fio b), (p_path (t_url t), fl)) :: fds w /\
    can_read fl /\ (can_write fl <-> In (lit "write") (t_ops t)) /\ f_direct fl = true /\
    same_files w w' /\ p_scheme (t_url t) = lit "file" /\
    b_name b = p_path (t_url t) /\ b_sparse b = t_sparse t /\ b_max b = c_max c /\
    (b_block b = true <-> exists d, files w (p_path (t_url t)) = Some (File Block d)) /\
    (b_block b = true -> b_block_size b = 512) /\ (b_block b = false -> x_detect x = Some (b_block_size b)).
Proof.
  unfold get_file, open_call. destruct (module_of (p_scheme (t_url t))) as [m|] eqn:M; [|discriminate].
  cbn [k_module k_url k_mode k_sparse k_max]. destruct m; try discriminate.
  assert (SC : p_scheme (t_url t) = lit "file").
  { unfold module_of in M. destruct (str_eqb (p_scheme (t_url t)) (lit "file")) eqn:E; [apply str_eqb_eq; exact E|].
    repeat match type of M with (if ?b then _ else _) = _ => destruct b; [discriminate|] end. discriminate. }
  unfold file_open. pose proof (util_open_cases w (p_path (t_url t)) _ (x_denied x) (mode_of t)) as U.
  destruct (util_open w (p_path (t_url t)) _ true false (x_denied x)) as [fio w1|e w1]; [|discriminate].
  destruct U as (F1 & F2 & (k & d & E & K) & fl & -> & C & T & D & A). cbn [files]. rewrite E.
  destruct (x_fstat x); [|discriminate]. cbn [negb].
  destruct (make _ fio (p_path (t_url t)) (t_sparse t) (c_max c) None x) as [b'|] eqn:MK; [|discriminate].
  intros [= <- <-]. unfold make in MK.
  assert (MB : b_fio b' = fio /\ b_name b' = p_path (t_url t) /\ b_sparse b' = t_sparse t /\ b_max b' = c_max c /\
               (b_block b' = true <-> k = Block) /\ (b_block b' = true -> b_block_size b' = 512) /\
               (b_block b' = false -> x_detect x = Some (b_block_size b'))).
  { destruct k; try congruence.
    - destruct (x_detect x) as [n|] eqn:X; [|discriminate]. injection MK as <-. cbn. repeat split; congruence.
    - injection MK as <-. cbn. repeat split; congruence. }
  destruct MB as (B1 & B2 & B3 & B4 & B5 & B6 & B7). exists fl. cbn [fds]. rewrite B1, F1.
  split; [reflexivity|]. unfold can_read, can_write. rewrite A.
  split; [|split; [|split; [exact D|split; [intros q; reflexivity|repeat (split; [assumption|])]]]].
  - destruct (existsb (str_eqb (lit "write")) (t_ops t)); vm_compute; discriminate.
  - destruct (existsb (str_eqb (lit "write")) (t_ops t)) eqn:W.
    + apply existsb_in in W. split; [auto|]. intros _. vm_compute. discriminate.
    + split; [intros X; exfalso; apply X; reflexivity|]. intros X. apply existsb_in in X. congruence.
  - split; [|auto]. rewrite B5. split; [intros ->; eauto|]. intros (d' & X). congruence.
Qed.

(* A failing open changes no file and leaves no descriptor, unless the path is a
   directory. *)
Theorem failed_open_partial w t c x e w' :
  sound w -> get_file w t c x = Raises e w' ->
  same_files w w' /\
  ((forall d, files w (p_path (t_url t)) <> Some (File Directory d)) -> fds w' = fds w).
Proof.
  intros S. unfold get_file, open_call. destruct (module_of (p_scheme (t_url t))) as [m|]; [|intros [= <- <-]; split; [intros p; reflexivity|reflexivity]].
  cbn [k_module k_url k_mode k_sparse k_max].
  destruct m; try (intros [= <- <-]; split; [intros p; reflexivity|reflexivity]).
  unfold file_open. pose proof (util_open_cases w (p_path (t_url t)) _ (x_denied x) (mode_of t)) as U.
  destruct (util_open w (p_path (t_url t)) _ true false (x_denied x)) as [fio w1|e1 w1].
  - destruct U as (F1 & F2 & _ & fl & -> & _). rewrite F1. cbn [files].
    destruct (x_fstat x); cbn [negb].
    + destruct (make _ fio (p_path (t_url t)) (t_sparse t) (c_max c) None x); [discriminate|].
      intros [= <- <-]. split; [intros p; reflexivity|]. intros _. apply close_new. exact S.
    + intros [= <- <-]. split; [intros p; reflexivity|]. intros _. apply close_new. exact S.
  - intros [= <- <-]. destruct U as [->|(d & fl & E & ->)]; (split; [intros p; reflexivity|]); [reflexivity|].
    intros N. destruct (N d E).
Qed.

(* A directory that can be opened for direct I/O leaves a descriptor behind. *)
Theorem directory_leak_refuted :
  exists w t c x e w', sound w /\ get_file w t c x = Raises e w' /\ fds w' <> fds w.
Proof.
  exists (World (fun _ => Some (File Directory [])) [] 0), (Ticket (Parsed (lit "file") [] (lit "/tmp")) [lit "read"] false false),
    (Config [] [] 8 0 0 0), (Answers false true (Some 512)).
  eexists _, _. split; [intros fd d []|]. split; [reflexivity|]. discriminate.
Qed.

(* The path is the file name that was put into the URL. *)
Theorem file_name_partial netloc_ok f u :
  netloc_ok [] = true -> Forall plain f -> hd_error f = Some 47 -> url_of netloc_ok f u ->
  p_scheme u = lit "file" /\ p_path u = f.
Proof.
  intros N P H. destruct f as [|c f]; [discriminate|]. injection H as ->. unfold url_of, urlparse.
  assert (A : skip_while (fun c => (0 <=? c) && (c <=? 32)) (lit "file://" ++ 47 :: f) = lit "file://" ++ 47 :: f) by reflexivity.
  rewrite A. clear A.
  assert (B : filter (fun c => negb ((c =? 9) || (c =? 13) || (c =? 10))) (lit "file://" ++ 47 :: f) = lit "file://" ++ 47 :: f).
  { apply filter_all. apply Forall_app. split; [repeat constructor|]. eapply Forall_impl; [|exact P].
    intros a (_ & _ & X & Y & Z). cbv beta. rewrite negb_true_iff, !orb_false_iff, !Z.eqb_neq. auto. }
  rewrite B. clear B.
  assert (C : split_scheme (lit "file://" ++ 47 :: f) = (lit "file", 47 :: 47 :: 47 :: f)) by reflexivity.
  rewrite C. clear C. cbn [span]. change (not_delim 47) with false. cbv iota. rewrite N. intros [= <-]. cbn [p_scheme p_path].
  split; [reflexivity|]. change (in_path 47) with true. cbv iota. rewrite span_all; [reflexivity|].
  inversion P as [|a l _ P' E1]; subst. eapply Forall_impl; [|exact P']. intros a (X & Y & _). unfold in_path.
  rewrite negb_true_iff, orb_false_iff, !Z.eqb_neq. auto.
Qed.

(* Another file is opened when the name has a character with a meaning. *)
Theorem file_name_refuted :
  exists f u w b w', url_of (fun _ => true) f u /\ (exists g, files w f = Some g) /\
    get_file w (Ticket u [lit "write"] false false) (Config [] [] 8 0 0 0) (Answers false true (Some 512)) = Done b w' /\
    b_name b <> f.
Proof.
  exists (lit "/disk#1"), (Parsed (lit "file") [] (lit "/disk")),
    (World (fun p => if str_eqb p (lit "/disk") then Some (File Regular [1]) else
                     if str_eqb p (lit "/disk#1") then Some (File Regular [2]) else None) [] 0).
  eexists _, _. split; [reflexivity|]. split; [eexists; vm_compute; reflexivity|]. split; [reflexivity|]. vm_compute. discriminate.
Qed.

(* What is passed to the module of the scheme. *)
Theorem call_right t c k :
  open_call t c = Some k ->
  k_url k = t_url t /\ k_sparse k = t_sparse t /\ k_dirty k = t_dirty t /\ k_max k = c_max c /\
  (k_mode k = lit "r+" <-> In (lit "write") (t_ops t)) /\ (k_mode k = lit "r" <-> ~ In (lit "write") (t_ops t)) /\
  (c_http_ca c <> [] -> k_cafile k = c_http_ca c) /\ (c_http_ca c = [] -> k_cafile k = c_tls_ca c) /\
  match k_module k with
  | MFile => p_scheme (t_url t) = lit "file" /\ buffer_size c (k_module k) = c_file_buffer c
  | MHttp => (p_scheme (t_url t) = lit "http" \/ p_scheme (t_url t) = lit "https") /\ buffer_size c (k_module k) = c_http_buffer c
  | MNbd => p_scheme (t_url t) = lit "nbd" /\ buffer_size c (k_module k) = c_nbd_buffer c
  end.
Proof.
  unfold open_call. destruct (module_of (p_scheme (t_url t))) as [m|] eqn:M; [|discriminate]. intros [= <-].
  cbn [k_module k_url k_mode k_sparse k_dirty k_max k_cafile]. repeat (split; [reflexivity|]).
  assert (W : In (lit "write") (t_ops t) <-> existsb (str_eqb (lit "write")) (t_ops t) = true) by (symmetry; apply existsb_in).
  split; [|split; [|split; [|split]]].
  - rewrite W. destruct (existsb _ _); split; auto; discriminate.
  - rewrite W. destruct (existsb _ _); split; auto; try discriminate; congruence.
  - destruct (c_http_ca c); congruence.
  - intros ->. reflexivity.
  - unfold module_of in M.
    repeat match type of M with (if ?b then _ else _) = _ => let E := fresh in destruct b eqn:E; [apply str_eqb_eq in E; injection M as <-; cbn [buffer_size]; auto|] end.
    discriminate.
Qed.

Theorem call_supported t c : open_call t c = None <->
  ~ In (p_scheme (t_url t)) [lit "file"; lit "http"; lit "https"; lit "nbd"].
Proof.
  unfold open_call, module_of. split.
  - intros H I. destruct (p_scheme (t_url t)) eqn:E; cbn [In] in I;
      repeat (destruct I as [I|I]; [rewrite <- I in H; vm_compute in H; discriminate|]); destruct I.
  - intros H. cbn [In] in H.
    repeat match goal with |- context [str_eqb ?a ?b] => let E := fresh in destruct (str_eqb a b) eqn:E; [apply str_eqb_eq in E; exfalso; apply H; rewrite E; auto 6|] end.
    reflexivity.
Qed.

(* A clone of a backend of a ticket has its own descriptor for the same path and
   with the same access, and the same settings; no file is changed. *)
Theorem clone_same_partial w0 t c x0 b w1 w can x b' w' :
  get_file w0 t c x0 = Done b w1 -> b_block_size b <> 0 ->
  clone w (Backend (b_block b) (b_fio b) (b_name b) (b_sparse b) (b_max b) (b_block_size b) can) x = Done b' w' ->
  b_block b' = b_block b /\ b_name b' = b_name b /\ b_sparse b' = b_sparse b /\ b_max b' = b_max b /\
  b_block_size b' = b_block_size b /\ b_can b' = can /\ same_files w w' /\
  exists fl0 fl, In (io_fd (b_fio b), (b_name b, fl0)) (fds w1) /\
    fds w' = (io_fd (b_fio b'), (b_name b, fl)) :: fds w /\
    f_access fl = f_access fl0 /\ f_direct fl = f_direct fl0.
Proof.
  intros G Z. destruct (image_opened _ _ _ _ _ _ G) as (fl0 & E0 & R0 & W0 & D0 & _ & _ & N0 & _).
  assert (M : exists m, (m = lit "r" \/ m = lit "r+") /\ io_mode (b_fio b) = fileio_mode m /\
                        (m = lit "r+" <-> In (lit "write") (t_ops t))).
  { unfold get_file, open_call in G. destruct (module_of (p_scheme (t_url t))) as [[]|]; try discriminate.
    cbn [k_module k_url k_mode k_sparse k_max] in G. unfold file_open in G.
    pose proof (util_open_cases w0 (p_path (t_url t)) _ (x_denied x0) (mode_of t)) as U.
    destruct (util_open w0 (p_path (t_url t)) _ true false (x_denied x0)) as [fio w2|e w2]; [|discriminate].
    destruct U as (_ & U & _). destruct (x_fstat x0); [|discriminate]. cbn [negb] in G.
    eexists. split; [apply mode_of|]. split.
    - rewrite <- U. f_equal. unfold make in G.
      destruct (match files w2 (p_path (t_url t)) with Some (File Block _) => true | _ => false end).
      + injection G as <- _. reflexivity.
      + destruct (x_detect x0); [|discriminate]. injection G as <- _. reflexivity.
    - rewrite <- existsb_in. destruct (existsb _ _); split; auto; discriminate. }
  destruct M as (m & Hm & IM & WM).
  unfold clone. cbn [b_name b_fio b_block b_sparse b_max b_block_size b_can]. rewrite IM.
  assert (WB : without_b (fileio_mode m) = m) by (destruct Hm as [->| ->]; reflexivity).
  rewrite WB. pose proof (util_open_cases w (b_name b) m (x_denied x) Hm) as U.
  destruct (util_open w (b_name b) m true false (x_denied x)) as [fio w2|e w2]; [|discriminate].
  destruct U as (F1 & _ & _ & fl & -> & _ & _ & D & A). unfold make.
  assert (AC : f_access fl = f_access fl0).
  { rewrite A. unfold can_read, can_write in *.
    destruct Hm as [->| ->].
    - change (str_eqb (lit "r") (lit "r")) with true. cbv iota. destruct (f_access fl0); [reflexivity|congruence|].
      exfalso. assert (X : lit "r" = lit "r+") by (apply WM, W0; discriminate). discriminate.
    - change (str_eqb (lit "r+") (lit "r")) with false. cbv iota. destruct (f_access fl0); [|congruence|reflexivity].
      exfalso. apply W0; [apply WM; reflexivity|reflexivity]. }
  destruct (b_block b) eqn:BB; [|destruct (Z.eqb_spec (b_block_size b) 0); [congruence|]];
    intros [= <- <-]; cbn [b_name b_fio b_block b_sparse b_max b_block_size b_can fds]; rewrite F1;
    (repeat (split; [reflexivity|])); (split; [intros q; reflexivity|]); exists fl0, fl;
    (split; [rewrite E0, N0; left; reflexivity|]); (split; [reflexivity|]); (split; [exact AC|congruence]).
Qed.

(* Cloning a backend that was opened with mode "w" truncates the image. *)
Theorem clone_truncates_refuted :
  exists w x b w1 w2 b' w', file_open w (lit "/disk") (lit "w") false 8 x = Done b w1 /\
    w2 = set_file w1 (lit "/disk") (File Regular [1; 2; 3]) /\       (* data is written *)
    clone w2 b x = Done b' w' /\ files w' (lit "/disk") = Some (File Regular []).
Proof.
  exists (World (fun _ => None) [] 0), (Answers false true (Some 512)). eexists _, _, _, _, _.
  split; [reflexivity|]. split; [reflexivity|]. split; [reflexivity|]. vm_compute. reflexivity.
Qed.

(* A ticket for writing to a file, one for reading from a block device, and the
   clones of their backends. *)
Definition disks : world :=
  World (fun p => if str_eqb p (lit "/disk") then Some (File Regular [1]) else if str_eqb p (lit "/dev/vda") then Some (File Block [2]) else None)
    [(3%nat, (lit "/log", Flags WO true false false false))] 4.
Example disks_sound : sound disks.
Proof. intros fd d [H|[]]. injection H as <- _. cbn. lia. Qed.
Example opened_case :
  (exists b w' b' w'', get_file disks (Ticket (Parsed (lit "file") [] (lit "/disk")) [lit "read"; lit "write"] true false)
      (Config [] [] 8 0 0 0) (Answers false true (Some 4096)) = Done b w' /\
    map fst (fds w') = [4; 3]%nat /\ map (fun d => f_access (snd (snd d))) (fds w') = [RW; WO] /\ b_block b = false /\
    clone w' b (Answers false true None) = Done b' w'' /\ map fst (fds w'') = [5; 4; 3]%nat /\ b_block_size b' = 4096) /\
  (exists b w', get_file disks (Ticket (Parsed (lit "file") [] (lit "/dev/vda")) [lit "read"] false false)
      (Config [] [] 8 0 0 0) (Answers false true None) = Done b w' /\
    map (fun d => f_access (snd (snd d))) (fds w') = [RO; WO] /\ b_block b = true) /\
  (exists w', get_file disks (Ticket (Parsed (lit "file") [] (lit "/disk")) [lit "read"] false false)
      (Config [] [] 8 0 0 0) (Answers false true None) = Raises RuntimeError w' /\ map fst (fds w') = [3]%nat).
Proof.
  split; [|split].
  - eexists _, _, _, _. repeat (split; [reflexivity|]). reflexivity.
  - eexists _, _. repeat (split; [reflexivity|]). reflexivity.
  - eexists. split; reflexivity.
Qed.
Example file_name_case :
  Forall plain (lit "/rhev/data-center/mnt/server:_export/disk 1%20;x") /\
  url_of (fun _ => true) (lit "/rhev/data-center/mnt/server:_export/disk 1%20;x")
    (Parsed (lit "file") [] (lit "/rhev/data-center/mnt/server:_export/disk 1%20;x")).
Proof. split; [|vm_compute; reflexivity]. repeat (constructor; [repeat split; discriminate|]). constructor. Qed.

Print Assumptions image_opened.
Print Assumptions failed_open_partial.
Print Assumptions directory_leak_refuted.
Print Assumptions file_name_partial.
Print Assumptions file_name_refuted.
Print Assumptions call_right.
Print Assumptions call_supported.
Print Assumptions clone_same_partial.
Print Assumptions clone_truncates_refuted.
