(** Properties C59 and C60: paths and directory lists. *)
From Coq Require Import ZArith List Bool PeanoNat Lia ZifyBool ZifyNat.
From Verif Require Import StrModel PathModel PathSpec PathProofs.
Import ListNotations.
Open Scope Z_scope.

(** C59: appending a name to the path in the buffer gives directory/name with exactly one slash in
    between; nothing outside the buffer is written as long as the result and its 0 fit. *)
Theorem C59_append : forall b dir name, cstr b = dir -> (length dir < length b)%nat -> ~ In 0 name -> (length (in_dir dir name) < length b)%nat ->
  exists b', append b name = Some b' /\ cstr b' = in_dir dir name /\ length b' = length b.
Proof.
  intros b dir name C L N F. destruct (cstr_split b) as [(r & E & N0)|(E & _)]; rewrite C in *; [|rewrite E in L; lia]. rewrite E in F |- *.
  destruct (append_ok dir r name N0) as (r' & A & B); [lia|]. exists (in_dir dir name ++ 0 :: r'). split; [exact A|]. split; [|exact B]. apply cstr_ok. rewrite in_dir_nil. intros I. apply in_app_or in I. destruct I as [I|I]; [exact (in_dir_no0 dir N0 I)|exact (N I)].
Qed.
(** Without room the program writes past the end of the buffer. *)
Theorem C59_append_refuted : forall b dir name, cstr b = dir -> (length dir < length b)%nat -> (length b <= length (in_dir dir name))%nat -> append b name = None.
Proof.
  intros b dir name C L F. destruct (cstr_split b) as [(r & E & N0)|(E & _)]; rewrite C in *; [|rewrite E in L; lia]. rewrite E in F |- *. apply append_full; [exact N0|exact F].
Qed.
Theorem C59_append_ext : forall b dir name ext, cstr b = dir -> (length dir < length b)%nat -> ~ In 0 name -> ~ In 0 ext -> (length (in_dir dir (name ++ [46%Z] ++ ext)) < length b)%nat ->
  exists b', append_ext b name ext = Some b' /\ cstr b' = in_dir dir (name ++ [46] ++ ext) /\ length b' = length b.
Proof.
  intros b dir name ext C L N N2 F. rewrite in_dir_nil, !app_length in F. cbn [length] in F.
  destruct (C59_append b dir name C L N) as (b1 & A1 & C1 & L1); [rewrite in_dir_nil, app_length; lia|].
  unfold append in A1. unfold append_ext. destruct (slash b) as [b0|]; [|discriminate]. rewrite A1.
  destruct (strcat_cstr b1 [46]) as (b2 & A2 & C2 & L2); [intros [|[]]; lia|rewrite C1, in_dir_nil, app_length; cbn [length]; lia|]. rewrite A2.
  destruct (strcat_cstr b2 ext) as (b3 & A3 & C3 & L3); [exact N2|rewrite C2, C1, in_dir_nil, !app_length; cbn [length]; lia|]. rewrite A3. exists b3. split; [reflexivity|]. rewrite C3, C2, C1. split; [|lia]. rewrite (in_dir_nil dir name), (in_dir_nil dir (name ++ _)), <- !app_assoc. reflexivity.
Qed.
Example C59_append_ex : option_map cstr (append [97; 0; 5; 5; 5; 5] [98; 99]) = Some [97; 47; 98; 99] /\ option_map cstr (append [97; 47; 0; 5; 5; 5] [98; 99]) = Some [97; 47; 98; 99]
  /\ option_map cstr (append [0; 5; 5; 5] [98; 99]) = Some [98; 99] /\ append [97; 0; 5; 5] [98; 99] = None /\ option_map cstr (append_ext [97; 0; 5; 5; 5; 5] [98] [99]) = Some [97; 47; 98; 46; 99].
Proof. repeat split. Qed.

(** C59: taking the directory of dir/name gives dir, says whether there is anything left above the
    root, and can be undone, leaving every byte of the buffer as it was. *)
Theorem C59_dirname : forall b dir name, cstr b = dir ++ [47] ++ name -> (length (cstr b) < length b)%nat -> ~ In 47 name ->
  exists b', dirname b = Some (b', negb (match dir with [] => true | _ => false end || (if list_eq_dec Z.eq_dec dir [47] then true else false)))
    /\ cstr b' = dir /\ undo_dirname b' = Some b.
Proof.
  intros b dir name C L N. destruct (cstr_split b) as [(r & E & N0)|(E & _)]; [|pose proof (f_equal (@length Z) E); unfold buffer, str in *; lia]. rewrite C in *. cbn [app] in *. assert (ND : ~ In 0 dir) by (intros I; apply N0; apply in_or_app; left; exact I).
  assert (NN : ~ In 0 name) by (intros I; apply N0; apply in_or_app; right; right; exact I). exists (dir ++ 0 :: name ++ 0 :: r). rewrite E. rewrite dirname_ok by assumption. split.
  - f_equal. f_equal. f_equal. unfold rootlike. destruct dir as [|x [|y dir]]; [reflexivity| |]; destruct (list_eq_dec _ _ _) as [Q|Q]; try discriminate Q; try reflexivity; [injection Q as ->; reflexivity|]. cbn. destruct (Z.eqb_spec x 47) as [->|_]; [contradiction Q; reflexivity|reflexivity].
  - split; [apply cstr_ok; exact ND|apply undo_ok; exact ND].
Qed.
(** Taking the directory of what was appended gives back what was there before. *)
Theorem C59_append_dirname : forall b dir name b1, cstr b = dir -> (length dir < length b)%nat -> dir <> [] -> last dir 0 <> 47 -> ~ In 0 name -> ~ In 47 name ->
  append b name = Some b1 -> exists b2 x, dirname b1 = Some (b2, x) /\ cstr b2 = dir.
Proof.
  intros b dir name b1 C L D LD N N2 A. destruct (Nat.le_gt_cases (length b) (length (in_dir dir name))) as [F|F]; [rewrite (C59_append_refuted b dir name C L F) in A; discriminate|].
  destruct (C59_append b dir name C L N F) as (b' & A' & C' & L'). rewrite A in A'. injection A' as <-. assert (E : cstr b1 = dir ++ [47] ++ name).
  { rewrite C'. unfold in_dir. destruct dir; [contradiction|]. destruct (Z.eqb_spec (last (z :: dir) 0) 47); [contradiction|reflexivity]. }
  destruct (C59_dirname b1 dir name E) as (b2 & D2 & C2 & _); [rewrite C'; lia|exact N2|]. eauto.
Qed.
Example C59_dirname_ex : option_map (fun p => (cstr (fst p), snd p)) (dirname [97; 98; 47; 99; 0; 5]) = Some ([97; 98], true)
  /\ option_map (fun p => (cstr (fst p), snd p)) (dirname [47; 99; 0; 5]) = Some ([], false)
  /\ option_map (fun p => (cstr (fst p), snd p)) (dirname [47; 47; 99; 0; 5]) = Some ([47], false).
Proof. repeat split. Qed.

(** C59: creating a directory creates the directories on the way to it, outermost first, then the
    directory itself, and leaves the path as it was; for any number of components. *)
Theorem C59_mkdir : forall b cs fuel, cs <> [] -> Forall component cs -> cstr b = path cs -> (length (path cs) < length b)%nat -> (length cs <= fuel)%nat ->
  mkdir fuel b = Some (b, map path (ways cs)).
Proof.
  intros b cs fuel N F C L FU. destruct (cstr_split b) as [(r & E & N0)|(E & _)]; rewrite C in *; [|rewrite E in L; lia]. rewrite E. apply mkdir_ok; assumption.
Qed.
Example C59_mkdir_ex : mkdir 3 [97; 47; 98; 99; 47; 100; 0; 7] = Some ([97; 47; 98; 99; 47; 100; 0; 7], [[97]; [97; 47; 98; 99]; [97; 47; 98; 99; 47; 100]]).
Proof. reflexivity. Qed.
(** Finding: for a path written with a leading slash (/a/b) the directory itself is never asked
    for; an empty name is asked for instead, and the path is cut to /a. *)
Theorem C59_absolute_refuted : forall a b r fuel, component a -> component b -> (3 <= fuel)%nat ->
  exists buf, mkdir fuel (([47] ++ a ++ [47] ++ b) ++ 0 :: r) = Some (buf, [[]; [47] ++ a]) /\ cstr buf = [47] ++ a.
Proof.
  intros a b r fuel (A1 & A2 & A3) (B1 & B2 & B3) F. destruct fuel as [|[|fuel]]; [lia|lia|]. exists ([47] ++ a ++ 0 :: b ++ 0 :: r).
  assert (NA : ~ In 0 ([47] ++ a)) by (intros [I|I]; [discriminate|exact (A3 I)]).
  split; [|rewrite app_assoc; apply cstr_ok; exact NA]. cbn [mkdir]. rewrite !app_assoc. rewrite <- (app_assoc _ [47] b). change ([47] ++ b) with (47 :: b). rewrite dirname_ok by assumption.
  assert (R : rootlike ([47] ++ a) = false) by (destruct a; [contradiction|reflexivity]). rewrite R. cbn [negb]. rewrite <- (app_nil_l ([47] ++ a)) at 1. change ([] ++ [47] ++ a) with ([] ++ 47 :: a). rewrite dirname_ok by (try assumption; intros []). cbn [rootlike negb]. change (cstr ([] ++ 0 :: a ++ 0 :: b ++ 0 :: r)) with (@nil Z).
  unfold undo_dirname. change (strlen ([] ++ 0 :: a ++ 0 :: b ++ 0 :: r)) with 0%nat. unfold poke. cbn [app length Nat.ltb Nat.leb firstn skipn]. f_equal. f_equal. f_equal. f_equal. change (47 :: a ++ 0 :: b ++ 0 :: r) with (([47] ++ a) ++ 0 :: b ++ 0 :: r). apply cstr_ok. exact NA.
Qed.
(** Finding: Dirname leaves a path without slash as it is (the directory of "a" is not the empty
    one), and undoing it replaces the end of the string by a slash. *)
Theorem C59_no_slash_refuted : forall s x r, ~ In 0 s -> ~ In 47 s ->
  dirname (s ++ 0 :: x :: r) = Some (s ++ 0 :: x :: r, false) /\ undo_dirname (s ++ 0 :: x :: r) = Some (s ++ 47 :: x :: r).
Proof. intros s x r N0 N. unfold dirname, undo_dirname. rewrite cstr_ok by exact N0. rewrite strrchr_none by exact N. rewrite strlen_ok by exact N0. rewrite poke_ok. split; reflexivity. Qed.

(** C60: a list of font directories separated by ; (each but the last with or without a trailing
    slash) is searched in the order written, every directory once, and the other way round in
    exactly the opposite order, if the names with their separators fit the buffer. *)
Theorem C60_directories : forall b ds, ds <> [] -> Forall (fun d => dir_name (fst d)) ds -> (list_sum (map (fun d => S (length (fst d))) ds) + 1 <= length b)%nat ->
  exists b' p, chdir b (dir_list ds) = Some (Some b') /\ length b' = length b /\
    forward (length b') b' 0 = Some (map fst ds) /\ last_dir b' = Some p /\ backward (length b') b' p = Some (rev (map fst ds)).
Proof.
  intros b ds N F L. apply chdir_ok; [exact F|exact N|]. assert (E : length (flat (map fst ds)) = list_sum (map (fun d => S (length (fst d))) ds)); [|lia].
  clear. unfold flat. induction ds as [|(d, sl) ds IH]; [reflexivity|]. cbn [map concat fst]. rewrite !app_length. cbn [length]. rewrite IH. cbn [list_sum fold_right]. unfold list_sum. lia.
Qed.
Example C60_directories_ex : exists b', chdir (repeat 7 12) (dir_list [([97; 47; 98], true); ([99], false); ([100; 100], false)]) = Some (Some b') /\ dir_list [([97; 47; 98], true); ([99], false); ([100; 100], false)] = [97; 47; 98; 47; 59; 99; 59; 100; 100]
  /\ forward 12 b' 0 = Some [[97; 47; 98]; [99]; [100; 100]].
Proof. eexists. repeat split. Qed.
(** A name that ends with a slash is refused and changes nothing. *)
Theorem C60_refused : forall b d, (2 <= length d)%nat -> last d 0 = 47 -> chdir b d = Some None.
Proof. intros b d L E. unfold chdir. rewrite E. destruct (Nat.ltb_spec 1 (length d)); [reflexivity|lia]. Qed.
Example C60_refused_ex : chdir [1; 2; 3] [97; 47] = Some None /\ chdir [1; 2; 3] [47] <> Some None.
Proof. split; [reflexivity|discriminate]. Qed.
(** Finding: an empty entry ends the list; the directories after it are never searched. *)
Theorem C60_empty_refuted : forall b d rest, dir_name d -> (length d + length (packed rest) + 2 <= length b)%nat -> last (d ++ [59; 59] ++ rest) 0 <> 47 ->
  exists b', chdir b (d ++ [59; 59] ++ rest) = Some (Some b') /\ forward (length b') b' 0 = Some [d].
Proof.
  intros b d rest (D1 & D2 & D3 & D4) L LA. unfold chdir. destruct (Z.eqb_spec (last (d ++ [59; 59] ++ rest) 0) 47) as [|_]; [contradiction|]. rewrite andb_false_r. rewrite packed_name by assumption. change (packed ([59; 59] ++ rest)) with (0 :: 0 :: packed rest).
  rewrite app_length. cbn [length]. destruct (Nat.leb_spec (length d + S (S (length (packed rest)))) (length b)); [|lia]. eexists. split; [reflexivity|].
  rewrite <- app_assoc. cbn [app]. set (junk := packed rest ++ _). destruct (length (d ++ 0 :: 0 :: junk)) as [|n] eqn:E; [rewrite app_length in E; cbn in E; lia|]. change 0%nat with (length (@nil Z)) at 1. apply (forward_ok [] [] d junk); [exact D3|constructor|cbn; lia].
Qed.
(** Finding: nothing checks the length; a list that does not fit is written past the buffer. *)
Theorem C60_long_refuted : forall b ds, ds <> [] -> Forall (fun d => dir_name (fst d)) ds -> (length b < list_sum (map (fun d => S (length (fst d))) ds) + 1)%nat -> chdir b (dir_list ds) = None.
Proof.
  intros b ds N F L. destruct (dir_list_last ds F N) as (_ & L2). unfold chdir. destruct (Z.eqb_spec (last (dir_list ds) 0) 47) as [|_]; [contradiction|]. rewrite andb_false_r. rewrite packed_list by assumption. rewrite app_length. cbn [length].
  assert (E : length (flat (map fst ds)) = list_sum (map (fun d => S (length (fst d))) ds)).
  { clear. unfold flat. induction ds as [|(d, sl) ds IH]; [reflexivity|]. cbn [map concat fst]. rewrite !app_length. cbn [length]. rewrite IH. cbn [list_sum fold_right]. unfold list_sum. lia. }
  rewrite E. destruct (Nat.leb_spec (list_sum (map (fun d => S (length (fst d))) ds) + 1) (length b)); [lia|reflexivity].
Qed.

Print Assumptions C59_append.
Print Assumptions C59_append_refuted.
Print Assumptions C59_append_ext.
Print Assumptions C59_dirname.
Print Assumptions C59_append_dirname.
Print Assumptions C59_mkdir.
Print Assumptions C59_absolute_refuted.
Print Assumptions C59_no_slash_refuted.
Print Assumptions C60_directories.
Print Assumptions C60_refused.
Print Assumptions C60_empty_refuted.
Print Assumptions C60_long_refuted.
