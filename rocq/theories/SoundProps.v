(** C41 choosing files of a set, C42 scanned files are the files later opened. *)
From Coq Require Import ZArith List Bool Lia ZifyBool ZifyNat.
From Verif Require Import Machine StrModel StrSpec StrProofs FileModel ArithModel SoundModel SoundSpec SoundProofs.
Import ListNotations.
Open Scope Z_scope.

Lemma picks_ok e u : files_found e <= 32767 -> 0 < files_found e -> forall ops c, chooser_ok e c -> Forall (op_ok e) ops ->
  chooser_ok e (run_state (pick e u) c ops) /\
  forall n s, In (Some (n, s)) (run_outs (pick e u) c ops) -> 0 <= n < files_found e /\ (0 <= sub_files e -> 0 <= s < number_of_subfiles e).
Proof.
  intros FM FP. induction ops as [|o ops IH]; intros c OK F; [split; [exact OK|intros n s []]|].
  inversion F; subst. destruct (pick_ok e u c o FM FP OK) as (A & B); [assumption|]. cbn [run_state run_outs].
  destruct (IH (fst (pick e u c o)) A) as (C & D); [assumption|]. split; [exact C|].
  destruct (pick e u c o) as (c', r). cbn [fst snd] in *. intros n s [I|I]; [apply B; exact I|apply D; exact I].
Qed.
(** The chooser after a font was loaded; what was played before is still remembered. *)
Definition fresh (last last_subid : Z) : chooser := Chooser (-1) last last_subid (-1).

(** C41: whatever is selected and whatever rand() returns, the chosen file and sub file exist. *)
Theorem C41_in_range : forall e u last lsub ops, 0 < files_found e <= 32767 -> 0 <= sub_files e -> Forall (op_ok e) ops ->
  forall n s, In (Some (n, s)) (run_outs (pick e u) (fresh last lsub) ops) -> 0 <= n < files_found e /\ 0 <= s < number_of_subfiles e.
Proof.
  intros e u last lsub ops F S OK n s I.
  destruct (picks_ok e u ltac:(lia) ltac:(lia) ops (fresh last lsub)) as (_ & H); [split; cbn; lia|exact OK|]. destruct (H n s I) as (A & B). split; [exact A|apply B; exact S].
Qed.
(** C41: every request for a file gets one. *)
Theorem C41_always_some : forall e u c r1 r2 r3 r4, 0 < files_found e -> exists n s, snd (pick e u c (ORandom r1 r2 r3 r4)) = Some (n, s).
Proof.
  intros e u c r1 r2 r3 r4 F. cbn [pick]. unfold RandomFile. replace (files_found e <? 1) with false by lia.
  destruct (random_subid e c _ r3 r4) as (c', s). cbn [snd]. eauto.
Qed.
Definition five : files := Files 2 5 3 2 true false FLAT WAV 5.
Example C41_ex : files_found five = 5 /\
  run_outs (pick five true) (fresh 7 0) [ORandom 13 0 4 0; ORandom 3 3 5 1; OSelect 2; ORandom 0 0 6 0; ONext; ONext; ORandom 1 1 1 1; OSelect (-1); ONumber 9; ORandom 0 0 0 0]
  = [Some (3, 1); Some (4, 2); None; Some (2, 0); None; None; Some (4, 1); None; None; Some (4, 0)].
Proof. split; vm_compute; reflexivity. Qed.

(** Whether the next file is drawn at random. *)
Definition free (u : bool) (c : chooser) : Prop := selected c = -1 /\ (sound_number c = -1 \/ u = false).
Lemma keeps e u ops : forall c, Forall keeps_last ops -> last (run_state (pick e u) c ops) = last c /\ last_subid (run_state (pick e u) c ops) = last_subid c.
Proof.
  induction ops as [|o ops IH]; intros c F; [auto|]. inversion F; subst. cbn [run_state]. destruct (IH (fst (pick e u c o))) as (A & B); [assumption|].
  rewrite A, B. destruct o; cbn in *; auto; contradiction.
Qed.
Lemma random_last e u c r1 r2 r3 r4 n s : files_found e <= 32767 -> 0 <= n < files_found e -> snd (pick e u c (ORandom r1 r2 r3 r4)) = Some (n, s) ->
  last (fst (pick e u c (ORandom r1 r2 r3 r4))) = n /\ (sub_files e <> 0 -> last_subid (fst (pick e u c (ORandom r1 r2 r3 r4))) = s).
Proof.
  intros F N. cbn [pick]. unfold RandomFile. destruct (files_found e <? 1) eqn:E; [discriminate|]. unfold random_subid.
  destruct (sub_files e =? 0) eqn:ES; cbn [fst snd last last_subid]; intros H; injection H as <- <-; (split; [apply wrap16_id; lia|intros; try lia; reflexivity]).
Qed.
(** C41: with at least three files two files in a row drawn for the same set differ, also
    with selections in between that were not used. *)
Theorem C41_no_repeat : forall e u last lsub ops r1 r2 r3 r4 mid q1 q2 q3 q4 n s n' s',
  3 <= files_found e <= 32767 -> 0 <= sub_files e -> Forall (op_ok e) ops -> Forall keeps_last mid -> 0 <= r1 -> 0 <= r2 -> 0 <= r3 -> 0 <= r4 ->
  let c1 := run_state (pick e u) (fresh last lsub) ops in
  snd (pick e u c1 (ORandom r1 r2 r3 r4)) = Some (n, s) ->
  let c2 := run_state (pick e u) (fst (pick e u c1 (ORandom r1 r2 r3 r4))) mid in
  free u c2 -> snd (pick e u c2 (ORandom q1 q2 q3 q4)) = Some (n', s') -> n' <> n.
Proof.
  intros e u last lsub ops r1 r2 r3 r4 mid q1 q2 q3 q4 n s n' s' F S OK K R1 R2 R3 R4 c1 E1 c2 (FR1 & FR2) E2.
  destruct (picks_ok e u ltac:(lia) ltac:(lia) ops (fresh last lsub)) as (C1 & _); [split; cbn; lia|exact OK|]. fold c1 in C1.
  destruct (pick_ok e u c1 (ORandom r1 r2 r3 r4)) as (_ & B); [lia|lia|exact C1|cbn; lia|]. destruct (B n s E1) as (NR & _).
  destruct (random_last e u c1 r1 r2 r3 r4 n s ltac:(lia) NR E1) as (L1 & _).
  destruct (keeps e u mid (fst (pick e u c1 (ORandom r1 r2 r3 r4))) K) as (L2 & _). fold c2 in L2. rewrite L1 in L2.
  cbn [pick] in E2. unfold RandomFile in E2. replace (files_found e <? 1) with false in E2 by lia. rewrite FR1 in E2. change (negb (-1 =? -1)) with false in E2. cbv iota in E2.
  replace (negb (sound_number c2 =? -1) && u) with false in E2 by (destruct FR2 as [-> | ->]; [reflexivity|rewrite andb_comm; reflexivity]).
  rewrite L2 in E2. pose proof (randomize_differs (files_found e) n q1 q2 ltac:(lia)) as D.
  destruct (random_subid e c2 (randomize (files_found e) n q1 q2) q3 q4) as (c3, s3). cbn [snd] in E2. injection E2 as <- _. exact D.
Qed.
(** C41: when the same file comes twice and it has at least three sub files, these differ. *)
Theorem C41_no_repeat_sub : forall e u c r1 r2 r3 r4 mid q1 q2 q3 q4 n s s',
  files_found e <= 32767 -> 0 <= n < files_found e -> 3 <= sub_files e -> Forall keeps_last mid ->
  snd (pick e u c (ORandom r1 r2 r3 r4)) = Some (n, s) ->
  snd (pick e u (run_state (pick e u) (fst (pick e u c (ORandom r1 r2 r3 r4))) mid) (ORandom q1 q2 q3 q4)) = Some (n, s') -> s' <> s.
Proof.
  intros e u c r1 r2 r3 r4 mid q1 q2 q3 q4 n s s' F N S K E1 E2.
  destruct (random_last e u c r1 r2 r3 r4 n s F N E1) as (L1 & L1s). specialize (L1s ltac:(lia)).
  destruct (keeps e u mid (fst (pick e u c (ORandom r1 r2 r3 r4))) K) as (L2 & L3). set (c2 := run_state _ _ mid) in *. rewrite L1 in L2. rewrite L1s in L3.
  cbn [pick] in E2. unfold RandomFile in E2. replace (files_found e <? 1) with false in E2 by lia.
  set (m := if negb (selected c2 =? -1) then _ else _) in E2. unfold random_subid in E2. replace (sub_files e =? 0) with false in E2 by lia.
  cbn [snd] in E2. injection E2 as E2 E3. rewrite <- E3. rewrite E2, L2, Z.eqb_refl, L3. apply randomize_differs. lia.
Qed.
Example C41_no_repeat_ex : forall q1 q2, snd (pick five false (fst (pick five false (fresh 7 0) (ORandom 3 0 1 0))) (ORandom q1 q2 0 0)) <> Some (3, 0).
Proof. intros q1 q2 H. eapply (C41_no_repeat five false 7 0 [] 3 0 1 0 [] q1 q2 0 0 3 1 3 0); try lia; try constructor; cbn; try lia; try reflexivity; auto. Qed.
(** C41: every file can be drawn, except a repetition. *)
Theorem C41_every_file : forall e u c n, 0 <= n < files_found e -> free u c -> (n <> last c \/ files_found e <= 2) ->
  exists r1 r2 r3 r4 s, 0 <= r1 /\ 0 <= r2 /\ 0 <= r3 /\ 0 <= r4 /\ snd (pick e u c (ORandom r1 r2 r3 r4)) = Some (n, s).
Proof.
  intros e u c n N (F1 & F2) D. destruct (randomize_onto (files_found e) (last c) n ltac:(lia) N D) as (r1 & r2 & R1 & R2 & R).
  exists r1, r2, 0, 0. cbn [pick]. unfold RandomFile. replace (files_found e <? 1) with false by lia. rewrite F1. replace (negb (-1 =? -1)) with false by reflexivity.
  replace (negb (sound_number c =? -1) && u) with false by (destruct F2 as [-> | ->]; [reflexivity|rewrite andb_comm; reflexivity]). rewrite R.
  destruct (random_subid e c n 0 0) as (c3, s3). exists s3. cbn [snd]. auto 6 with zarith.
Qed.
Example C41_every_file_ex : free true (fresh 2 0) /\ files_found five = 5. Proof. split; [split; [reflexivity|left; reflexivity]|reflexivity]. Qed.
(** C41: stepping through the files visits all of them in turn. *)
Theorem C41_next : forall e u c k, 0 < files_found e <= 32767 -> -1 <= selected c < files_found e ->
  selected (run_state (pick e u) c (repeat ONext (S k))) = (selected c + Z.of_nat (S k)) mod files_found e.
Proof.
  intros e u c k F. revert c. induction k as [|k IH]; intros c S.
  - cbn [repeat run_state pick fst]. unfold SelectNext. cbn [selected]. rewrite wrap16_id by lia.
    change (Z.of_nat 1) with 1. destruct (selected c + 1 =? files_found e) eqn:E.
    + replace (selected c + 1) with (files_found e) by lia. rewrite Z.mod_same by lia. reflexivity.
    + rewrite Z.mod_small by lia. reflexivity.
  - change (repeat ONext (Datatypes.S (Datatypes.S k))) with (ONext :: repeat ONext (Datatypes.S k)). change (run_state (pick e u) c (ONext :: repeat ONext (Datatypes.S k))) with (run_state (pick e u) (SelectNext e c) (repeat ONext (Datatypes.S k))).
    assert (SN : selected (SelectNext e c) = (selected c + 1) mod files_found e).
    { unfold SelectNext. cbn [selected]. rewrite wrap16_id by lia. destruct (selected c + 1 =? files_found e) eqn:E.
      + replace (selected c + 1) with (files_found e) by lia. rewrite Z.mod_same by lia. reflexivity.
      + rewrite Z.mod_small by lia. reflexivity. }
    rewrite IH; rewrite SN; [|pose proof (Z.mod_pos_bound (selected c + 1) (files_found e)); lia].
    rewrite Z.add_mod_idemp_l by lia. f_equal. lia.
Qed.
Example C41_next_ex : map (fun k => selected (run_state (pick five true) (fresh 0 0) (repeat ONext k))) [1; 2; 3; 4; 5; 6; 7]%nat = [0; 1; 2; 3; 4; 0; 1].
Proof. vm_compute. reflexivity. Qed.
(** C41: a selected file is the one that is played; otherwise one selected by number is. *)
Theorem C41_selected : forall e u c r1 r2 r3 r4 n s, 0 <= selected c < files_found e -> snd (pick e u c (ORandom r1 r2 r3 r4)) = Some (n, s) -> n = selected c.
Proof.
  intros e u c r1 r2 r3 r4 n s S. cbn [pick]. unfold RandomFile. replace (files_found e <? 1) with false by lia.
  replace (negb (selected c =? -1)) with true by lia. destruct (random_subid e c _ r3 r4) as (c3, s3). cbn [snd]. intros E. injection E as <- _. lia.
Qed.
(** Finding: with exactly two files the same file can come twice in a row. *)
Theorem C41_two_refuted : exists e r1 r2 q1 q2, files_found e = 2 /\ 0 <= r1 /\ 0 <= r2 /\ 0 <= q1 /\ 0 <= q2 /\
  run_outs (pick e true) (fresh (-1) (-1)) [ORandom r1 r2 0 0; ORandom q1 q2 0 0] = [Some (1, 0); Some (1, 0)].
Proof. exists (Files 1 2 0 0 false false FLAT WAV 2), 1, 0, 1, 1. repeat split; try lia. Qed.
(** Finding: a selection just past the last file plays the last file, and stepping never
    gets back to the first one. *)
Theorem C41_past_end_refuted : forall k, (k < 1000)%nat ->
  let e := Files 1 3 0 0 false false FLAT WAV 3 in
  snd (pick e true (run_state (pick e true) (fresh 0 0) (OSelect 3 :: repeat ONext k)) (ORandom 0 0 0 0)) = Some (2, 0).
Proof.
  intros k K e.
  assert (S : forall j c, (j < 2000)%nat -> 3 <= selected c < 4 -> selected (run_state (pick e true) c (repeat ONext j)) = 3 + Z.of_nat j).
  { clear. intros j. assert (G : forall j c a, 3 <= a -> a + Z.of_nat j < 30000 -> selected c = a -> selected (run_state (pick e true) c (repeat ONext j)) = a + Z.of_nat j).
    { clear. induction j as [|j IH]; intros c a A J E; [cbn; lia|]. change (repeat ONext (S j)) with (ONext :: repeat ONext j).
      change (run_state (pick e true) c (ONext :: repeat ONext j)) with (run_state (pick e true) (SelectNext e c) (repeat ONext j)). rewrite (IH _ (a + 1)); try lia.
      unfold SelectNext. cbn [selected]. rewrite E, wrap16_id by lia. change (files_found e) with 3. replace (a + 1 =? 3) with false by lia. reflexivity. }
    intros c J E. rewrite (G j c 3); lia. }
  change (run_state (pick e true) (fresh 0 0) (OSelect 3 :: repeat ONext k)) with (run_state (pick e true) (Chooser 3 0 0 (-1)) (repeat ONext k)).
  specialize (S k (Chooser 3 0 0 (-1)) ltac:(lia) ltac:(cbn; lia)). set (c := run_state _ _ _) in *. cbn [pick]. unfold RandomFile. change (files_found e) with 3.
  rewrite S. replace (negb (3 + Z.of_nat k =? -1)) with true by lia. replace (Z.min (3 + Z.of_nat k) (3 - 1)) with 2 by lia. reflexivity.
Qed.

(** C42: after a font was scanned -- [before] directories without files of the set, one
    directory [d] with the files [fs], in any order, any letter case, mixed with foreign files, and
    later directories [after] with anything -- the files come from [d], and the names
    generated for the selectable choices are exactly the names of the files in the box
    around the files found. *)
Theorem C42_generated : forall sc before d fs after T dir,
  scheme_ok sc -> Forall (fun df => foreign sc (snd df)) before -> listing sc fs T -> T <> [] -> Forall (fun df => fst df <> d) after -> low_enough T ->
  let s := run (scan_all (s_name sc) (GetFileType (s_ext sc))) scan_start (before ++ map (fun f => (d, f)) fs ++ after) in
  let choice k sub alt := 0 <= k < files_found (set s) /\ 0 <= sub < number_of_subfiles (set s) /\ 0 <= alt < number_of_alternatives (set s) (alternatives s) in
  directory s = Some d /\
  (forall k sub alt, choice k sub alt -> exists it f, covered T it /\ file_name sc it f /\ GetName dir (s_name sc) (set s) k sub alt = path dir f) /\
  (forall it, covered T it -> exists k sub alt f, choice k sub alt /\ file_name sc it f /\ GetName dir (s_name sc) (set s) k sub alt = path dir f).
Proof.
  intros sc before d fs after T dir SO FB L NE FA LO s choice. destruct (scanned sc before d fs after T SO FB L NE FA) as (V & D). fold s in V, D.
  split; [exact D|]. split.
  - intros k sub alt CH. destruct (choice_covered sc T (set s) (alternatives s) k sub alt V NE LO CH) as (C & A).
    destruct (get_name_item sc T (set s) (alternatives s) dir k sub alt SO V NE LO CH A) as (f & F & G). eauto.
  - intros it C. destruct (covered_choice sc T (set s) (alternatives s) it V NE LO C) as (k & sub & alt & CH & -> & A).
    destruct (get_name_item sc T (set s) (alternatives s) dir k sub alt SO V NE LO CH A) as (f & F & G). exists k, sub, alt, f. auto.
Qed.
(** C42: the warning that files are missing is given exactly when some file in the box does
    not exist. *)
Theorem C42_warning : forall sc before d fs after T,
  scheme_ok sc -> Forall (fun df => foreign sc (snd df)) before -> listing sc fs T -> T <> [] -> Forall (fun df => fst df <> d) after -> low_enough T ->
  NoDup T -> Z.of_nat (length T) <= 32767 ->
  let s := run (scan_all (s_name sc) (GetFileType (s_ext sc))) scan_start (before ++ map (fun f => (d, f)) fs ++ after) in
  (expected_files (set s) (alternatives s) = num_files (set s) <-> forall it, covered T it -> In it T).
Proof.
  intros sc before d fs after T SO FB L NE FA LO ND LE s. destruct (scanned sc before d fs after T SO FB L NE FA) as (V & D). apply (warning_spec sc T); assumption.
Qed.
(** C42: without the warning every name that can be generated is the name of a scanned file. *)
Theorem C42_exists : forall sc before d fs after T dir,
  scheme_ok sc -> Forall (fun df => foreign sc (snd df)) before -> listing sc fs T -> T <> [] -> Forall (fun df => fst df <> d) after -> low_enough T ->
  NoDup T -> Z.of_nat (length T) <= 32767 ->
  let s := run (scan_all (s_name sc) (GetFileType (s_ext sc))) scan_start (before ++ map (fun f => (d, f)) fs ++ after) in
  expected_files (set s) (alternatives s) = num_files (set s) ->
  forall k sub alt, 0 <= k < files_found (set s) -> 0 <= sub < number_of_subfiles (set s) -> 0 <= alt < number_of_alternatives (set s) (alternatives s) ->
  exists f, In f fs /\ same_nocase (GetName dir (s_name sc) (set s) k sub alt) (path dir f).
Proof.
  intros sc before d fs after T dir SO FB L NE FA LO ND LE s W k sub alt K S A.
  pose proof (proj1 (C42_warning sc before d fs after T SO FB L NE FA LO ND LE) W) as ALL.
  destruct (C42_generated sc before d fs after T dir SO FB L NE FA LO) as (_ & G & _). fold s in G.
  destruct (G k sub alt (conj K (conj S A))) as (it & f' & C & F & E). destruct (listing_in sc fs T it L (ALL it C)) as (f & g & I & FN & NC).
  rewrite (file_name_fun sc it f' g F FN) in E. exists f. split; [exact I|]. rewrite E. unfold same_nocase, lower_str, path in *. destruct dir; [symmetry; exact NC|].
  rewrite !map_app. cbn [map]. rewrite NC. reflexivity.
Qed.
(* hum/01/000.wav style: HUM/09/000.WAV, hum/10/001.wav, hum/10/000.wav, hum/09/001.wav, with humm01.wav and a text file *)
Definition HUM : list Z := [104; 117; 109].
Definition hums : scheme := Scheme HUM Efficient 2 WAV false true.
Definition hum_files : list (list Z) :=
  [ [72; 85; 77; 47; 48; 57; 47; 48; 48; 48; 46; 87; 65; 86]; HUM ++ [109; 48; 49; 46; 119; 97; 118]; HUM ++ [47; 49; 48; 47; 48; 48; 49; 46; 119; 97; 118];
    HUM ++ [47; 49; 48; 47; 48; 48; 48; 46; 119; 97; 118]; [97; 46; 116; 120; 116]; HUM ++ [47; 48; 57; 47; 48; 48; 49; 46; 119; 97; 118] ].
Definition hum_items : list item := [Item None (Some 9) (Some 0); Item None (Some 10) (Some 1); Item None (Some 10) (Some 0); Item None (Some 9) (Some 1)].
Lemma hums_listing : listing hums hum_files hum_items.
Proof.
  assert (NUM : forall n, 0 <= n < 100 -> numeral 2 n (last_digits 2 n)). { intros n N. exists 2%nat. split; [reflexivity|]. split; [change (10 ^ Z.of_nat 2) with 100; lia|left; reflexivity]. }
  assert (OK : forall n s, 0 <= n < 100 -> 0 <= s < 100 -> item_ok hums (Item None (Some n) (Some s))).
  { intros n s N S. split; [reflexivity|]. split; [reflexivity|]. split; [discriminate|]. split; [discriminate|]. split; intros x E; injection E as <-; lia. }
  unfold hum_files, hum_items.
  apply L_file with (g := HUM ++ [47; 48; 57; 47; 48; 48; 48; 46; 119; 97; 118]); [apply OK; lia|exists (last_digits 2 9); split; [apply NUM; lia|reflexivity]|reflexivity|].
  apply L_foreign. { apply F_plain.
    - intros r B. apply begins_startswith in B. discriminate.
    - right. exists 109, [48; 49; 46; 119; 97; 118]. split; [exists HUM; split; reflexivity|]. split; [lia|]. exists (HUM ++ [109; 48; 49]), [46; 119; 97; 118], WAV.
      split; [reflexivity|]. split; [reflexivity|]. split; [discriminate|left; reflexivity]. }
  eapply L_file; [apply OK; lia|exists (last_digits 2 10); split; [apply NUM; lia|reflexivity]|reflexivity|].
  eapply L_file; [apply OK; lia|exists (last_digits 2 10); split; [apply NUM; lia|reflexivity]|reflexivity|].
  apply L_foreign. { apply F_plain; [intros r B; apply begins_startswith in B; discriminate|]. left. intros r B. apply begins_startswith in B. discriminate. }
  eapply L_file; [apply OK; lia|exists (last_digits 2 9); split; [apply NUM; lia|reflexivity]|reflexivity|]. constructor.
Qed.
Example C42_ex : scheme_ok hums /\ listing hums hum_files hum_items /\ low_enough hum_items /\ NoDup hum_items /\
  let s := run (scan_all HUM SOUND) scan_start ([(0%nat, [120; 46; 119; 97; 118])] ++ map (fun f => (1%nat, f)) hum_files ++ [(2%nat, HUM ++ [46; 119; 97; 118])]) in
  directory s = Some 1%nat /\ files_found (set s) = 2 /\ number_of_subfiles (set s) = 2 /\ expected_files (set s) (alternatives s) = num_files (set s) /\
  GetName [102] HUM (set s) 0 1 0 = [102; 47] ++ HUM ++ [47; 48; 57; 47; 48; 48; 49; 46; 119; 97; 118].
Proof.
  split. { split; [discriminate|]. split; [cbn; lia|]. split; [exists 104, [117; 109]; split; [reflexivity|lia]|]. split; [|reflexivity]. intros r B. apply begins_startswith in B. discriminate. }
  split; [exact hums_listing|]. split. { intros _. exists (Item None (Some 9) (Some 0)), 9. split; [left; reflexivity|]. split; [reflexivity|lia]. }
  split. { repeat (constructor; [cbn; intuition congruence|]). constructor. }
  vm_compute. repeat split.
Qed.

(** Finding: numbering that starts above 127 makes the set include files that do not exist. *)
Theorem C42_above_127_refuted : exists sc fs T, scheme_ok sc /\ listing sc fs T /\ NoDup T /\ T <> [] /\
  let s := run (scan_all (s_name sc) (GetFileType (s_ext sc))) scan_start (map (fun f => (0%nat, f)) fs) in
  files_found (set s) = 2 /\ ~ In (GetName [] (s_name sc) (set s) 0 0 0) fs.
Proof.
  exists (Scheme HUM Flat 3 WAV false false), [HUM ++ [49; 50; 56; 46; 119; 97; 118]], [Item None (Some 128) None].
  split. { split; [discriminate|]. split; [cbn; lia|]. split; [exists 104, [117; 109]; split; [reflexivity|lia]|]. split; [|discriminate]. intros r B. apply begins_startswith in B. discriminate. }
  split. { eapply L_file; [| |reflexivity|constructor].
    - split; [reflexivity|]. split; [reflexivity|]. split; [discriminate|]. split; [discriminate|]. split; intros x E; [injection E as <-; lia|discriminate].
    - exists (last_digits 3 128). split; [|reflexivity]. exists 3%nat. split; [reflexivity|]. split; [cbn; lia|left; reflexivity]. }
  split; [repeat constructor; intros []|]. split; [discriminate|]. split; [vm_compute; reflexivity|]. vm_compute. intuition discriminate.
Qed.
(** C42: only directories named alt and three characters up to '9' hold alternatives: with a letter
    among the three the file does not change the number of alternatives. *)
Theorem C42_alternative_names : forall name ft ea f, (nth 3 f 0 > 57 \/ nth 4 f 0 > 57 \/ nth 5 f 0 > 57) ->
  snd (fst (scan name ft ea f)) = snd ea /\ in_alt (fst (fst (scan name ft ea f))) = in_alt (fst ea).
Proof. intros name ft ea f H. apply scan_letters. exact H. Qed.
Example C42_alternative_names_ex : snd (fst (scan HUM SOUND (reset_files, 0) (ALT ++ [48; 48; 120; 47] ++ HUM ++ [46; 119; 97; 118]))) = 0 /\ snd (fst (scan HUM SOUND (reset_files, 0) (ALT ++ [48; 48; 49; 47] ++ HUM ++ [46; 119; 97; 118]))) = 2.
Proof. vm_compute. split; reflexivity. Qed.
(** Finding: a file that is not accepted (hum7x.wav) still enlarges the set. *)
Theorem C42_stray_refuted : exists good stray, snd (scan HUM SOUND (reset_files, 0) stray) = false /\
  let e := fst (fst (scan HUM SOUND (reset_files, 0) good)) in
  let e' := fst (fst (scan HUM SOUND (e, 0) stray)) in files_found e = 1 /\ files_found e' = 7.
Proof. exists (HUM ++ [49; 46; 119; 97; 118]), (HUM ++ [55; 120; 46; 119; 97; 118]). vm_compute. repeat split. Qed.
(** Finding: sub files with two digits (hum/1/07.wav) are not accepted -- the digit test takes
    any character up to '9', here the dot -- yet they are counted as sub files. *)
Theorem C42_sub_digits_refuted : exists f, snd (scan HUM SOUND (reset_files, 0) f) = false /\ sub_files (fst (fst (scan HUM SOUND (reset_files, 0) f))) = 8.
Proof. exists (HUM ++ [47; 49; 47; 48; 55; 46; 119; 97; 118]). vm_compute. split; reflexivity. Qed.
(** Finding: a file of another set with a longer name and another extension (humm.raw), seen
    first, hides all files of the set. *)
Theorem C42_extension_refuted : exists other f, snd (scan HUM SOUND (reset_files, 0) other) = false /\ snd (scan HUM SOUND (reset_files, 0) f) = true /\
  snd (scan HUM SOUND (fst (scan HUM SOUND (reset_files, 0) other)) f) = false.
Proof. exists (HUM ++ [109; 46; 114; 97; 119]), (HUM ++ [46; 119; 97; 118]). vm_compute. repeat split. Qed.

Print Assumptions C41_in_range. Print Assumptions C41_always_some. Print Assumptions C41_no_repeat. Print Assumptions C41_no_repeat_sub.
Print Assumptions C41_every_file. Print Assumptions C41_next. Print Assumptions C41_selected. Print Assumptions C41_two_refuted. Print Assumptions C41_past_end_refuted.
Print Assumptions C42_generated. Print Assumptions C42_warning. Print Assumptions C42_exists. Print Assumptions C42_above_127_refuted.
Print Assumptions C42_alternative_names. Print Assumptions C42_stray_refuted. Print Assumptions C42_sub_digits_refuted. Print Assumptions C42_extension_refuted.
