From Coq Require Import ZArith List Bool Lia ZifyBool ZifyNat.
From Verif Require Import Machine KeepModel KeepSpec.
Import ListNotations.
Open Scope Z_scope.

(** ** The new list *)
Lemma copy_past p origin pos : forall ps opos i, pos <= opos -> copy p origin pos opos i ps = remove_at (origin - i) ps.
Proof.
  induction ps as [|q ps IH]; intros opos i H; cbn [copy].
  - unfold remove_at. destruct (_ <? _); auto. now rewrite firstn_nil, skipn_nil.
  - destruct (i =? origin) eqn:E.
    + rewrite IH by lia. unfold remove_at. replace (origin - (i + 1) <? 0) with true by lia. replace (origin - i) with 0 by lia. reflexivity.
    + replace (pos =? opos + 1) with false by lia. rewrite IH by lia. unfold remove_at.
      destruct (origin - i <? 0) eqn:L.
      * replace (origin - (i + 1) <? 0) with true by lia. reflexivity.
      * replace (origin - (i + 1) <? 0) with false by lia. replace (Z.to_nat (origin - i)) with (S (Z.to_nat (origin - (i + 1)))) by lia. reflexivity.
Qed.
Lemma insert_cons {A} n (x q : A) l : n <> 0 -> insert_at n x (q :: l) = q :: insert_at (n - 1) x l.
Proof.
  intros H. unfold insert_at. cbn [length]. destruct ((0 <=? n) && (n <=? Z.of_nat (S (length l)))) eqn:E.
  - replace ((0 <=? n - 1) && (n - 1 <=? Z.of_nat (length l))) with true by lia. replace (Z.to_nat n) with (S (Z.to_nat (n - 1))) by lia. reflexivity.
  - replace ((0 <=? n - 1) && (n - 1 <=? Z.of_nat (length l))) with false by lia. reflexivity.
Qed.
Lemma insert_0 {A} (x : A) l : insert_at 0 x l = x :: l.
Proof. unfold insert_at. replace ((0 <=? 0) && (0 <=? Z.of_nat (length l))) with true by lia. reflexivity. Qed.
Lemma copy_list p origin pos : forall ps opos i, pos <> opos -> (ps <> [] \/ pos <> opos) ->
  copy p origin pos opos i ps = insert_at (pos - opos) p (remove_at (origin - i) ps).
Proof.
  induction ps as [|q ps IH]; intros opos i H _; cbn [copy].
  - unfold remove_at. rewrite firstn_nil, skipn_nil. cbn [app].
    replace (if origin - i <? 0 then [] else []) with (@nil preset) by (destruct (_ <? _); auto).
    unfold insert_at. cbn [length]. replace ((0 <=? pos - opos) && (pos - opos <=? Z.of_nat 0)) with false by lia. reflexivity.
  - destruct (i =? origin) eqn:E.
    + rewrite IH by lia. f_equal. unfold remove_at. replace (origin - (i + 1) <? 0) with true by lia. replace (origin - i) with 0 by lia. reflexivity.
    + assert (R : remove_at (origin - i) (q :: ps) = q :: remove_at (origin - (i + 1)) ps).
      { unfold remove_at. destruct (origin - i <? 0) eqn:L.
        * replace (origin - (i + 1) <? 0) with true by lia. reflexivity.
        * replace (origin - (i + 1) <? 0) with false by lia. replace (Z.to_nat (origin - i)) with (S (Z.to_nat (origin - (i + 1)))) by lia. reflexivity. }
      rewrite R, insert_cons by lia. destruct (pos =? opos + 1) eqn:P.
      * rewrite copy_past by lia. replace (pos - opos - 1) with 0 by lia. rewrite insert_0. reflexivity.
      * rewrite IH by lia. replace (pos - opos - 1) with (pos - (opos + 1)) by lia. reflexivity.
Qed.
Lemma rewrite_list_eq p origin pos ps : rewrite_list p origin pos ps = insert_at pos p (remove_at origin ps).
Proof.
  unfold rewrite_list. destruct (pos =? 0) eqn:E.
  - assert (pos = 0) as -> by lia. rewrite insert_0, copy_past by lia. now rewrite Z.sub_0_r.
  - rewrite copy_list by lia. now rewrite !Z.sub_0_r.
Qed.

(** ** Finding the current file *)
Lemma search_stored d : stored d = match search d with Some (_, _, ps) => Some ps | None => None end.
Proof.
  unfold stored, search. destruct (ini d) as [|a|i [] a], (tmp d) as [|b|j [] b]; cbn [iteration]; try (destruct (_ <? _)); reflexivity.
Qed.
(** The object's memory of the current file is right. *)
Definition fits (d : dir) (k : nat) (o : obj) : Prop :=
  read_from o = Some k -> read_from_ext_ o <> CONFIG_UNKNOWN -> stored d <> None /\
  (iteration_ o <> 0 -> search d = Some (read_from_ext_ o, iteration_ o, contents (get_file d (read_from_ext_ o)))).
Lemma search_contents d x i ps : search d = Some (x, i, ps) -> x <> CONFIG_UNKNOWN /\ ps = contents (get_file d x) /\ i = iteration (get_file d x).
Proof.
  unfold search. destruct (ini d) as [|a|ii [] a] eqn:Ei, (tmp d) as [|b|j [] b] eqn:Ej; cbn [iteration]; try (destruct (_ <? _));
    cbn; intros H; inversion H; subst; cbn; rewrite ?Ei, ?Ej; repeat split; auto; discriminate.
Qed.
Lemma open_eq d k o : fits d k o ->
  exists o', OpenPresets d k o = (stored d, o') /\ cur o' = cur o /\ num o' = num o /\ read_from o' = Some k /\ fits d k o' /\
    (forall ps, stored d = Some ps -> search d = Some (read_from_ext_ o', iteration_ o', ps)) /\
    (stored d = None -> read_from_ext_ o' = CONFIG_UNKNOWN).
Proof.
  intros F. unfold OpenPresets.
  set (o1 := if same (read_from o) k then o else set_src o CONFIG_UNKNOWN 0 k).
  assert (C : cur o1 = cur o /\ num o1 = num o /\ read_from o1 = Some k).
  { subst o1. destruct (read_from o) as [n|] eqn:R; cbn; [destruct (Nat.eqb n k) eqn:E|]; cbn; auto. apply Nat.eqb_eq in E. subst. auto. }
  assert (F1 : fits d k o1).
  { subst o1. destruct (same _ _); auto. intros _ N. cbn in N. congruence. }
  clearbody o1. destruct C as (C1&C2&C3). clear F.
  assert (FIND : forall o', (match search d with Some (x, i, ps) => (Some ps, set_src o1 x i k) | None => (None, o1) end) = (stored d, o') ->
     cur o' = cur o /\ num o' = num o /\ read_from o' = Some k /\ fits d k o' /\
    (forall ps, stored d = Some ps -> search d = Some (read_from_ext_ o', iteration_ o', ps)) /\
    (stored d = None -> read_from_ext_ o' = CONFIG_UNKNOWN)).
  { intros o' H. rewrite search_stored in *. destruct (search d) as [[[x i] ps]|] eqn:E.
    - injection H as <-. cbn. refine (conj C1 (conj C2 (conj eq_refl (conj _ (conj _ _))))).
      + intros _ _. cbn. rewrite search_stored, E. split; [discriminate|]. intros _. destruct (search_contents d x i ps E) as (_&->&_). reflexivity.
      + intros ps' H. injection H as ->. reflexivity.
      + discriminate.
    - injection H as <-. refine (conj C1 (conj C2 (conj C3 (conj F1 (conj _ _))))); [discriminate|]. intros _. destruct (read_from_ext_ o1) eqn:X; auto; exfalso.
      + destruct (F1 C3 ltac:(rewrite X; discriminate)) as [Z0 _]. rewrite search_stored, E in Z0. congruence.
      + destruct (F1 C3 ltac:(rewrite X; discriminate)) as [Z0 _]. rewrite search_stored, E in Z0. congruence. }
  assert (SS : (match search d with Some (x, i, ps) => (Some ps, set_src o1 x i k) | None => (None, o1) end) =
    (stored d, match search d with Some (x, i, ps) => set_src o1 x i k | None => o1 end)).
  { rewrite search_stored. destruct (search d) as [[[x i] ps]|]; reflexivity. }
  destruct (iteration_ o1 =? 0) eqn:I0.
  - eexists. split; [exact SS|]. apply FIND; exact SS.
  - destruct (read_from_ext_ o1) eqn:X.
    + eexists. split; [exact SS|]. apply FIND; exact SS.
    + destruct (F1 C3 ltac:(rewrite X; discriminate)) as [_ K]. specialize (K ltac:(lia)). rewrite X in K. cbn [get_file] in K.
      exists o1. rewrite search_stored, K. refine (conj eq_refl (conj C1 (conj C2 (conj C3 (conj F1 (conj _ _)))))); [intros ps H; injection H as <-; now rewrite X|discriminate].
    + destruct (F1 C3 ltac:(rewrite X; discriminate)) as [_ K]. specialize (K ltac:(lia)). rewrite X in K. cbn [get_file] in K.
      exists o1. rewrite search_stored, K. refine (conj eq_refl (conj C1 (conj C2 (conj C3 (conj F1 (conj _ _)))))); [intros ps H; injection H as <-; now rewrite X|discriminate].
Qed.
Lemma fits_set_cur d k o p n : fits d k o -> fits d k (set_cur o p n).
Proof. intros F. exact F. Qed.

(** ** Choosing *)
Lemma SetRom_eq c b o k : (cur (SetRom c b o k), num (SetRom c b o k)) = compiled_in c b k /\
  read_from (SetRom c b o k) = read_from o /\ (forall d n, fits d n o -> fits d n (SetRom c b o k)).
Proof.
  split; [|split; [reflexivity|intros d n F; exact F]]. unfold SetRom, compiled_in. cbn [cur num set_cur].
  set (i := Z.rem _ _). f_equal. replace (0 <=? i) with (negb (i <? 0)) by lia. destruct (i <? 0); cbn [negb]; [reflexivity|].
  unfold factory. change (Preset (body (junk c)) 0) with ((fun p => Preset (body p) 0) (junk c)). now rewrite map_nth.
Qed.
Lemma last_nth {A} (l : list A) d : l <> [] -> last l d = nth (length l - 1) l d.
Proof.
  induction l as [|x l IH]; [congruence|]. intros _. destruct l as [|y l]; [reflexivity|].
  change (last (x :: y :: l) d) with (last (y :: l) d). rewrite IH by discriminate. cbn [length]. replace (S (S (length l)) - 1)%nat with (S (S (length l) - 1))%nat by lia. reflexivity.
Qed.
Lemma SetPreset_eq c b d o k : fits d (dir_of c b) o ->
  (cur (SetPreset c b d o k), num (SetPreset c b d o k)) = meant c b (stored d) k /\
  fits d (dir_of c b) (SetPreset c b d o k) /\ read_from (SetPreset c b d o k) = Some (dir_of c b).
Proof.
  intros F. unfold SetPreset, Load. destruct (open_eq d (dir_of c b) (set_cur o no_preset (num o)) F) as (o'&E&C1&C2&C3&F'&_&_).
  rewrite E. unfold meant. destruct (stored d) as [l|].
  2:{ destruct (SetRom_eq c b o' k) as (R1&R2&R3). refine (conj R1 (conj (R3 _ _ F') _)); rewrite R2; exact C3. }
  set (n := Z.of_nat (length l)). cbn [set_cur cur] in C1.
  destruct ((0 <=? k) && (k <? n)) eqn:K1.
  { replace ((k =? n) && (n =? 0)) with false by lia. replace ((-1 <=? k) && (k <=? n) && (0 <? n)) with true by lia.
    replace (k =? -1) with false by lia. replace (k =? n) with false by lia. exact (conj eq_refl (conj F' C3)). }
  destruct ((k =? -1) && (0 <? n)) eqn:K2.
  { replace ((k =? n) && (n =? 0)) with false by lia. replace ((-1 <=? k) && (k <=? n) && (0 <? n)) with true by lia.
    replace (k =? -1) with true by lia. refine (conj _ (conj F' C3)). cbn [cur num set_cur]. f_equal.
    rewrite last_nth by (intros ->; cbn in n; lia). f_equal. lia. }
  destruct (k =? n) eqn:K3.
  { destruct l as [|p l]; cbn [length] in n.
    - replace ((k =? n) && (n =? 0)) with true by lia. cbn [andb]. replace (n =? 0) with true by lia. refine (conj _ (conj F' C3)). cbn. now rewrite C1.
    - replace ((-1 <=? k) && (k <=? n) && (0 <? n)) with true by lia. replace (n =? 0) with false by lia. cbn [andb].
      replace (k =? -1) with false by lia. exact (conj eq_refl (conj F' C3)). }
  cbn [andb]. replace ((-1 <=? k) && (k <=? n) && (0 <? n)) with false by lia.
  destruct (SetRom_eq c b (set_cur o' (cur o') (-1)) k) as (R1&R2&R3). refine (conj R1 (conj (R3 _ _ F') _)); rewrite R2; exact C3.
Qed.

(** ** Saving *)
Definition other (x : ext) : ext := match x with CONFIG_INI => CONFIG_TMP | _ => CONFIG_INI end.
Lemma write_search d y i ps h ps' : search d = Some (y, i, ps) ->
  let d' := set_file d (other y) (harmed h (get_file d (other y)) (Safe (i + 1) true ps')) in
  match h with Complete => search d' = Some (other y, i + 1, ps') | _ => stored d' = Some ps end.
Proof.
  unfold search, stored. destruct d as [fi ft cs]. cbn [ini tmp]. cbn zeta.
  destruct fi as [|a|ii [] a], ft as [|b|j [] b]; cbn [iteration]; try (destruct (_ <? _) eqn:L); cbn; intros H; inversion H; subst; clear H;
    destruct h; cbn; try reflexivity; try discriminate;
    repeat match goal with
    | |- context [?a <? ?b] => let e := fresh in destruct (a <? b) eqn:e; cbn; try reflexivity; try lia
    end.
Qed.
Lemma create_none d h f : stored d = None -> h <> Complete -> stored (set_file d CONFIG_INI (harmed h (ini d) f)) = None.
Proof.
  destruct d as [fi ft cs]. unfold stored. cbn. destruct fi as [|a|ii [] a], ft as [|b|j [] b]; cbn; intros H N; try discriminate; destruct h; cbn; auto; congruence.
Qed.
Lemma create_done d i ps : stored d = None -> search (set_file d CONFIG_INI (Safe i true ps)) = Some (CONFIG_INI, i, ps).
Proof.
  destruct d as [fi ft cs]. unfold stored, search. cbn. destruct fi as [|a|ii [] a], ft as [|b|j [] b]; cbn; intros H; try discriminate;
    destruct (_ <? _); reflexivity.
Qed.
Lemma curstate_set_file d x f : curstate (set_file d x f) = curstate d.
Proof. destruct x; reflexivity. Qed.

Definition save_result (c : cfg) (b : nat) (h1 h2 : harm) (l : option (list preset)) (p : preset) (n pos : Z) : option (list preset) :=
  match h1, h2 with
  | Complete, Complete => Some (insert_at pos p (remove_at n (offered c b l)))
  | Complete, _ => Some (offered c b l)
  | _, _ => l
  end.
Lemma SaveAt_eq c b h1 h2 d o pos : fits d (dir_of c b) o ->
  let '(d', o') := SaveAt c b h1 h2 d o pos in
  curstate d' = curstate d /\ stored d' = save_result c b h1 h2 (stored d) (cur o) (num o) pos /\
  (h1 = Complete -> h2 = Complete -> cur o' = cur o /\ num o' = pos /\ fits d' (dir_of c b) o' /\ read_from o' = Some (dir_of c b)).
Proof.
  intros F. unfold SaveAt. set (k := dir_of c b) in *. destruct (open_eq d k o F) as (o1&E&C1&C2&C3&F1&S1&N1). rewrite E.
  (* the write that follows, once a file is open *)
  assert (W : forall d1 o1 ps, cur o1 = cur o -> num o1 = num o -> curstate d1 = curstate d -> search d1 = Some (read_from_ext_ o1, iteration_ o1, ps) ->
    let x := match read_from_ext_ o1 with CONFIG_INI => CONFIG_TMP | _ => CONFIG_INI end in
    let d2 := set_file d1 x (harmed h2 (get_file d1 x) (Safe (iteration_ o1 + 1) true (rewrite_list (cur o1) (num o1) pos ps))) in
    let o2 := set_cur (set_src o1 x (iteration_ o1 + 1) k) (cur o1) pos in
    curstate d2 = curstate d /\
    stored d2 = match h2 with Complete => Some (insert_at pos (cur o) (remove_at (num o) ps)) | _ => Some ps end /\
    (h2 = Complete -> cur o2 = cur o /\ num o2 = pos /\ fits d2 k o2 /\ read_from o2 = Some k)).
  { intros d1 o2 ps A1 A2 A3 A4. cbn zeta. pose proof (write_search d1 _ _ _ h2 (rewrite_list (cur o2) (num o2) pos ps) A4) as Q. cbn zeta in Q.
    change (match read_from_ext_ o2 with CONFIG_INI => CONFIG_TMP | _ => CONFIG_INI end) with (other (read_from_ext_ o2)).
    rewrite curstate_set_file. refine (conj A3 (conj _ _)).
    - destruct h2; try exact Q. rewrite search_stored, Q, rewrite_list_eq, A1, A2. reflexivity.
    - intros ->. cbn [cur num set_cur]. refine (conj A1 (conj eq_refl (conj _ eq_refl))). intros _ _. cbn [read_from_ext_ iteration_ set_cur set_src].
      rewrite search_stored, Q. split; [discriminate|]. intros _. f_equal. f_equal. destruct (read_from_ext_ o2); reflexivity. }
  destruct (stored d) as [ps|] eqn:St.
  - destruct h1; try (refine (conj eq_refl (conj _ _)); [rewrite St; destruct h2; reflexivity|discriminate]).
    specialize (W d o1 ps C1 C2 eq_refl (S1 ps eq_refl)). cbn zeta in W. destruct W as (W1&W2&W3). refine (conj W1 (conj _ (fun _ => W3))).
    rewrite W2. cbn. destruct h2; reflexivity.
  - pose proof (N1 eq_refl) as N1'.
    set (d1 := set_file d CONFIG_INI (harmed h1 (ini d) (Safe (iteration_ o1 + 1) true (compiled c b)))).
    destruct h1.
    + subst d1. destruct (OpenPresets (set_file _ _ _) _ _) as [f o2]. refine (conj (curstate_set_file _ _ _) (conj _ _)); [|discriminate].
      rewrite create_none by (auto; discriminate). cbn. destruct h2; reflexivity.
    + subst d1. destruct (OpenPresets (set_file _ _ _) _ _) as [f o2]. refine (conj (curstate_set_file _ _ _) (conj _ _)); [|discriminate].
      rewrite create_none by (auto; discriminate). cbn. destruct h2; reflexivity.
    + subst d1. destruct (OpenPresets (set_file _ _ _) _ _) as [f o2]. refine (conj (curstate_set_file _ _ _) (conj _ _)); [|discriminate].
      rewrite create_none by (auto; discriminate). cbn. destruct h2; reflexivity.
    + cbn [harmed] in d1. pose proof (create_done d (iteration_ o1 + 1) (compiled c b) St) as CD. fold d1 in CD.
      assert (F2 : fits d1 k (set_src o1 (read_from_ext_ o1) (iteration_ o1 + 1) k)).
      { intros _ X. cbn in X. congruence. }
      destruct (open_eq d1 k _ F2) as (o2&E2&D1&D2&D3&F3&S3&N3). rewrite E2.
      assert (St1 : stored d1 = Some (compiled c b)) by now rewrite search_stored, CD. rewrite St1.
      specialize (W d1 o2 (compiled c b)). cbn zeta in W. destruct W as (W1&W2&W3).
      * now rewrite D1. * now rewrite D2. * apply curstate_set_file. * apply S3, St1.
      * refine (conj W1 (conj _ (fun _ => W3))). rewrite W2. cbn. unfold offered. destruct h2; reflexivity.
Qed.

(** ** The refinement *)
Definition R (s : state) (a : astate) : Prop :=
  (forall k, lists a k = stored (disk s k)) /\ (forall k, numbers a k = curstate (disk s k)) /\
  ablade a = blade s /\ current a = cur (main s) /\ position a = num (main s) /\ color a = shown s /\ chosen a = selected s /\
  (forall k, fits (disk s k) k (main s)).
Lemma R_here c s a : R s a -> here c a = stored (at_ s c).
Proof. intros (H1&_&H3&_). unfold here, at_. now rewrite H3, H1. Qed.
Ltac R_split := refine (conj _ (conj _ (conj _ (conj _ (conj _ (conj _ (conj _ _))))))); cbn; auto.
Ltac R_intro := match goal with H : R _ _ |- _ => destruct H as (H1&H2&H3&H4&H5&H6&H7&H8) end.
(** Putting back a directory and an object of our own *)
Lemma R_put c s a d o l p n : R s a -> stored d = l -> curstate d = curstate (at_ s c) -> cur o = p -> num o = n ->
  fits d (dir_of c (blade s)) o -> read_from o = Some (dir_of c (blade s)) \/ (read_from o = read_from (main s) /\ read_from_ext_ o = read_from_ext_ (main s) /\ iteration_ o = iteration_ (main s)) ->
  R (put c s d o) (use (A (KeepSpec.upd (lists a) (dir_of c (ablade a)) l) (numbers a) (ablade a) (current a) (position a) (color a) (chosen a)) (p, n)).
Proof.
  intros HR S C P N F RF. R_intro. unfold R, put, use. cbn. unfold KeepModel.upd, KeepSpec.upd. rewrite H3.
  R_split.
  - intros k. destruct (Nat.eqb k _); [now symmetry|auto].
  - intros k. destruct (Nat.eqb k _) eqn:E; auto. apply Nat.eqb_eq in E. subst k. rewrite H2, C. reflexivity.
  - intros k. destruct (Nat.eqb k _) eqn:E; [apply Nat.eqb_eq in E; subst k; exact F|].
    destruct RF as [RF|(R1&R2&R3)].
    + intros X. rewrite RF in X. injection X as <-. rewrite Nat.eqb_refl in E. discriminate.
    + specialize (H8 k). unfold fits in *. rewrite R1, R2, R3. exact H8.
Qed.
Lemma upd_same {X} (g : nat -> X) k n : KeepSpec.upd g k (g k) n = g n.
Proof. unfold KeepSpec.upd. destruct (Nat.eqb n k) eqn:E; auto. apply Nat.eqb_eq in E. now subst. Qed.
Lemma R_ext s a a' : R s a -> (forall k, lists a' k = lists a k) -> (forall k, numbers a' k = numbers a k) -> ablade a' = ablade a -> current a' = current a ->
  position a' = position a -> color a' = color a -> chosen a' = chosen a -> R s a'.
Proof. intros H E1 E2 E3 E4 E5 E6 E7. R_intro. unfold R. rewrite E3, E4, E5, E6, E7. R_split; intros k; rewrite ?E1, ?E2; auto. Qed.
Lemma R_use c s a p n : R s a -> R (put c s (at_ s c) (set_cur (main s) p n)) (use a (p, n)).
Proof.
  intros H. pose proof (R_here c s a H) as RH. assert (F : fits (at_ s c) (dir_of c (blade s)) (set_cur (main s) p n)) by (R_intro; apply H8).
  pose proof (R_put c s a (at_ s c) (set_cur (main s) p n) (here c a) p n H (eq_sym RH) eq_refl eq_refl eq_refl F ltac:(right; auto)) as K.
  eapply R_ext; [exact K|..]; auto. intros k. cbn. unfold here. now rewrite upd_same.
Qed.
Lemma R_save_at c s a pos : R s a -> R (save_at c s pos) (save_to c a pos).
Proof.
  intros H. pose proof (R_here c s a H) as RH. assert (F : fits (at_ s c) (dir_of c (blade s)) (main s)) by (R_intro; apply H8).
  unfold save_at. pose proof (SaveAt_eq c (blade s) Complete Complete (at_ s c) (main s) pos F) as K.
  destruct (SaveAt _ _ _ _ _ _ _) as [d o]. destruct K as (K1&K2&K3). destruct (K3 eq_refl eq_refl) as (K4&K5&K6&K7).
  unfold save_to, keep. cbn [save_result] in K2.
  assert (E : current a = cur (main s) /\ position a = num (main s) /\ ablade a = blade s) by (R_intro; auto). destruct E as (E1&E2&E3).
  rewrite RH, E1, E2, E3, <- K2. 
  pose proof (R_put c s a d o (stored d) (cur (main s)) pos H eq_refl K1 K4 K5 K6 (or_introl K7)) as Q. rewrite E3 in Q. exact Q.
Qed.
Lemma R_save_as c s a p : R s a -> R (save_as c s p) (save_new c a p).
Proof.
  intros H. unfold save_as, save_new. assert (E : position a = num (main s)) by (R_intro; auto). rewrite <- E. apply R_save_at, R_use, H.
Qed.
Lemma R_color c s a : R s a -> R (SaveColorChangeIfNeeded c s) (save_paint c a).
Proof.
  intros H. unfold SaveColorChangeIfNeeded, save_paint. assert (E : current a = cur (main s) /\ color a = shown s) by (R_intro; auto). destruct E as [-> ->].
  destruct (_ && _); auto. apply R_save_as, H.
Qed.
Lemma R_shown s a v : R s a -> R (set_shown s v) (paint a v).
Proof. intros H. R_intro. R_split. Qed.
Lemma R_selected s a v : R s a -> R (set_selected s v) (mark a v).
Proof. intros H. R_intro. R_split. Qed.
Lemma R_select c s a k : R s a -> R (PropSetPreset c s k) (select c a k).
Proof.
  intros H0. unfold PropSetPreset, select. pose proof (R_color c s a H0) as H. clear H0.
  set (s1 := SaveColorChangeIfNeeded c s) in *. set (a1 := save_paint c a) in *. clearbody s1 a1. clear s a.
  pose proof (R_here c s1 a1 H) as RH. assert (F : fits (at_ s1 c) (dir_of c (blade s1)) (main s1)) by (R_intro; apply H8).
  destruct (SetPreset_eq c (blade s1) (at_ s1 c) (main s1) k F) as (Q1&Q2&Q3). set (o := SetPreset _ _ _ _ _) in *. clearbody o.
  assert (E : ablade a1 = blade s1) by (R_intro; auto). rewrite RH, E, <- Q1. cbn [fst]. apply R_shown.
  pose proof (R_put c s1 a1 (at_ s1 c) o (stored (at_ s1 c)) (cur o) (num o) H eq_refl eq_refl eq_refl eq_refl Q2 (or_introl Q3)) as K.
  eapply R_ext; [exact K|..]; auto. intros n. cbn. rewrite <- RH. unfold here. now rewrite upd_same.
Qed.
Lemma search_curstate d k : search (set_curstate d k) = search d.
Proof. reflexivity. Qed.
Lemma R_note c s a k : R s a -> R (SaveState c s k) (note c a k).
Proof.
  intros H. R_intro. unfold SaveState, note, put, R. cbn. unfold KeepModel.upd, KeepSpec.upd, at_. rewrite H3. R_split.
  - intros n. rewrite H1. destruct (Nat.eqb n _) eqn:E; auto. apply Nat.eqb_eq in E. subst. reflexivity.
  - intros n. destruct (Nat.eqb n _) eqn:E; auto.
  - intros n. specialize (H8 n). destruct (Nat.eqb n _) eqn:E; auto. apply Nat.eqb_eq in E. subst. intros A1 A2. destruct (H8 A1 A2) as [B1 B2]. split; [exact B1|].
    intros A3. rewrite search_curstate. rewrite (B2 A3). destruct (read_from_ext_ (main s)); reflexivity.
Qed.
Lemma R_put_in c s a b : R s a -> R (FindBlade c s b) (put_in c a b).
Proof.
  intros H. unfold FindBlade, put_in. set (s1 := set_blade s b). set (a1 := A _ _ b _ _ _ _).
  assert (H' : R s1 a1) by (R_intro; R_split). replace (numbers a1 (dir_of c b)) with (curstate (at_ s1 c)); [apply R_select, H'|].
  R_intro. symmetry. apply H2.
Qed.
Lemma R_boot c g a b : (forall k, lists a k = stored (g k)) -> (forall k, numbers a k = curstate (g k)) -> R (boot c g b) (power_on c a b).
Proof.
  intros L N. unfold boot, power_on. apply R_put_in. R_split. intros k X. discriminate X.
Qed.
Lemma look_eq c s a k : R s a -> (cur (look c s k), num (look c s k)) = meant c (ablade a) (here c a) k.
Proof.
  intros H. pose proof (R_here c s a H) as RH. assert (E : ablade a = blade s) by (R_intro; auto). rewrite RH, E.
  unfold look. destruct (SetPreset_eq c (blade s) (at_ s c) obj0 k) as (Q&_); [intros X; discriminate X|exact Q].
Qed.
Lemma meant_in c b l k : 0 <= k < Z.of_nat (length (offered c b l)) -> meant c b l k = (nth (Z.to_nat k) (offered c b l) no_preset, k).
Proof.
  intros H. unfold meant, offered in *. destruct l as [l|].
  - replace ((k =? Z.of_nat (length l)) && (Z.of_nat (length l) =? 0)) with false by lia.
    replace ((-1 <=? k) && (k <=? Z.of_nat (length l)) && (0 <? Z.of_nat (length l))) with true by lia.
    replace (k =? -1) with false by lia. replace (k =? Z.of_nat (length l)) with false by lia. reflexivity.
  - unfold factory in H. rewrite map_length in H. unfold compiled_in.
    assert (E : Z.rem (Z.of_nat (length (rom c b)) + k) (Z.of_nat (length (rom c b))) = k).
    { rewrite Z.rem_mod_nonneg by lia. rewrite <- (Z.mul_1_l (Z.of_nat (length (rom c b)))) at 1. rewrite Z.add_comm, Z.mod_add by lia. apply Z.mod_small. lia. }
    rewrite E. replace (k <? 0) with false by lia. f_equal. apply nth_indep. unfold factory. rewrite map_length. lia.
Qed.
Lemma meant_end c b l : has_presets c -> let n := Z.of_nat (length (offered c b l)) in snd (meant c b l n) <> n.
Proof.
  intros HP. cbn zeta. unfold meant, offered. destruct l as [l|].
  - set (n := Z.of_nat (length l)). rewrite Z.eqb_refl. cbn [andb]. destruct (n =? 0) eqn:E; cbn [snd]; [lia|].
    replace ((-1 <=? n) && (n <=? n) && (0 <? n)) with true by lia. replace (n =? -1) with false by lia. cbn. lia.
  - unfold factory. rewrite map_length. unfold compiled_in. cbn [snd].
    assert (length (rom c b) <> 0%nat) by (specialize (HP b); destruct (rom c b); cbn; congruence).
    replace (Z.of_nat (length (rom c b)) + Z.of_nat (length (rom c b))) with (2 * Z.of_nat (length (rom c b))) by lia.
    rewrite Z.rem_mul by lia. lia.
Qed.
Lemma skipn_next {A} n : forall (l r : list A) p, skipn n l = p :: r -> skipn (S n) l = r.
Proof. induction n as [|n IH]; intros [|x l] r p E; try discriminate; [injection E as _ ->; reflexivity|]. exact (IH l r p E). Qed.
Lemma list_eq c s a : has_presets c -> R s a -> forall fuel o i, 0 <= i -> fits (at_ s c) (dir_of c (blade s)) o -> i <= Z.of_nat (length (offered c (ablade a) (here c a))) ->
  list_presets fuel c s o i = firstn fuel (skipn (Z.to_nat i) (offered c (ablade a) (here c a))).
Proof.
  intros HP H. assert (E : ablade a = blade s) by (R_intro; auto). pose proof (R_here c s a H) as RH. rewrite E, RH.
  set (l := offered c (blade s) (stored (at_ s c))).
  induction fuel as [|fuel IH]; intros o i I F L; [reflexivity|]. cbn [list_presets].
  destruct (SetPreset_eq c (blade s) (at_ s c) o i F) as (Q1&Q2&_). set (o' := SetPreset _ _ _ _ _) in *.
  destruct (Z.eq_dec i (Z.of_nat (length l))) as [Ei|Ni].
  - pose proof (meant_end c (blade s) (stored (at_ s c)) HP) as M. cbn zeta in M. fold l in M. rewrite <- Ei, <- Q1 in M. cbn [snd] in M.
    replace (num o' =? i) with false by lia. rewrite skipn_all2 by lia. reflexivity.
  - rewrite (meant_in c (blade s) (stored (at_ s c)) i) in Q1 by (fold l; lia). fold l in Q1. injection Q1 as Q1 Qn. rewrite Qn, Z.eqb_refl, Q1.
    rewrite IH by (auto; lia). destruct (skipn (Z.to_nat i) l) as [|p r] eqn:S0.
    + exfalso. assert (length (skipn (Z.to_nat i) l) = 0%nat) by now rewrite S0. rewrite skipn_length in *. lia.
    + cbn [firstn]. f_equal.
      * rewrite <- (firstn_skipn (Z.to_nat i) l), S0, app_nth2; rewrite firstn_length_le by lia; [|lia]. now rewrite Nat.sub_diag.
      * f_equal. replace (Z.to_nat (i + 1)) with (S (Z.to_nat i)) by lia. now apply skipn_next with (p := p).
Qed.
Lemma num_main s a : R s a -> position a = num (main s).
Proof. intros H. R_intro. auto. Qed.
Lemma R_cut c s a h1 h2 p n pos b : R s a ->
  R (let '(d, _) := SaveAt c (blade s) h1 h2 (at_ s c) (set_cur (main s) p n) pos in boot c (KeepModel.upd (disk s) (dir_of c (blade s)) d) b)
    (power_on c (match h1, h2 with
                 | Complete, Complete => save_to c (use a (p, n)) pos
                 | Complete, _ => keep c a (offered c (ablade a) (here c a))
                 | _, _ => a
                 end) b).
Proof.
  intros H. pose proof (R_here c s a H) as RH. assert (F : fits (at_ s c) (dir_of c (blade s)) (set_cur (main s) p n)) by (R_intro; apply H8).
  pose proof (SaveAt_eq c (blade s) h1 h2 (at_ s c) (set_cur (main s) p n) pos F) as K. destruct (SaveAt _ _ _ _ _ _ _) as [d o].
  destruct K as (K1&K2&_). cbn [cur num set_cur] in K2. assert (E : ablade a = blade s) by (R_intro; auto). rewrite E, RH.
  apply R_boot; intros k; unfold KeepModel.upd; destruct (Nat.eqb k (dir_of c (blade s))) eqn:X.
  - rewrite K2. apply Nat.eqb_eq in X. subst k.
    destruct h1; cbn [save_result]; try (R_intro; apply H1); destruct h2; cbn [save_result];
      unfold save_to, keep, use, KeepSpec.upd; cbn; rewrite E, Nat.eqb_refl; try reflexivity.
    rewrite <- RH. unfold here. cbn. rewrite E. reflexivity.
  - R_intro. destruct h1; try apply H1; destruct h2; unfold save_to, keep, use, KeepSpec.upd; cbn; rewrite E, X; apply H1.
  - rewrite K1. apply Nat.eqb_eq in X. subst k. R_intro. destruct h1; try apply H2; destruct h2; cbn; apply H2.
  - R_intro. destruct h1; try apply H2; destruct h2; cbn; apply H2.
Qed.
Lemma R_step c s a e : has_presets c -> R s a -> no_insert e -> R (fst (step c s e)) (fst (astep c a e)) /\ snd (step c s e) = snd (astep c a e).
Proof.
  intros HP H NI. pose proof (num_main s a H) as N. assert (HC : current a = cur (main s)) by (R_intro; auto).
  destruct e; cbn [step astep]; rewrite <- ?N, <- ?HC.
  - split; [|reflexivity]. R_intro. apply R_boot; auto.
  - split; [|reflexivity]. apply R_put_in, H.
  - split; [|reflexivity]. apply R_select, R_note, H.
  - destruct (k =? position a); (split; [|reflexivity]); [exact H|]. apply R_select, R_note, H.
  - split; [|reflexivity]. apply R_select. unfold SaveStateIf. destruct (save_preset c); [apply R_note|]; exact H.
  - split; [|reflexivity]. apply R_select. unfold SaveStateIf. destruct (save_preset c); [apply R_note|]; exact H.
  - split; [|reflexivity]. apply R_select. unfold SaveStateIf. destruct (save_preset c); [apply R_note|]; exact H.
  - pose proof (R_here c s a H) as RH. assert (F : fits (at_ s c) (dir_of c (blade s)) (main s)) by (R_intro; apply H8).
    unfold Load. destruct (open_eq (at_ s c) (dir_of c (blade s)) (main s) F) as (o'&E&C1&C2&C3&F'&_&_). rewrite E, RH.
    assert (P : forall o p n, cur o = p -> num o = n -> fits (at_ s c) (dir_of c (blade s)) o -> read_from o = Some (dir_of c (blade s)) -> R (put c s (at_ s c) o) (use a (p, n))).
    { intros o p n A1 A2 A3 A4. pose proof (R_put c s a (at_ s c) o (stored (at_ s c)) p n H eq_refl eq_refl A1 A2 A3 (or_introl A4)) as K.
      eapply R_ext; [exact K|..]; auto. intros k. cbn. rewrite <- RH. unfold here. now rewrite upd_same. }
    destruct (stored (at_ s c)) as [[|p l]|] eqn:St; cbn [length]; split; try reflexivity; cbn [fst]; apply R_select, R_save_at.
    + cbn. apply P; cbn; auto. congruence.
    + replace ((0 <=? -1) && (-1 <? Z.of_nat (S (length l)))) with false by lia. replace ((-1 =? -1) && (0 <? Z.of_nat (S (length l)))) with true by lia.
      apply P; cbn; auto.
    + pose proof (P o' (cur (main s)) (num (main s)) C1 C2 F' C3) as K. eapply R_ext; [exact K|..]; cbn; auto.
  - split; [|reflexivity]. cbn [fst]. apply R_save_as, H.
  - split; [|reflexivity]. cbn [fst]. replace (position a) with (num (main (save_as c s (Preset x (variation (current a)))))).
    + apply R_select, R_save_as, H.
    + rewrite <- (num_main _ _ (R_save_as c s a _ H)). reflexivity.
  - split; [|reflexivity]. apply R_save_at, H.
  - split; [|reflexivity]. cbn [fst]. apply R_save_at. pose proof (R_use c s a (current a) (-1) H) as K. rewrite HC in *.
    clear - K H. R_intro. destruct H as (G1&G2&G3&G4&G5&G6&G7&G8). R_split.
  - split; [|reflexivity]. apply R_save_at, H.
  - split; [|reflexivity]. apply R_shown, H.
  - split; [|reflexivity]. apply R_color, H.
  - destruct (0 <? position a); (split; [|reflexivity]); cbn [fst]; [apply R_save_at|]; apply R_selected, H.
  - pose proof (look_eq c (set_selected s (-1)) (mark a (-1)) (position a + 1) (R_selected s a (-1) H)) as L.
    change (here c (mark a (-1))) with (here c a) in L. change (ablade (mark a (-1))) with (ablade a) in L. rewrite <- L. cbn [snd].
    destruct (_ =? position a + 1); (split; [|reflexivity]); cbn [fst]; [apply R_save_at|]; apply R_selected, H.
  - split; [|reflexivity]. apply R_selected, H.
  - exfalso. now apply NI.
  - pose proof (look_eq c s a 1 H) as L. rewrite <- L. cbn [snd]. destruct (_ && _); (split; [|reflexivity]); [exact H|]. apply R_save_at, H.
  - split; [exact H|]. cbn [snd]. f_equal. f_equal. rewrite (list_eq c s a HP H) by (try lia; intros X; discriminate X). reflexivity.
  - split; [exact H|]. reflexivity.
  - pose proof (R_cut c s a h1 h2 (Preset x (variation (current a))) (position a) (position a) b H) as K. cbn zeta in K.
    destruct (SaveAt _ _ _ _ _ _ _) as [d o]. split; [exact K|reflexivity].
  - pose proof (R_cut c s a h1 h2 (cur (main s)) (num (main s)) pos b H) as K. cbn zeta in K.
    replace (set_cur (main s) (cur (main s)) (num (main s))) with (main s) in K by (destruct (main s); reflexivity).
    destruct (SaveAt _ _ _ _ _ _ _) as [d o]. split; [|reflexivity]. cbn [fst].
    rewrite <- HC, <- N in K. replace (use a (current a, position a)) with a in K by (destruct a; reflexivity). exact K.
Qed.
Lemma R_run c : has_presets c -> forall ops s a, R s a -> Forall no_insert ops ->
  run_outs (step c) s ops = run_outs (astep c) a ops /\ R (run_state (step c) s ops) (run_state (astep c) a ops).
Proof.
  intros HP. induction ops as [|e ops IH]; intros s a H F; [split; [reflexivity|exact H]|]. inversion F; subst.
  destruct (R_step c s a e HP H ltac:(assumption)) as [K1 K2]. cbn [run_outs run_state].
  destruct (step c s e) as [s' o], (astep c a e) as [a' o']. cbn [fst snd] in *. subst.
  destruct (IH s' a' K1 ltac:(assumption)) as [-> K]. auto.
Qed.
Lemma R_start c g b : R (boot c g b) (start c g b).
Proof. apply R_boot; auto. Qed.

(** ** Consequences *)
Definition areach (c : cfg) (g : nat -> dir) (b : nat) (ops : list op) : astate := run_state (astep c) (start c g b) ops.
Lemma reach_R c g b ops : has_presets c -> Forall no_insert ops -> R (reach c g b ops) (areach c g b ops).
Proof. intros HP F. apply (proj2 (R_run c HP ops _ _ (R_start c g b) F)). Qed.
Lemma R_presets c s a : R s a -> presets c s = offered c (ablade a) (here c a).
Proof. intros H. rewrite (R_here c s a H). assert (E : ablade a = blade s) by (R_intro; auto). now rewrite E. Qed.
Lemma save_paint_fresh c a : variation (current a) = color a -> save_paint c a = a.
Proof. intros E. unfold save_paint. rewrite E, Z.eqb_refl, andb_false_r. reflexivity. Qed.
Lemma power_on_lists c a b : lists (power_on c a b) = lists a /\ numbers (power_on c a b) = numbers a /\ ablade (power_on c a b) = b.
Proof.
  unfold power_on, put_in, select. cbn zeta. rewrite save_paint_fresh by reflexivity. auto.
Qed.
Lemma lists_save_to c a pos : here c (save_to c a pos) = Some (insert_at pos (current a) (remove_at (position a) (offered c (ablade a) (here c a)))).
Proof. unfold here. cbn. unfold KeepSpec.upd. now rewrite Nat.eqb_refl. Qed.
Lemma reboot_list c s a : R s a -> presets c (fst (step c s (Boot (blade s)))) = presets c s.
Proof.
  intros H. assert (E : ablade a = blade s) by (R_intro; auto).
  assert (H' : R (boot c (disk s) (blade s)) (power_on c a (blade s))) by (R_intro; apply R_boot; auto).
  cbn [step fst]. rewrite (R_presets c _ _ H'), (R_presets c _ _ H). unfold here.
  destruct (power_on_lists c a (blade s)) as (-> & _ & ->). now rewrite E.
Qed.
Lemma cut_list c s a x h1 h2 : R s a ->
  let s' := fst (step c s (CutEdit x h1 h2 (blade s))) in let n := num (main s) in
  presets c s' = presets c s \/ presets c s' = insert_at n (Preset x (variation (cur (main s)))) (remove_at n (presets c s)).
Proof.
  intros H. cbn zeta. assert (E : ablade a = blade s) by (R_intro; auto).
  pose proof (R_cut c s a h1 h2 (Preset x (variation (cur (main s)))) (num (main s)) (num (main s)) (blade s) H) as K. cbn [step].
  destruct (SaveAt _ _ _ _ _ _ _) as [d o]. cbn [fst]. rewrite (R_presets c _ _ K), (R_presets c _ _ H). unfold here.
  match goal with |- context [power_on c ?m ?b] => destruct (power_on_lists c m b) as (-> & _ & ->) end. rewrite E.
  destruct h1; auto. destruct h2; try (left; cbn; unfold KeepSpec.upd; rewrite E, Nat.eqb_refl; cbn; unfold here; rewrite ?E; reflexivity).
  right. cbn. unfold KeepSpec.upd. rewrite E, Nat.eqb_refl. cbn. unfold here. cbn. rewrite ?E. reflexivity.
Qed.
Lemma cut_move_list c s a pos h1 h2 : R s a ->
  let s' := fst (step c s (CutMove pos h1 h2 (blade s))) in
  presets c s' = presets c s \/ presets c s' = insert_at pos (cur (main s)) (remove_at (num (main s)) (presets c s)).
Proof.
  intros H. cbn zeta. assert (E : ablade a = blade s) by (R_intro; auto).
  pose proof (R_cut c s a h1 h2 (cur (main s)) (num (main s)) pos (blade s) H) as K. cbn [step].
  replace (set_cur (main s) (cur (main s)) (num (main s))) with (main s) in K by (destruct (main s); reflexivity).
  destruct (SaveAt _ _ _ _ _ _ _) as [d o]. cbn [fst]. rewrite (R_presets c _ _ K), (R_presets c _ _ H). unfold here.
  match goal with |- context [power_on c ?m ?b] => destruct (power_on_lists c m b) as (-> & _ & ->) end. rewrite E.
  destruct h1; auto. destruct h2; try (left; cbn; unfold KeepSpec.upd; rewrite E, Nat.eqb_refl; cbn; unfold here; rewrite ?E; reflexivity).
  right. cbn. unfold KeepSpec.upd. rewrite E, Nat.eqb_refl. cbn. unfold here. cbn. rewrite ?E. reflexivity.
Qed.

(** Lists *)
Lemma remove_mid {A} (a : list A) x b : remove_at (Z.of_nat (length a)) (a ++ x :: b) = a ++ b.
Proof.
  unfold remove_at. replace (Z.of_nat (length a) <? 0) with false by lia. rewrite Nat2Z.id, firstn_app, Nat.sub_diag, firstn_all. cbn [firstn]. rewrite app_nil_r.
  f_equal. rewrite skipn_app. rewrite skipn_all2 by lia. replace (S (length a) - length a)%nat with 1%nat by lia. reflexivity.
Qed.
Lemma insert_mid {A} (a : list A) x b : insert_at (Z.of_nat (length a)) x (a ++ b) = a ++ x :: b.
Proof.
  unfold insert_at. rewrite app_length. replace ((0 <=? Z.of_nat (length a)) && (Z.of_nat (length a) <=? Z.of_nat (length a + length b))) with true by lia.
  rewrite Nat2Z.id, firstn_app, Nat.sub_diag, firstn_all, skipn_app, skipn_all, Nat.sub_diag. cbn. now rewrite app_nil_r.
Qed.
Lemma remove_length {A} n (l : list A) : 0 <= n < Z.of_nat (length l) -> S (length (remove_at n l)) = length l.
Proof. intros H. unfold remove_at. replace (n <? 0) with false by lia. rewrite app_length, firstn_length, skipn_length. lia. Qed.
Lemma remove_out {A} n (l : list A) : ~ 0 <= n < Z.of_nat (length l) -> remove_at n l = l.
Proof. intros H. unfold remove_at. destruct (n <? 0) eqn:E; auto. rewrite firstn_all2, skipn_all2 by lia. apply app_nil_r. Qed.
Lemma insert_length {A} n (x : A) l : 0 <= n <= Z.of_nat (length l) -> length (insert_at n x l) = S (length l).
Proof.
  intros H. unfold insert_at. replace ((0 <=? n) && (n <=? Z.of_nat (length l))) with true by lia. rewrite app_length. cbn [length]. rewrite firstn_length, skipn_length. lia.
Qed.
Lemma insert_out {A} n (x : A) l : ~ 0 <= n <= Z.of_nat (length l) -> insert_at n x l = l.
Proof. intros H. unfold insert_at. replace ((0 <=? n) && (n <=? Z.of_nat (length l))) with false by lia. reflexivity. Qed.
Lemma replace_nth {A} n (x d : A) l : 0 <= n < Z.of_nat (length l) ->
  length (insert_at n x (remove_at n l)) = length l /\ nth (Z.to_nat n) (insert_at n x (remove_at n l)) d = x.
Proof.
  intros H. pose proof (remove_length n l H) as L. split; [rewrite insert_length by lia; lia|].
  unfold insert_at. replace ((0 <=? n) && (n <=? Z.of_nat (length (remove_at n l)))) with true by lia.
  rewrite app_nth2; rewrite firstn_length_le by lia; [|lia]. now rewrite Nat.sub_diag.
Qed.

(** Menus *)
Lemma menu_up c s a l x r : R s a -> presets c s = l ++ x :: cur (main s) :: r -> num (main s) = Z.of_nat (S (length l)) ->
  let s' := fst (step c s MUp) in
  presets c s' = l ++ cur (main s) :: x :: r /\ num (main s') = Z.of_nat (length l) /\ cur (main s') = cur (main s) /\ snd (step c s MUp) = [Selected].
Proof.
  intros H L N. cbn [step]. replace (0 <? num (main s)) with true by lia. cbn [fst snd]. set (s1 := set_selected s (-1)).
  pose proof (R_selected s a (-1) H) as H1. fold s1 in H1. pose proof (R_save_at c s1 _ (num (main s) - 1) H1) as K.
  rewrite (R_presets c _ _ K). pose proof K as (_&_&B&C&P&_). rewrite <- C, <- P. rewrite lists_save_to.
  change (ablade (save_to c (mark a (-1)) (num (main s) - 1))) with (ablade a). cbn [offered].
  replace (offered c (ablade (mark a (-1))) (here c (mark a (-1)))) with (presets c s) by (rewrite (R_presets c s a H); reflexivity).
  assert (E1 : current (mark a (-1)) = cur (main s)) by (R_intro; auto). assert (E2 : position (mark a (-1)) = num (main s)) by (R_intro; auto).
  rewrite E1, E2, L, N. refine (conj _ (conj _ (conj _ eq_refl))); [|cbn [save_to use keep position snd]; lia|exact E1].
  change (l ++ x :: cur (main s) :: r) with (l ++ [x] ++ cur (main s) :: r). rewrite app_assoc.
  replace (Z.of_nat (S (length l))) with (Z.of_nat (length (l ++ [x]))) at 2 by (rewrite app_length; cbn; lia). rewrite remove_mid, <- app_assoc.
  replace (Z.of_nat (S (length l)) - 1) with (Z.of_nat (length l)) by lia. apply insert_mid.
Qed.
Lemma menu_down c s a l x r : R s a -> presets c s = l ++ cur (main s) :: x :: r -> num (main s) = Z.of_nat (length l) ->
  let s' := fst (step c s MDown) in
  presets c s' = l ++ x :: cur (main s) :: r /\ num (main s') = Z.of_nat (S (length l)) /\ cur (main s') = cur (main s) /\ snd (step c s MDown) = [Selected].
Proof.
  intros H L N. cbn [step]. set (s1 := set_selected s (-1)). pose proof (R_selected s a (-1) H) as H1. fold s1 in H1.
  pose proof (look_eq c s1 _ (num (main s) + 1) H1) as Q. rewrite meant_in in Q.
  2:{ replace (offered c (ablade (mark a (-1))) (here c (mark a (-1)))) with (presets c s) by (rewrite (R_presets c s a H); reflexivity). rewrite L, app_length. cbn [length]. lia. }
  injection Q as _ Q. rewrite Q, Z.eqb_refl. cbn [fst snd]. pose proof (R_save_at c s1 _ (num (main s) + 1) H1) as K.
  rewrite (R_presets c _ _ K). pose proof K as (_&_&B&C&P&_). rewrite <- C, <- P. rewrite lists_save_to.
  change (ablade (save_to c (mark a (-1)) (num (main s) + 1))) with (ablade a). cbn [offered].
  replace (offered c (ablade (mark a (-1))) (here c (mark a (-1)))) with (presets c s) by (rewrite (R_presets c s a H); reflexivity).
  assert (E1 : current (mark a (-1)) = cur (main s)) by (R_intro; auto). assert (E2 : position (mark a (-1)) = num (main s)) by (R_intro; auto).
  rewrite E1, E2, L, N. refine (conj _ (conj _ (conj _ eq_refl))); [|cbn [save_to use keep position snd]; lia|exact E1].
  rewrite remove_mid. change (l ++ x :: r) with (l ++ [x] ++ r). rewrite app_assoc.
  replace (Z.of_nat (length l) + 1) with (Z.of_nat (length (l ++ [x]))) by (rewrite app_length; cbn; lia). rewrite insert_mid, <- app_assoc. reflexivity.
Qed.
Lemma menu_ends c s a : has_presets c -> R s a ->
  (num (main s) = 0 -> presets c (fst (step c s MUp)) = presets c s /\ snd (step c s MUp) = [Buzz]) /\
  (num (main s) + 1 = Z.of_nat (length (presets c s)) -> presets c (fst (step c s MDown)) = presets c s /\ snd (step c s MDown) = [Buzz]).
Proof.
  intros HP H. split; intros N; cbn [step].
  - rewrite N. cbn. auto.
  - pose proof (look_eq c (set_selected s (-1)) (mark a (-1)) (num (main s) + 1) (R_selected s a (-1) H)) as L.
    pose proof (meant_end c (ablade (mark a (-1))) (here c (mark a (-1))) HP) as M. cbn zeta in M.
    replace (offered c (ablade (mark a (-1))) (here c (mark a (-1)))) with (presets c s) in M by (rewrite (R_presets c s a H); reflexivity).
    rewrite <- N in M. rewrite <- L in M. cbn [snd] in M. replace (num (look c (set_selected s (-1)) (num (main s) + 1)) =? num (main s) + 1) with false by lia. auto.
Qed.
Lemma menu_delete c s a : has_presets c -> R s a ->
  let one := (num (main s) = 0 /\ length (presets c s) = 1%nat) in
  let r := step c s MDelete in
  (one -> r = (s, [CantDelete])) /\
  (~ one -> presets c s <> [] -> presets c (fst r) = remove_at (num (main s)) (presets c s) /\ snd r = [Selected]).
Proof.
  intros HP H. cbn zeta. cbn [step]. pose proof (look_eq c s a 1 H) as L. rewrite (R_presets c s a H).
  set (l := offered c (ablade a) (here c a)) in *.
  assert (Q : l <> [] -> (num (look c s 1) =? 0) = (length l =? 1)%nat).
  { intros NE. destruct (Nat.eq_dec (length l) 1) as [E1|E1].
    - rewrite E1. cbn. assert (M : snd (meant c (ablade a) (here c a) 1) = 0).
      { revert E1. subst l. unfold meant, offered. destruct (here c a) as [l|]; intros E1.
        - rewrite E1. cbn. reflexivity.
        - unfold factory in E1. rewrite map_length in E1. unfold compiled_in. rewrite E1. reflexivity. }
      rewrite <- L in M. cbn in M. lia.
    - rewrite meant_in in L by (fold l; destruct l; [congruence|cbn [length] in *; lia]). injection L as _ L. rewrite L.
      destruct (Nat.eqb_spec (length l) 1); [lia|reflexivity]. }
  split.
  - intros [N E1]. rewrite N, Q by (destruct l; [discriminate|congruence]). rewrite E1. reflexivity.
  - intros NO NE. rewrite Q by auto. replace ((num (main s) =? 0) && (length l =? 1)%nat) with false.
    + cbn [fst snd]. split; [|reflexivity]. pose proof (R_save_at c s a (-1) H) as K. rewrite (R_presets c _ _ K), lists_save_to. cbn [offered]. fold l.
      rewrite insert_out by lia. now rewrite (num_main s a H).
    + symmetry. apply andb_false_iff. destruct (Z.eq_dec (num (main s)) 0) as [E|E]; [|left; lia]. right. apply Nat.eqb_neq. tauto.
Qed.

Lemma run_state_cons {S I O} (f : S -> I -> S * O) s i is : run_state f s (i :: is) = run_state f (fst (f s i)) is.
Proof. reflexivity. Qed.
Lemma run_state_app {S I O} (f : S -> I -> S * O) x : forall s y, run_state f s (x ++ y) = run_state f (run_state f s x) y.
Proof. induction x as [|i x IH]; intros; [reflexivity|]. cbn [app]. rewrite !run_state_cons. apply IH. Qed.
Lemma run_outs_cons {S I O} (f : S -> I -> S * O) s i is : run_outs f s (i :: is) = snd (f s i) :: run_outs f (fst (f s i)) is.
Proof. cbn [run_outs]. now destruct (f s i). Qed.
Lemma run_outs_app {S I O} (f : S -> I -> S * O) x : forall s y, run_outs f s (x ++ y) = run_outs f s x ++ run_outs f (run_state f s x) y.
Proof. induction x as [|i x IH]; intros; [reflexivity|]. cbn [app]. rewrite !run_outs_cons, run_state_cons. cbn [app]. f_equal. apply IH. Qed.
(** Never empty *)
Definition NE (a : astate) : Prop := forall k, lists a k <> Some [].
Lemma NE_offered c a : has_presets c -> NE a -> offered c (ablade a) (here c a) <> [].
Proof.
  intros HP H. unfold offered, here. specialize (H (dir_of c (ablade a))). destruct (lists a _) as [l|]; [congruence|].
  unfold factory. specialize (HP (ablade a)). destruct (rom c (ablade a)); [congruence|discriminate].
Qed.
Lemma NE_keep c a l : NE a -> l <> [] -> NE (keep c a l).
Proof. intros H L k. cbn. unfold KeepSpec.upd. destruct (_ =? _)%nat; [congruence|apply H]. Qed.
Lemma NE_same a a' : NE a -> lists a' = lists a -> NE a'.
Proof. intros H E k. rewrite E. apply H. Qed.
Lemma insert_ne {A} n (x : A) l : l <> [] \/ n = 0 -> insert_at n x l <> [].
Proof.
  intros [H| ->]; [|unfold insert_at; replace ((0 <=? 0) && (0 <=? Z.of_nat (length l))) with true by lia; discriminate]. unfold insert_at. destruct (_ && _); auto. destruct (firstn _ _); discriminate.
Qed.
Lemma len_ne {A} (l : list A) : l <> [] <-> (0 < length l)%nat.
Proof. destruct l; cbn; split; intros; try congruence; try lia; discriminate. Qed.
Lemma replace_ne {A} n (x : A) l : l <> [] -> insert_at n x (remove_at n l) <> [].
Proof.
  intros H. destruct (Z_lt_dec n 0); [|destruct (Z_lt_dec n (Z.of_nat (length l)))].
  - rewrite remove_out by lia. apply insert_ne; auto.
  - apply len_ne. rewrite (proj1 (replace_nth n x x l ltac:(lia))). now apply len_ne.
  - rewrite remove_out by lia. apply insert_ne; auto.
Qed.
Lemma NE_save_to c a pos : NE a -> insert_at pos (current a) (remove_at (position a) (offered c (ablade a) (here c a))) <> [] -> NE (save_to c a pos).
Proof. intros H L. apply (NE_same (keep c a (insert_at pos (current a) (remove_at (position a) (offered c (ablade a) (here c a)))))); [apply NE_keep; auto|reflexivity]. Qed.
Lemma NE_save_new c a p : has_presets c -> NE a -> NE (save_new c a p).
Proof. intros HP H. unfold save_new. apply NE_save_to; [exact H|]. apply replace_ne. now apply (NE_offered c a). Qed.
Lemma NE_paint c a : has_presets c -> NE a -> NE (save_paint c a).
Proof. intros HP H. unfold save_paint. destruct (_ && _); auto. now apply NE_save_new. Qed.
Lemma NE_select c a k : has_presets c -> NE a -> NE (select c a k).
Proof. intros HP H. apply (NE_same (save_paint c a)); [now apply NE_paint|reflexivity]. Qed.
Lemma NE_power_on c a b : NE a -> NE (power_on c a b).
Proof. intros H. apply (NE_same a); [exact H|apply power_on_lists]. Qed.
Lemma NE_step c a e : has_presets c -> NE a -> mild e -> NE (fst (astep c a e)).
Proof.
  intros HP H M. pose proof (NE_offered c a HP H) as O. destruct e; try contradiction; cbn [astep fst].
  - now apply NE_power_on.
  - unfold put_in. now apply NE_select.
  - now apply NE_select.
  - destruct (_ =? _); auto. now apply NE_select.
  - apply NE_select; auto. destruct (save_preset c); exact H.
  - apply NE_select; auto. destruct (save_preset c); exact H.
  - apply NE_select; auto. destruct (save_preset c); exact H.
  - apply NE_select; auto. apply NE_save_to; [destruct (here c a) as [[|]|]; exact H|]. apply insert_ne; auto.
  - now apply NE_save_new.
  - apply NE_select; auto. now apply NE_save_new.
  - apply NE_save_to; [exact H|]. cbn [use position snd]. rewrite remove_out by lia. apply insert_ne; auto.
  - exact H.
  - now apply NE_paint.
  - destruct (0 <? position a) eqn:P; cbn [fst]; [|exact H]. apply NE_save_to; [exact H|].
    change (position (mark a (-1))) with (position a). change (offered c (ablade (mark a (-1))) (here c (mark a (-1)))) with (offered c (ablade a) (here c a)).
    destruct (Z_lt_dec (position a) (Z.of_nat (length (offered c (ablade a) (here c a))))) as [Q|Q].
    + apply len_ne. pose proof (remove_length (position a) (offered c (ablade a) (here c a)) ltac:(lia)). rewrite insert_length; lia.
    + rewrite remove_out by lia. apply insert_ne; auto.
  - destruct (_ =? _) eqn:P; cbn [fst]; [|exact H]. apply NE_save_to; [exact H|].
    change (position (mark a (-1))) with (position a). change (offered c (ablade (mark a (-1))) (here c (mark a (-1)))) with (offered c (ablade a) (here c a)).
    destruct (Z_lt_dec (position a) (Z.of_nat (length (offered c (ablade a) (here c a))))) as [Q|Q]; [|rewrite remove_out by lia; apply insert_ne; auto].
    destruct (Z_lt_dec (position a) 0); [rewrite remove_out by lia; apply insert_ne; auto|].
    destruct (Z.eq_dec (position a + 1) (Z.of_nat (length (offered c (ablade a) (here c a))))) as [E|E].
    + pose proof (meant_end c (ablade a) (here c a) HP) as K. cbn zeta in K. rewrite <- E in K. lia.
    + apply len_ne. pose proof (remove_length (position a) (offered c (ablade a) (here c a)) ltac:(lia)). rewrite insert_length; lia.
  - exact H.
  - destruct (_ && _) eqn:P; cbn [fst]; [exact H|]. apply NE_save_to; [exact H|]. rewrite insert_out by lia.
    destruct (Z_lt_dec (position a) 0); [rewrite remove_out by lia; auto|].
    destruct (Z_lt_dec (position a) (Z.of_nat (length (offered c (ablade a) (here c a))))) as [Q|Q]; [|rewrite remove_out by lia; auto].
    pose proof (remove_length (position a) (offered c (ablade a) (here c a)) ltac:(lia)) as L. apply len_ne.
    destruct (Nat.eq_dec (length (offered c (ablade a) (here c a))) 1) as [E|E]; [|lia]. exfalso.
    assert (P0 : position a = 0) by lia. rewrite P0 in P. cbn in P.
    pose proof (meant_end c (ablade a) (here c a) HP) as K. cbn zeta in K. rewrite E in K. change (Z.of_nat 1) with 1 in K.
    assert (K' : snd (meant c (ablade a) (here c a) 1) = 0).
    { revert E. clear. unfold meant, offered. destruct (here c a) as [l|]; intros E; [rewrite E; reflexivity|].
      unfold factory in E. rewrite map_length in E. unfold compiled_in. rewrite E. reflexivity. }
    lia.
  - exact H.
  - exact H.
  - apply NE_power_on. destruct h1; auto. destruct h2; try (apply NE_keep; auto). now apply NE_save_new.
Qed.
Lemma mild_no_insert e : mild e -> no_insert e.
Proof. intros H ->. exact H. Qed.
Lemma never_empty c g b ops : has_presets c -> (forall k, stored (g k) <> Some []) -> Forall mild ops -> presets c (reach c g b ops) <> [].
Proof.
  intros HP G F. assert (F' : Forall no_insert ops) by (eapply Forall_impl; [|exact F]; apply mild_no_insert).
  pose proof (reach_R c g b ops HP F') as K. rewrite (R_presets c _ _ K). apply NE_offered; auto. unfold areach.
  assert (Q : NE (start c g b)) by (apply NE_power_on; exact G). revert Q F. generalize (start c g b). clear -HP.
  induction ops as [|e ops IH]; intros a Q F; [exact Q|]. inversion F; subst. rewrite run_state_cons. apply IH; auto. now apply NE_step.
Qed.

(** Resuming *)
Definition settled c k a : Prop :=
  let l := offered c (ablade a) (here c a) in
  l <> [] /\ -1 <= k <= Z.of_nat (length l) /\ numbers a (dir_of c (ablade a)) = k /\ (current a, position a) = meant c (ablade a) (here c a) k.
Lemma meant_rng c b l k : has_presets c -> let n := Z.of_nat (length (offered c b l)) in 0 < n -> -1 <= k <= n ->
  let i := if k =? -1 then n - 1 else if k =? n then 0 else k in
  meant c b l k = (nth (Z.to_nat i) (offered c b l) no_preset, i).
Proof.
  intros HP. cbn zeta. unfold meant, offered. destruct l as [l|]; intros P K.
  - replace ((k =? Z.of_nat (length l)) && (Z.of_nat (length l) =? 0)) with false by lia.
    replace ((-1 <=? k) && (k <=? Z.of_nat (length l)) && (0 <? Z.of_nat (length l))) with true by lia. reflexivity.
  - unfold factory in P, K |- *. rewrite map_length in P, K |- *. unfold compiled_in. set (n := Z.of_nat (length (rom c b))) in *.
    assert (E : Z.rem (n + k) n = if k =? -1 then n - 1 else if k =? n then 0 else k).
    { rewrite Z.rem_mod_nonneg by lia. destruct (k =? -1) eqn:K1; [|destruct (k =? n) eqn:K2].
      - replace (n + k) with (n - 1) by lia. apply Z.mod_small. lia.
      - replace k with n by lia. replace (n + n) with (0 + 2 * n) by lia. rewrite Z.mod_add by lia. reflexivity.
      - replace (n + k) with (k + 1 * n) by lia. rewrite Z.mod_add by lia. apply Z.mod_small. lia. }
    rewrite E. set (i := if k =? -1 then n - 1 else if k =? n then 0 else k) in *.
    assert (I0 : 0 <= i < n) by (subst i; destruct (k =? -1) eqn:K1; [|destruct (k =? n) eqn:K2]; lia).
    replace (i <? 0) with false by lia. f_equal. apply nth_indep. unfold factory. rewrite map_length. lia.
Qed.
Lemma settled_new c k a p : has_presets c -> settled c k a -> settled c k (save_new c a p).
Proof.
  intros HP (NE0 & RG & NU & CP). pose proof (proj1 (len_ne _) NE0) as LN.
  rewrite meant_rng in CP by (auto; lia). injection CP as C P. set (l := offered c (ablade a) (here c a)) in *.
  assert (PR : 0 <= position a < Z.of_nat (length l)) by (rewrite P; cbn zeta in RG; fold l in RG; clear C P; destruct (k =? -1) eqn:K1; [|destruct (k =? Z.of_nat (length l)) eqn:K2]; lia).
  pose proof (replace_nth (position a) p no_preset l PR) as [L1 L2].
  assert (HH : here c (save_new c a p) = Some (insert_at (position a) p (remove_at (position a) l))) by (unfold save_new; rewrite lists_save_to; reflexivity).
  unfold settled. rewrite HH. cbn [offered]. change (ablade (save_new c a p)) with (ablade a). rewrite L1.
  refine (conj _ (conj RG (conj NU _))).
  - apply len_ne. lia.
  - rewrite meant_rng by (auto; cbn [offered]; lia). cbn [offered]. rewrite L1, <- P. rewrite L2. reflexivity.
Qed.
Lemma settled_step c k a e : has_presets c -> settled c k a -> calm e -> settled c k (fst (astep c a e)) /\ ablade (fst (astep c a e)) = ablade a.
Proof.
  intros HP H M. destruct e; try contradiction; cbn [astep fst]; try (split; [exact H|reflexivity]).
  - split; [now apply settled_new|reflexivity].
  - unfold save_paint. destruct (_ && _); [|split; [exact H|reflexivity]]. split; [now apply settled_new|reflexivity].
Qed.
Lemma settled_run c k ops : has_presets c -> forall a, settled c k a -> Forall calm ops ->
  settled c k (run_state (astep c) a ops) /\ ablade (run_state (astep c) a ops) = ablade a.
Proof.
  intros HP. induction ops as [|e ops IH]; intros a H F; [split; [exact H|reflexivity]|]. inversion F; subst. rewrite run_state_cons.
  destruct (settled_step c k a e HP H ltac:(assumption)) as [H' B]. rewrite <- B. now apply IH.
Qed.
Lemma resume_preset c g b ops k es : has_presets c -> save_preset c = true -> Forall no_insert ops -> Forall calm es ->
  let s1 := fst (step c (reach c g b ops) (Set_ k)) in
  presets c s1 <> [] -> -1 <= k <= Z.of_nat (length (presets c s1)) ->
  let s2 := run_state (step c) s1 es in
  let s3 := fst (step c s2 (Boot (blade s2))) in
  cur (main s3) = cur (main s2) /\ num (main s3) = num (main s2).
Proof.
  intros HP SP F1 F2. cbn zeta. pose proof (reach_R c g b ops HP F1) as K0.
  pose proof (proj1 (R_step c _ _ (Set_ k) HP K0 ltac:(discriminate))) as K1. rewrite (R_presets c _ _ K1).
  set (s1 := fst (step c (reach c g b ops) (Set_ k))) in *. set (a1 := fst (astep c (areach c g b ops) (Set_ k))) in *.
  intros NE0 RG. assert (S1 : settled c k a1).
  { refine (conj NE0 (conj RG (conj _ _))); subst a1; cbn [astep fst]; unfold select; cbn zeta.
    - unfold save_paint. destruct (_ && _); cbn; unfold KeepSpec.upd; now rewrite Nat.eqb_refl.
    - set (a0 := save_paint c _). change (here c (paint (use a0 ?p) ?v)) with (here c a0). change (ablade (paint (use a0 ?p) ?v)) with (ablade a0).
      cbn [paint use current position]. now destruct (meant c (ablade a0) (here c a0) k). }
  assert (F2' : Forall no_insert es) by (eapply Forall_impl; [|exact F2]; intros e He ->; exact He).
  pose proof (proj2 (R_run c HP es _ _ K1 F2')) as K2.
  destruct (settled_run c k es HP a1 S1 F2) as [(N2 & R2 & U2 & C2) B2].
  set (s2 := run_state (step c) s1 es) in *. set (a2 := run_state (astep c) a1 es) in *.
  pose proof (proj1 (R_step c _ _ (Boot (blade s2)) HP K2 ltac:(discriminate))) as K3.
  assert (E2 : ablade a2 = blade s2) by (clear - K2; R_intro; auto).
  assert (Q : (current (fst (astep c a2 (Boot (blade s2)))), position (fst (astep c a2 (Boot (blade s2))))) = (current a2, position a2)).
  { rewrite C2. cbn [astep fst]. unfold power_on, put_in, select. cbn zeta. rewrite save_paint_fresh by reflexivity. rewrite SP.
    cbn [use paint current position fst snd ablade numbers lists here]. unfold here. cbn [lists ablade]. rewrite <- E2, U2. fold (here c a2). now destruct (meant _ _ _ _). }
  injection Q as Q1 Q2. rewrite <- (num_main _ _ K3), <- (num_main _ _ K2).
  split; [|exact Q2]. pose proof K3 as (_&_&_&X3&_). pose proof K2 as (_&_&_&X2&_). now rewrite <- X3, <- X2.
Qed.

(** Another blade *)
Lemma blade_keeps c s a b : R s a -> save_color c = false \/ variation (cur (main s)) = shown s ->
  forall k, stored (disk (fst (step c s (Blade b))) k) = stored (disk s k).
Proof.
  intros H E k. cbn [step fst]. pose proof (R_put_in c s a b H) as K.
  pose proof K as (L&_). rewrite <- (L k). pose proof H as (L0&_). rewrite <- (L0 k).
  unfold put_in, select. cbn zeta. cbn [paint use lists]. set (a' := A _ _ _ _ _ _ _).
  assert (Q : save_paint c a' = a'). { unfold save_paint. destruct E as [E|E]; [now rewrite E|].
    assert (V : variation (current a') = color a') by (clear - H E; R_intro; subst a'; cbn; congruence). now rewrite V, Z.eqb_refl, andb_false_r. }
  now rewrite Q.
Qed.

(** Rotating *)
Lemma insert_first {A} (x : A) l : insert_at 0 x l = x :: l.
Proof. apply (insert_mid [] x l). Qed.
Lemma rotate_body c s a l x : R s a -> has_presets c -> stored (at_ s c) = Some (l ++ [x]) ->
  let s' := fst (step c s Rotate) in map body (presets c s') = body x :: map body l /\ num (main s') = 0 /\ body (cur (main s')) = body x.
Proof.
  intros H HP L. cbn zeta. pose proof (proj1 (R_step c s a Rotate HP H ltac:(discriminate))) as K.
  rewrite (R_presets c _ _ K), <- (num_main _ _ K). pose proof K as (_&_&_&X&_). rewrite <- X. clear X K.
  cbn [astep fst]. rewrite (R_here c s a H), L. assert (E : exists y t, l ++ [x] = y :: t) by (destruct l; cbn; eauto). destruct E as (y & t & E). rewrite E.
  rewrite <- E. clear E y t. rewrite last_last.
  set (a1 := use a (x, Z.of_nat (length (l ++ [x])) - 1)).
  assert (A1 : here c (save_to c a1 0) = Some (x :: l)).
  { rewrite lists_save_to. change (here c a1) with (here c a). rewrite (R_here c s a H), L. cbn [offered a1 use current position fst snd].
    rewrite app_length. cbn [length]. replace (Z.of_nat (length l + 1) - 1) with (Z.of_nat (length l)) by lia. rewrite remove_mid, app_nil_r. now rewrite insert_first. }
  unfold select. cbn zeta. set (a2 := save_to c a1 0) in *.
  assert (A2 : exists v, here c (save_paint c a2) = Some (Preset (body x) v :: l)).
  { unfold save_paint. destruct (_ && _).
    - exists (color a2). unfold save_new. rewrite lists_save_to. change (here c (use a2 _)) with (here c a2). rewrite A1. cbn [offered].
      change (position (use a2 _)) with 0. cbn [use current fst snd position a2 save_to keep a1].
      change (remove_at 0 (x :: l)) with l. now rewrite insert_first.
    - exists (variation x). rewrite A1. now destruct x. }
  destruct A2 as [v A2]. change (here c (paint (use ?y ?p) ?q)) with (here c y). rewrite A2. cbn [offered map body paint use current position].
  rewrite meant_in by (cbn [offered length]; lia). cbn. auto.
Qed.

(** The first insertion *)
Lemma R_insert c s a : R s a -> stored (at_ s c) = None ->
  R (fst (step c s MInsert)) (fst (astep c a MInsert)) /\ snd (step c s MInsert) = snd (astep c a MInsert).
Proof.
  intros H N. cbn [step astep]. pose proof (num_main s a H) as P. assert (Se : chosen a = selected s) by (clear - H; R_intro; auto).
  rewrite Se. destruct (_ =? _); [split; [exact H|reflexivity]|].
  pose proof (look_eq c s a (selected s) H) as L. set (o := look c s (selected s)) in *.
  assert (B : ablade a = blade s) by (clear - H; R_intro; auto). pose proof (R_here c s a H) as RH.
  assert (F : fits (at_ s c) (dir_of c (blade s)) (set_cur o (cur o) (-1000))).
  { subst o. unfold look. apply fits_set_cur. destruct (SetPreset_eq c (blade s) (at_ s c) obj0 (selected s)) as (_&Q&_); [intros X; discriminate X|exact Q]. }
  pose proof (SaveAt_eq c (blade s) Complete Complete (at_ s c) (set_cur o (cur o) (-1000)) (num (main s)) F) as K.
  destruct (SaveAt _ _ _ _ _ _ _) as [d o']. destruct K as (K1&K2&_). cbn [save_result cur num set_cur] in K2. rewrite remove_out in K2 by lia.
  assert (Fm : fits d (dir_of c (blade s)) (main s)).
  { intros R1 R2. exfalso. assert (X : fits (at_ s c) (dir_of c (blade s)) (main s)) by (R_intro; apply H8). destruct (X R1 R2) as [X1 _]. congruence. }
  pose proof (R_put c s a d (main s) (stored d) (cur (main s)) (num (main s)) H eq_refl K1 eq_refl eq_refl Fm ltac:(right; auto)) as Q.
  assert (Q' : R (put c s d (main s)) (keep c a (insert_at (position a) (fst (meant c (ablade a) (here c a) (selected s))) (offered c (ablade a) (here c a))))).
  { eapply R_ext; [exact Q|..]; cbn; auto; try (clear - H; R_intro; auto; fail).
    intros k. rewrite K2, <- L, <- B, RH, P. reflexivity. }
  pose proof (R_select c _ _ (position a) (R_note c _ _ (position a) Q')) as Z. rewrite <- P.
  split.
  - cbn [fst].
    match goal with |- R _ (if _ <=? ?y then _ else _) => replace y with (selected (PropSetPreset c (SaveState c (put c s d (main s)) (position a)) (position a))) by (clear - Z; R_intro; auto) end.
    cbn [fst]. destruct (_ <=? _); [now apply R_selected|exact Z].
  - reflexivity.
Qed.
Lemma edit_at c s a x l p r : R s a -> presets c s = l ++ p :: r -> num (main s) = Z.of_nat (length l) ->
  presets c (fst (step c s (Edit x))) = l ++ Preset x (variation (cur (main s))) :: r.
Proof.
  intros H L N. cbn [step fst]. pose proof (R_save_as c s a (Preset x (variation (cur (main s)))) H) as K. rewrite (R_presets c _ _ K).
  unfold save_new. rewrite lists_save_to. cbn [offered use current position fst snd].
  change (offered c _ (here c _)) with (offered c (ablade a) (here c a)). rewrite <- (R_presets c s a H), L, (num_main s a H), N, remove_mid. apply insert_mid.
Qed.
(** Other directories *)
Definition elsewhere c a a' : Prop := ablade a' = ablade a /\ forall k, k <> dir_of c (ablade a) -> lists a' k = lists a k.
Lemma else_keep c a l : elsewhere c a (keep c a l).
Proof. split; [reflexivity|]. intros k N. cbn. unfold KeepSpec.upd. destruct (Nat.eqb_spec k (dir_of c (ablade a))); [congruence|reflexivity]. Qed.
Lemma else_trans c a a' a'' : elsewhere c a a' -> elsewhere c a' a'' -> elsewhere c a a''.
Proof. intros [B1 E1] [B2 E2]. split; [congruence|]. intros k N. rewrite E2, E1; congruence. Qed.
Lemma else_refl c a a' : ablade a' = ablade a -> lists a' = lists a -> elsewhere c a a'.
Proof. intros B E. split; [exact B|]. intros. now rewrite E. Qed.
Lemma else_save_to c a pos : elsewhere c a (save_to c a pos).
Proof. apply (else_trans c a (keep c a (insert_at pos (current a) (remove_at (position a) (offered c (ablade a) (here c a)))))); [apply else_keep|apply else_refl; reflexivity]. Qed.
Lemma else_paint c a : elsewhere c a (save_paint c a).
Proof. unfold save_paint. destruct (_ && _); [|apply else_refl; reflexivity]. unfold save_new. eapply else_trans; [|apply else_save_to]. apply else_refl; reflexivity. Qed.
Lemma else_select c a k : elsewhere c a (select c a k).
Proof. eapply else_trans; [apply else_paint|]. apply else_refl; reflexivity. Qed.
Lemma else_new c a p : elsewhere c a (save_new c a p).
Proof. unfold save_new. eapply else_trans; [|apply else_save_to]. apply else_refl; reflexivity. Qed.
Lemma others_kept c s a e : has_presets c -> R s a -> no_insert e -> (forall b, e <> Blade b) ->
  forall k, k <> dir_of c (blade s) -> stored (disk (fst (step c s e)) k) = stored (disk s k).
Proof.
  intros HP H NI NB k NK. destruct (R_step c s a e HP H NI) as [K _]. pose proof K as (L1&_). pose proof H as (L0&_&B&_). rewrite <- L1, <- L0. rewrite <- B in NK. clear K L1 L0 B H s.
  assert (SE : forall a', elsewhere c a a' -> lists a' k = lists a k) by (intros a' [_ E]; apply E, NK).
  destruct e; cbn [astep]; try (exfalso; eapply NB; reflexivity); try (exfalso; apply NI; reflexivity);
    try match goal with |- context [if ?b then _ else _] => destruct b end; cbn [fst];
    try (exact eq_refl);
    try (rewrite (proj1 (power_on_lists _ _ _))); try reflexivity;
    try match goal with |- context [match ?h with Untouched => _ | _ => _ end] => destruct h1; try reflexivity; destruct h2 end;
    try (apply SE; first
      [ apply else_select | apply else_save_to | apply else_new | apply else_keep | apply else_paint
      | eapply else_trans; [|apply else_select]; first [apply else_refl; reflexivity | apply else_new]
      | eapply else_trans; [|apply else_save_to]; apply else_refl; reflexivity ]).
  apply SE. eapply else_trans; [|apply else_select]. eapply else_trans; [|apply else_save_to].
  destruct (here c a) as [[|]|]; apply else_refl; reflexivity.
Qed.
Lemma reach_snoc c g b ops e : reach c g b (ops ++ [e]) = fst (step c (reach c g b ops) e).
Proof. unfold reach. now rewrite run_state_app. Qed.
