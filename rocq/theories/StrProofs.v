From Coq Require Import ZArith List Bool Lia ZifyBool ZifyNat.
From Verif Require Import StrModel StrSpec.
Import ListNotations.
Open Scope Z_scope.

Lemma toLower_lower c : toLower c = lower c.
Proof. unfold toLower, lower. destruct (_ && _) eqn:A, (_ || _) eqn:B; lia. Qed.

Lemma cmp_range a b : cmp a b = 0 \/ cmp a b = -1 \/ cmp a b = 1.
Proof.
  revert b; induction a; destruct b; cbn; auto.
  destruct (_ =? _); auto. destruct (_ <? _); auto.
Qed.

Lemma cmp_eq a b : cmp a b = 0 <-> same_nocase a b.
Proof.
  unfold same_nocase, lower_str.
  revert b; induction a as [|x a IH]; destruct b as [|y b]; cbn [cmp map];
    try (split; [lia|discriminate]); [tauto|].
  rewrite !toLower_lower. destruct (Z.eqb_spec (lower x) (lower y)).
  - rewrite IH. rewrite e. split; [congruence|]. intros E; injection E; auto.
  - split; [destruct (_ <? _); lia|]. intros E; injection E; congruence.
Qed.

Lemma cmp_lt a b : cmp a b < 0 <-> lex (lower_str a) (lower_str b).
Proof.
  unfold lower_str.
  revert b; induction a as [|x a IH]; destruct b as [|y b]; cbn [cmp map].
  - split; [lia|inversion 1].
  - split; [constructor|lia].
  - split; [lia|inversion 1].
  - rewrite !toLower_lower. destruct (Z.eqb_spec (lower x) (lower y)).
    + rewrite e, IH. split; [apply lex_tail|]. inversion 1; subst; auto; lia.
    + destruct (Z.ltb_spec (lower x) (lower y)).
      * split; [intros; apply lex_head; auto|lia].
      * split; [lia|]. inversion 1; subst; auto; lia.
Qed.

Lemma cmp_antisym a b : cmp b a = - cmp a b.
Proof.
  revert b; induction a as [|x a IH]; destruct b as [|y b]; cbn [cmp]; try reflexivity.
  rewrite (Z.eqb_sym (toLower y)). destruct (Z.eqb_spec (toLower x) (toLower y)); auto.
  destruct (Z.ltb_spec (toLower x) (toLower y)), (Z.ltb_spec (toLower y) (toLower x)); lia.
Qed.

Lemma lex_trans a b c : lex a b -> lex b c -> lex a c.
Proof.
  intros H; revert c. induction H; intros c Hc; inversion Hc; subst; try constructor; auto; lia.
Qed.

Lemma cmp_laws a b c :
  (sp_le a a = true) /\
  (sp_le a b = true -> sp_le b a = true -> same_nocase a b) /\
  (sp_le a b = true -> sp_le b c = true -> sp_le a c = true) /\
  (sp_le a b = true \/ sp_le b a = true) /\
  (sp_lt a b = true <-> sp_gt b a = true) /\
  (sp_lt a b = negb (sp_le b a)) /\ (sp_ne a b = negb (sp_eq a b)).
Proof.
  unfold sp_le, sp_lt, sp_gt, sp_eq, sp_ne.
  pose proof (cmp_range a b) as Rab. pose proof (cmp_antisym a b) as Sab.
  repeat split.
  - assert (cmp a a = 0) as -> by (apply cmp_eq; reflexivity). reflexivity.
  - intros. apply cmp_eq. lia.
  - intros H1 H2.
    destruct (Z.eq_dec (cmp a b) 0) as [E|E].
    { apply cmp_eq in E. destruct (Z.eq_dec (cmp b c) 0) as [F|F].
      - apply cmp_eq in F. assert (cmp a c = 0) as ->; [|reflexivity].
        apply cmp_eq. unfold same_nocase in *. congruence.
      - assert (cmp b c < 0) as G by lia. apply cmp_lt in G. unfold same_nocase in E. rewrite <- E in G.
        apply cmp_lt in G. lia. }
    assert (cmp a b < 0) as G by lia. apply cmp_lt in G.
    destruct (Z.eq_dec (cmp b c) 0) as [F|F].
    + apply cmp_eq in F. unfold same_nocase in F. rewrite F in G. apply cmp_lt in G. lia.
    + assert (cmp b c < 0) as G2 by lia. apply cmp_lt in G2.
      pose proof (lex_trans _ _ _ G G2) as G3. apply cmp_lt in G3. lia.
  - lia.
  - lia.
  - lia.
  - lia.
Qed.

Lemma sp_ge_bug : exists a b, sp_lt a b = true /\ sp_ge a b = true /\ sp_ge b a = false.
Proof. exists [97], [98]. repeat split; reflexivity. Qed.

(** prefixes *)
Lemma startswith_spec p x r :
  startswith p x = Some r <-> exists pre, x = pre ++ r /\ same_nocase pre p.
Proof.
  unfold same_nocase, lower_str.
  revert x; induction p as [|c p IH]; intros x; cbn [startswith map].
  - split.
    + intros E; injection E as ->. exists []. auto.
    + intros (pre & -> & E). destruct pre; [reflexivity|discriminate].
  - destruct x as [|d x].
    + split; [discriminate|]. intros (pre & E & F).
      destruct pre; [discriminate|]. discriminate.
    + rewrite !toLower_lower. destruct (Z.eqb_spec (lower d) (lower c)).
      * rewrite IH. split.
        -- intros (pre & -> & E). exists (d :: pre). cbn. rewrite e, E. auto.
        -- intros (pre & E & F). destruct pre as [|d' pre]; [discriminate|].
           cbn in E, F. injection E as -> ->. injection F as _ F. eauto.
      * split; [discriminate|]. intros (pre & E & F).
        destruct pre as [|d' pre]; [discriminate|]. cbn in E, F. injection E as -> ->. congruence.
Qed.

Lemma eq_nocase_prefix_spec p x : length p = length x ->
  (eq_nocase_prefix p x = true <-> same_nocase x p).
Proof.
  unfold same_nocase, lower_str.
  revert x; induction p as [|c p IH]; destruct x as [|d x]; cbn; intros L; try discriminate.
  - tauto.
  - rewrite !toLower_lower. destruct (Z.eqb_spec (lower d) (lower c)).
    + rewrite IH by lia. split; [congruence|]. intros E; injection E; auto.
    + split; [discriminate|]. intros E; injection E; congruence.
Qed.

Lemma endswith_spec p x :
  endswith p x = true <-> exists a b, x = a ++ b /\ same_nocase b p.
Proof.
  unfold endswith. destruct (Nat.ltb_spec (length x) (length p)) as [H|H].
  - split; [discriminate|]. intros (a & b & -> & E).
    apply (f_equal (@length Z)) in E. unfold lower_str in E. rewrite !map_length in E.
    rewrite app_length in H. lia.
  - rewrite eq_nocase_prefix_spec by (rewrite skipn_length; lia). split.
    + intros E. exists (firstn (length x - length p) x), (skipn (length x - length p) x).
      rewrite firstn_skipn. auto.
    + intros (a & b & -> & E).
      assert (L := f_equal (@length Z) E). unfold lower_str in L. rewrite !map_length in L.
      rewrite app_length. replace (length a + length b - length p)%nat with (length a) by lia.
      rewrite skipn_app, skipn_all, Nat.sub_diag. cbn. auto.
Qed.

(** words *)
Lemma blankb_is_blank c : is_blank c = blankb c.
Proof. reflexivity. Qed.
Lemma is_blank_blank c : is_blank c = true <-> blank c.
Proof. unfold is_blank, blank. lia. Qed.

Lemma words_blank c s : is_blank c = true -> words (c :: s) = words s.
Proof. intros H. rewrite blankb_is_blank in H. cbn. rewrite H. reflexivity. Qed.

Lemma words_SkipSpace s : words (SkipSpace s) = words s.
Proof.
  induction s as [|c s IH]; [reflexivity|]. cbn [SkipSpace].
  destruct (is_blank c) eqn:E; [|reflexivity]. rewrite words_blank by auto. auto.
Qed.

(** A word followed by the end or a blank is split off. *)
Lemma words_app w rest :
  is_word w -> (rest = [] \/ exists c r, rest = c :: r /\ blank c) ->
  words (w ++ rest) = w :: words rest.
Proof.
  intros [N F] R. induction w as [|c w IH]; [congruence|].
  inversion F; subst. clear F.
  assert (B : blankb c = false).
  { rewrite <- blankb_is_blank. destruct (is_blank c) eqn:E; [|auto].
    apply is_blank_blank in E. contradiction. }
  destruct w as [|d w].
  - cbn [app words]. rewrite B. destruct R as [->|(e & r & -> & E)]; [reflexivity|].
    apply is_blank_blank in E. rewrite blankb_is_blank in E. rewrite E. reflexivity.
  - assert (B' : blankb d = false).
    { inversion H2; subst. rewrite <- blankb_is_blank. destruct (is_blank d) eqn:E; [|auto].
      apply is_blank_blank in E. contradiction. }
    specialize (IH ltac:(congruence) H2).
    change ((c :: d :: w) ++ rest) with (c :: d :: (w ++ rest)).
    change ((d :: w) ++ rest) with (d :: (w ++ rest)) in IH.
    cbn [words]. rewrite B, B'. cbn [words] in IH. rewrite B' in IH.
    rewrite IH. reflexivity.
Qed.


Lemma take_skip s : s = take_nonblank s ++ skip_nonblank s.
Proof.
  induction s as [|c s IH]; [reflexivity|]. cbn.
  destruct (is_blank c); [reflexivity|]. cbn. congruence.
Qed.

Lemma skip_nonblank_end s :
  skip_nonblank s = [] \/ exists c r, skip_nonblank s = c :: r /\ blank c.
Proof.
  induction s as [|c s IH]; [auto|]. cbn. destruct (is_blank c) eqn:E; [|auto].
  right. exists c, s. split; [auto|]. apply is_blank_blank; auto.
Qed.

Lemma take_nonblank_nb s : Forall (fun c => ~ blank c) (take_nonblank s).
Proof.
  induction s as [|c s IH]; cbn; [constructor|]. destruct (is_blank c) eqn:E; constructor; auto.
  rewrite <- is_blank_blank, E. discriminate.
Qed.

Lemma SkipSpace_hd s : SkipSpace s = [] \/
  exists c r, SkipSpace s = c :: r /\ is_blank c = false.
Proof.
  induction s as [|c s IH]; cbn; [auto|]. destruct (is_blank c) eqn:E; [auto|]. right; eauto.
Qed.

Lemma is_word_take c r : is_blank c = false -> is_word (take_nonblank (c :: r)).
Proof.
  intros E. split; [|apply take_nonblank_nb]. cbn. rewrite E. discriminate.
Qed.

Lemma words_step s : words s =
  match SkipSpace s with
  | [] => []
  | _ => take_nonblank (SkipSpace s) :: words (SkipWord s)
  end.
Proof.
  rewrite <- words_SkipSpace. unfold SkipWord.
  destruct (SkipSpace_hd s) as [E|(c & r & E & B)]; rewrite E; [reflexivity|].
  rewrite (take_skip (c :: r)) at 1. apply words_app.
  - apply is_word_take; auto.
  - apply skip_nonblank_end.
Qed.

Lemma words_SkipWord s : words (SkipWord s) = tl (words s).
Proof.
  rewrite (words_step s). unfold SkipWord. destruct (SkipSpace s) eqn:E; reflexivity.
Qed.

Lemma words_are_words s : Forall is_word (words s).
Proof.
  assert (G : forall n s, (length s <= n)%nat -> Forall is_word (words s)).
  { induction n; intros t H.
    - destruct t; [constructor|cbn in H; lia].
    - rewrite words_step. destruct (SkipSpace_hd t) as [E|(c & r & E & B)].
      + rewrite E. constructor.
      + assert (L : (length (SkipWord t) < length t)%nat).
        { unfold SkipWord. rewrite E.
          assert (length (SkipSpace t) <= length t)%nat.
          { clear. induction t as [|c t IH]; cbn; [lia|]. destruct (is_blank c); cbn; lia. }
          rewrite E in H0. cbn in H0.
          pose proof (f_equal (@length Z) (take_skip r)). rewrite app_length in H1.
          cbn. rewrite B. lia. }
        rewrite E. constructor; [apply is_word_take; auto|]. apply IHn. lia. }
  apply (G (length s)). lia.
Qed.

Lemma words_join ws : Forall is_word ws -> words (join ws) = ws.
Proof.
  induction ws as [|w ws IH]; intros F; [reflexivity|]. inversion F; subst.
  destruct ws as [|w' ws'].
  - cbn. rewrite <- (app_nil_r w) at 1. rewrite words_app; auto.
  - cbn [join]. rewrite words_app; auto.
    + change (w :: words (32 :: join (w' :: ws')) = w :: w' :: ws').
      rewrite words_blank by reflexivity. rewrite IH; auto.
    + right. exists 32. eexists. split; [reflexivity|]. left; reflexivity.
Qed.

Lemma SkipSpace_len s : (length (SkipSpace s) <= length s)%nat.
Proof. induction s as [|c s IH]; cbn; [lia|]. destruct (is_blank c); cbn; lia. Qed.
Lemma skip_nonblank_len s : (length (skip_nonblank s) <= length s)%nat.
Proof. induction s as [|c s IH]; cbn; [lia|]. destruct (is_blank c); cbn; lia. Qed.
Lemma SkipWord_len c s : (length (SkipWord (c :: s)) < length (c :: s))%nat.
Proof.
  unfold SkipWord. cbn [SkipSpace]. destruct (is_blank c) eqn:E.
  - pose proof (SkipSpace_len s). pose proof (skip_nonblank_len (SkipSpace s)). cbn. lia.
  - cbn [skip_nonblank]. rewrite E. pose proof (skip_nonblank_len s). cbn. lia.
Qed.

(** Does the string end in a blank? *)
Definition ends_blank (s : str) : bool := match rev s with c :: _ => is_blank c | [] => false end.

Lemma ends_blank_cons c s : s <> [] -> ends_blank (c :: s) = ends_blank s.
Proof.
  intros H. unfold ends_blank. cbn. destruct (rev s) eqn:E; [|reflexivity].
  apply (f_equal (@rev Z)) in E. rewrite rev_involutive in E. cbn in E. congruence.
Qed.

Lemma ends_blank_app a b : b <> [] -> ends_blank (a ++ b) = ends_blank b.
Proof.
  intros H. induction a; [reflexivity|]. cbn [app]. rewrite ends_blank_cons; auto.
  destruct a0; cbn; [auto|discriminate].
Qed.

Lemma SkipSpace_nil_ends c s : SkipSpace (c :: s) = [] -> ends_blank (c :: s) = true.
Proof.
  revert c. induction s as [|d s IH]; intros c; cbn [SkipSpace].
  - destruct (is_blank c) eqn:E; [|discriminate]. unfold ends_blank. cbn. auto.
  - destruct (is_blank c) eqn:E; [|discriminate]. intros H. rewrite ends_blank_cons by discriminate.
    apply IH. exact H.
Qed.
Lemma SkipSpace_suffix s : exists p, s = p ++ SkipSpace s.
Proof.
  induction s as [|c s [p IH]]; cbn; [exists []; reflexivity|].
  destruct (is_blank c); [|exists []; reflexivity]. exists (c :: p). cbn. congruence.
Qed.
Lemma SkipWord_suffix s : exists p, s = p ++ SkipWord s.
Proof.
  destruct (SkipSpace_suffix s) as [p E]. exists (p ++ take_nonblank (SkipSpace s)).
  rewrite <- app_assoc. unfold SkipWord. rewrite <- take_skip. auto.
Qed.

Lemma ends_blank_word c r : is_blank c = false -> skip_nonblank (c :: r) = [] -> 
  ends_blank (c :: r) = false.
Proof.
  intros B E. pose proof (take_skip (c :: r)) as T. rewrite E, app_nil_r in T.
  pose proof (take_nonblank_nb (c :: r)) as F. rewrite <- T in F.
  unfold ends_blank. destruct (rev (c :: r)) as [|d l] eqn:R; [reflexivity|].
  apply Forall_rev in F. rewrite R in F. inversion F; subst.
  destruct (is_blank d) eqn:D; [|auto]. apply is_blank_blank in D. contradiction.
Qed.

Lemma CountWords_spec s :
  CountWords s = Z.of_nat (length (words s)) + (if ends_blank s then 1 else 0).
Proof.
  unfold CountWords.
  assert (G : forall n s, (length s <= n)%nat -> count_words n s =
     Z.of_nat (length (words s)) + (if ends_blank s then 1 else 0)).
  { induction n; intros t H.
    - destruct t; [reflexivity|cbn in H; lia].
    - destruct t as [|c t]; [reflexivity|].
      change (count_words (S n) (c :: t)) with (1 + count_words n (SkipWord (c :: t))).
      pose proof (SkipWord_len c t) as L.
      rewrite IHn by lia. rewrite (words_step (c :: t)).
      destruct (SkipSpace_hd (c :: t)) as [E|(d & r & E & B)].
      + rewrite (SkipSpace_nil_ends _ _ E). unfold SkipWord. rewrite E. reflexivity.
      + rewrite E.
        assert (ends_blank (SkipWord (c :: t)) = ends_blank (c :: t)) as ->.
        { destruct (SkipWord (c :: t)) eqn:Z.
          - destruct (SkipSpace_suffix (c :: t)) as [p P].
            rewrite P, E. rewrite ends_blank_app by discriminate.
            symmetry. apply ends_blank_word; auto. unfold SkipWord in Z. rewrite E in Z. auto.
          - destruct (SkipWord_suffix (c :: t)) as [p P]. rewrite P, Z.
            rewrite ends_blank_app by discriminate. reflexivity. }
        cbn [length]. lia. }
  apply G. lia.
Qed.

(** FirstWord *)
Lemma first_word_spec s w : first_word s w = true <->
  exists r, s = w ++ r /\ (r = [] \/ exists c r', r = c :: r' /\ blank c).
Proof.
  revert w; induction s as [|c s IH]; destruct w as [|d w]; cbn [first_word].
  - split; [|auto]. intros _. exists []. auto.
  - split; [discriminate|]. intros (r & E & _). discriminate.
  - rewrite is_blank_blank. split.
    + intros B. exists (c :: s). split; [auto|]. right; eauto.
    + intros (r & E & [->|(c' & r' & -> & B)]); cbn in E; [discriminate|].
      injection E as -> ->. auto.
  - destruct (Z.eqb_spec c d).
    + subst. rewrite IH. split.
      * intros (r & -> & R). exists r. auto.
      * intros (r & E & R). cbn in E. injection E as E. eauto.
    + split; [discriminate|]. intros (r & E & R). cbn in E. injection E; congruence.
Qed.

Lemma FirstWord_spec s w : is_word w ->
  (FirstWord s w = true <-> hd_error (words s) = Some w).
Proof.
  intros W. unfold FirstWord. rewrite first_word_spec. split.
  - intros (r & E & R). rewrite <- words_SkipSpace, E, words_app; auto.
  - rewrite words_step. destruct (SkipSpace s) as [|z l] eqn:E; cbn [hd_error]; [discriminate|].
    intros H. injection H as H. exists (skip_nonblank (z :: l)). split.
    + rewrite <- H. apply take_skip.
    + apply skip_nonblank_end.
Qed.

(** Patterns *)
Lemma format_length p v : Z.of_nat (length (format_pattern p v)) =
  Z.of_nat (length p) - count_stars p + count_stars p * Z.of_nat (length v).
Proof.
  induction p as [|c p IH]; cbn [format_pattern count_stars length]; [lia|].
  destruct (c =? star).
  - rewrite app_length, Nat2Z.inj_add, IH. lia.
  - cbn [length]. lia.
Qed.

Lemma count_stars_bound p : 0 <= count_stars p <= Z.of_nat (length p).
Proof. induction p as [|c p IH]; cbn; [lia|]. destruct (c =? star); lia. Qed.

Lemma sp_ne_refl r : sp_ne r r = false.
Proof. unfold sp_ne. assert (cmp r r = 0) as -> by (apply cmp_eq; reflexivity). reflexivity. Qed.

Lemma match_go_format p v ret : ret = None \/ ret = Some v ->
  match_go p (format_pattern p v) (length v) ret =
  (if count_stars p =? 0 then ret else Some v).
Proof.
  revert ret. induction p as [|c p IH]; intros ret R; cbn [match_go format_pattern count_stars].
  - reflexivity.
  - pose proof (count_stars_bound p). destruct (c =? star) eqn:E.
    + assert (firstn (length v) (v ++ format_pattern p v) = v) as ->.
      { rewrite firstn_app, firstn_all, Nat.sub_diag. cbn. apply app_nil_r. }
      assert (skipn (length v) (v ++ format_pattern p v) = format_pattern p v) as ->.
      { rewrite skipn_app, skipn_all, Nat.sub_diag. reflexivity. }
      destruct (Z.eqb_spec (1 + count_stars p) 0); [lia|].
      destruct R as [->| ->].
      * rewrite IH by auto. destruct (_ =? _); reflexivity.
      * destruct v as [|x v'].
        -- rewrite IH by auto. destruct (_ =? _); reflexivity.
        -- rewrite sp_ne_refl. rewrite IH by auto. destruct (_ =? _); reflexivity.
    + cbn [hd0 skipn]. rewrite Z.eqb_refl. cbn [Z.add]. apply IH. auto.
Qed.

Lemma match_format p v : In star p ->
  match_pattern p (format_pattern p v) = MRes (Some v).
Proof.
  intros H. unfold match_pattern.
  assert (1 <= count_stars p).
  { induction p as [|c p IH]; [contradiction|]. cbn. pose proof (count_stars_bound p).
    destruct H as [->|H]; [rewrite Z.eqb_refl; lia|]. specialize (IH H). destruct (_ =? _); lia. }
  rewrite format_length.
  replace (Z.of_nat (length p) - count_stars p + count_stars p * Z.of_nat (length v) -
     (Z.of_nat (length p) - count_stars p)) with (Z.of_nat (length v) * count_stars p) by lia.
  destruct (Z.ltb_spec (Z.of_nat (length v) * count_stars p) 0); [nia|].
  destruct (Z.eqb_spec (count_stars p) 0); [lia|].
  rewrite Z.mod_mul by lia. cbn [Z.eqb negb].
  rewrite Z.div_mul, Nat2Z.id by lia.
  rewrite match_go_format by auto. destruct (Z.eqb_spec (count_stars p) 0); [lia|reflexivity].
Qed.

(** Converse: what is matched reproduces the text (repetitions up to case). *)
Lemma same_nocase_app a b c d :
  same_nocase a b -> same_nocase c d -> same_nocase (a ++ c) (b ++ d).
Proof. unfold same_nocase, lower_str. intros. rewrite !map_app. congruence. Qed.

Lemma match_go_sound p : forall v n ret r,
  Z.of_nat (length v) = Z.of_nat (length p) - count_stars p + count_stars p * Z.of_nat n ->
  (forall r0, ret = Some r0 -> length r0 = n) ->
  match_go p v n ret = Some r ->
  (forall r0, ret = Some r0 -> r = r0) /\ length r = n /\ same_nocase v (format_pattern p r).
Proof.
  induction p as [|c p IH]; intros v n ret r L R M; cbn [match_go format_pattern count_stars length] in *.
  - subst. assert (length v = 0%nat) by lia. destruct v; [|discriminate].
    split; [congruence|]. split; [auto|reflexivity].
  - pose proof (count_stars_bound p). destruct (c =? star) eqn:E.
    + assert (n <= length v)%nat by nia.
      assert (L1 : length (firstn n v) = n) by (rewrite firstn_length; lia).
      assert (L2 : Z.of_nat (length (skipn n v)) =
        Z.of_nat (length p) - count_stars p + count_stars p * Z.of_nat n).
      { rewrite skipn_length. lia. }
      assert (G : match_go p (skipn n v) n (Some (firstn n v)) = Some r -> ret = None \/ ret = Some [] ->
         (forall r0, ret = Some r0 -> r = r0) /\ length r = n /\
          same_nocase v (r ++ format_pattern p r)).
      { intros M' C. destruct (IH (skipn n v) n (Some (firstn n v)) r) as (A & B & D); auto.
        { intros r0 E0. injection E0 as <-. auto. }
        specialize (A _ eq_refl). subst r. split; [|split; auto].
        - intros r0 E0. destruct C as [C|C]; rewrite C in E0; [discriminate|].
          injection E0 as <-. specialize (R _ C). cbn in R. subst n. reflexivity.
        - rewrite <- (firstn_skipn n v) at 1. apply same_nocase_app; [reflexivity|auto]. }
      destruct ret as [r0|].
      * destruct r0 as [|x r0]; [apply G; auto|].
        destruct (sp_ne (x :: r0) (firstn n v)) eqn:N; [discriminate|].
        destruct (IH (skipn n v) n (Some (x :: r0)) r) as (A & B & D); auto.
        split; [exact A|split; [auto|]].
        rewrite <- (firstn_skipn n v) at 1. apply same_nocase_app; [|auto].
        specialize (A _ eq_refl). subst r. unfold sp_ne in N.
        unfold same_nocase. symmetry. apply cmp_eq. lia.
      * apply G; auto.
    + destruct (hd0 v =? c) eqn:Hd; [|discriminate].
      assert (0 <= count_stars p * Z.of_nat n) by nia.
      destruct v as [|d v]; [cbn [length] in L; lia|]. cbn in Hd. apply Z.eqb_eq in Hd. subst d.
      cbn [skipn] in M. destruct (IH v n ret r) as (A & B & D); auto.
      { cbn [length] in L. lia. }
      split; [auto|]. split; [auto|]. change (c :: v) with ([c] ++ v).
      change (c :: format_pattern p r) with ([c] ++ format_pattern p r).
      apply same_nocase_app; [reflexivity|auto].
Qed.

Lemma match_sound p v r : match_pattern p v = MRes (Some r) ->
  same_nocase v (format_pattern p r).
Proof.
  unfold match_pattern.
  set (rl := Z.of_nat (length v) - (Z.of_nat (length p) - count_stars p)).
  destruct (Z.ltb_spec rl 0); [discriminate|].
  destruct (Z.eqb_spec (count_stars p) 0); [discriminate|].
  destruct (Z.eqb_spec (rl mod count_stars p) 0) as [E|E]; [|discriminate].
  cbn [negb]. intros M. injection M as M.
  pose proof (count_stars_bound p).
  pose proof (Z.div_mod rl (count_stars p) ltac:(lia)).
  assert (0 <= rl / count_stars p) by (apply Z.div_pos; lia).
  apply match_go_sound in M; [tauto| |discriminate].
  rewrite Z2Nat.id by lia. unfold rl in *. lia.
Qed.

Lemma format_alloc_ok p v :
  Z.of_nat (length (format_pattern p v)) + 1 < 2^32 ->
  format_alloc p v = Z.of_nat (length (format_pattern p v)) + 1.
Proof.
  intros H. unfold format_alloc. rewrite format_length in *.
  rewrite (Z.mul_mod_idemp_r _ _ (2^32)) by lia.
  rewrite <- Z.add_assoc, (Z.add_comm _ 1), Z.add_assoc.
  rewrite Z.add_mod_idemp_r by lia. rewrite Z.mod_small; [lia|].
  pose proof (count_stars_bound p). nia.
Qed.

Lemma sp_dictionary a b :
  (sp_eq a b = true <-> same_nocase a b) /\
  (sp_lt a b = true <-> lex (lower_str a) (lower_str b)) /\
  (sp_gt a b = true <-> lex (lower_str b) (lower_str a)).
Proof.
  rewrite <- cmp_eq, <- !cmp_lt. unfold sp_eq, sp_lt, sp_gt.
  pose proof (cmp_antisym a b). lia.
Qed.

Lemma CountWords_rev s :
  CountWords s = Z.of_nat (length (words s)) +
                 (match rev s with c :: _ => if blankb c then 1 else 0 | [] => 0 end).
Proof.
  rewrite CountWords_spec. f_equal. destruct s as [|c s] using rev_ind; [reflexivity|].
  unfold ends_blank. rewrite rev_app_distr. cbn [rev app]. rewrite blankb_is_blank. reflexivity.
Qed.

Lemma match_no_star p v : ~ In star p -> (length p <= length v)%nat -> match_pattern p v = MDivZero.
Proof.
  intros N L. assert (C : count_stars p = 0).
  { clear L. induction p as [|c p IH]; [reflexivity|]. cbn.
    destruct (c =? star) eqn:E.
    - exfalso. apply N. left. lia.
    - rewrite IH; [reflexivity|]. intros H. apply N. right. exact H. }
  unfold match_pattern. rewrite C.
  destruct (Z.of_nat (length v) - (Z.of_nat (length p) - 0) <? 0) eqn:E; [lia|reflexivity].
Qed.
