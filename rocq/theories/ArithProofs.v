From Coq Require Import ZArith List Bool Lia ZifyBool.
From Verif Require Import Machine ArithModel ArithSpec.
Open Scope Z_scope.
Ltac Zify.zify_post_hook ::= Z.div_mod_to_equations.

Lemma land_nmask x : 0 <= x < 4294967296 ->
  (Z.land x nmask32 =? 0) = (x <? 2147483648).
Proof.
  intros H. unfold nmask32.
  change 2147483648 with (2^31).
  destruct (Z.ltb_spec x (2^31)).
  - apply Z.eqb_eq.
    apply Z.bits_inj'. intros n Hn. rewrite Z.land_spec, Z.bits_0.
    rewrite Z.pow2_bits_eqb by lia.
    destruct (Z.eqb_spec 31 n); [|apply andb_false_r].
    subst. rewrite andb_true_r. destruct (Z.eq_dec x 0).
    + subst; apply Z.bits_0.
    + apply Z.bits_above_log2; [lia|]. apply Z.log2_lt_pow2; lia.
  - apply Z.eqb_neq. intros E.
    assert (T : Z.testbit (Z.land x (2^31)) 31 = true).
    { rewrite Z.land_spec, Z.pow2_bits_true by lia. rewrite andb_true_r.
      assert (Z.log2 x = 31).
      { apply Z.log2_unique; lia. }
      rewrite <- H1. apply Z.bit_log2. lia. }
    rewrite E, Z.bits_0 in T. discriminate.
Qed.

Lemma u32_range x : 0 <= u32 x < 4294967296.
Proof. unfold u32. lia. Qed.

Lemma u32_small x : 0 <= x < 4294967296 -> u32 x = x.
Proof. unfold u32. lia. Qed.

Lemma u32_sub_u32 a b : u32 (u32 a - u32 b) = u32 (a - b).
Proof. unfold u32. symmetry. apply Zminus_mod. Qed.

Lemma cyc_lt_gen a b :
  cyc_lt (u32 a) (u32 b) = true <-> 1 <= u32 (b - a) <= 2147483648.
Proof.
  unfold cyc_lt. rewrite u32_sub_u32, land_nmask by apply u32_range.
  unfold u32. lia.
Qed.

Lemma cyc_near a b : Z.abs (a - b) < 2147483648 ->
  cyc_lt (u32 a) (u32 b) = (a <? b) /\ cyc_le (u32 a) (u32 b) = (a <=? b) /\
  cyc_gt (u32 a) (u32 b) = (b <? a) /\ cyc_ge (u32 a) (u32 b) = (b <=? a) /\
  cyc_eq (u32 a) (u32 b) = (a =? b).
Proof.
  intros H. unfold cyc_lt, cyc_le, cyc_gt, cyc_ge, cyc_eq.
  rewrite !u32_sub_u32, !land_nmask by apply u32_range.
  unfold u32. repeat split; lia.
Qed.

Lemma cyc_add_real a d : cyc_add (u32 a) d = u32 (a + d).
Proof. unfold cyc_add, u32. apply Zplus_mod_idemp_l. Qed.
Lemma cyc_sub_real a d : cyc_sub (u32 a) d = u32 (a - d).
Proof. unfold cyc_sub, u32. apply Zminus_mod_idemp_l. Qed.

Lemma MOD_correct x m : 0 < m -> MOD x m = x mod m.
Proof.
  intros Hm. unfold MOD, Z.lnot.
  destruct (Z.geb_spec x 0).
  - apply Z.rem_mod_nonneg; lia.
  - rewrite Z.rem_mod_nonneg by lia.
    pose proof (Z.div_mod (Z.pred (-x)) m ltac:(lia)).
    pose proof (Z.mod_pos_bound (Z.pred (-x)) m Hm).
    apply (Z.mod_unique_pos _ _ (- (Z.pred (-x) / m) - 1)); nia.
Qed.

Lemma clampi32_nearest x a b : a <= b ->
  a <= clampi32 x a b <= b /\
  forall y, a <= y <= b -> Z.abs (x - clampi32 x a b) <= Z.abs (x - y).
Proof.
  intros H. unfold clampi32.
  destruct (Z.ltb_spec x a); [|destruct (Z.gtb_spec x b)]; split; intros; lia.
Qed.

(** * Stripes *)
Lemma counts_fun P a b c1 c2 : counts P a b c1 -> counts P a b c2 -> c1 = c2.
Proof.
  intros H. revert c2. induction H as [b Hb|b c Hab H IH HP|b c Hab H IH HP]; intros c2 H2;
  inversion H2 as [b' Hb'|b' c' Hab' H' HP' E1 E2|b' c' Hab' H' HP' E1 E2]; subst; try lia;
  try (assert (b' = b) by lia; subst b'; try contradiction; apply IH in H'; lia).
Qed.

Lemma counts_ext P Q a b c : (forall x, a <= x < b -> (P x <-> Q x)) ->
  counts P a b c -> counts Q a b c.
Proof.
  intros E H. induction H as [b Hb|b c Hab H IH HP|b c Hab H IH HP].
  - apply counts_nil; lia.
  - apply counts_in; auto. + apply IH. intros; apply E; lia. + apply E; [lia|auto].
  - apply counts_out; auto. + apply IH. intros; apply E; lia.
    + rewrite <- E; [auto|lia].
Qed.

Lemma counts_shift P k a b c : counts P a b c ->
  counts (fun x => P (x - k)) (a + k) (b + k) c.
Proof.
  intros H. induction H as [b Hb|b c Hab H IH HP|b c Hab H IH HP].
  - apply counts_nil; lia.
  - replace (b + 1 + k) with (b + k + 1) by lia. apply counts_in; [lia|auto|].
    replace (b + k - k) with b by lia. auto.
  - replace (b + 1 + k) with (b + k + 1) by lia. apply counts_out; [lia|auto|].
    replace (b + k - k) with b by lia. auto.
Qed.

Definition s0 (w m e : Z) : Z := (e / m) * w + Z.min w (e mod m).

Lemma s0_succ w m e : 0 <= w <= m -> 0 < m -> 0 <= e ->
  s0 w m (e + 1) = s0 w m e + (if e mod m <? w then 1 else 0).
Proof.
  intros Hw Hm He. unfold s0.
  pose proof (Z.div_mod e m ltac:(lia)) as D.
  pose proof (Z.mod_pos_bound e m Hm) as B.
  destruct (Z.eq_dec (e mod m) (m - 1)).
  - assert ((e + 1) / m = e / m + 1) as ->.
    { symmetry. apply (Z.div_unique_pos _ _ _ 0); lia. }
    assert ((e + 1) mod m = 0) as ->.
    { symmetry. apply (Z.mod_unique_pos _ _ (e/m+1)); lia. }
    destruct (Z.ltb_spec (e mod m) w); nia.
  - assert ((e + 1) / m = e / m) as ->.
    { symmetry. apply (Z.div_unique_pos _ _ _ (e mod m + 1)); lia. }
    assert ((e + 1) mod m = e mod m + 1) as ->.
    { symmetry. apply (Z.mod_unique_pos _ _ (e/m)); lia. }
    destruct (Z.ltb_spec (e mod m) w); nia.
Qed.

Lemma in_stripe0 w m x : 0 <= w <= m -> 0 < m ->
  (in_stripe 0 w m x <-> x mod m < w).
Proof.
  intros Hw Hm. unfold in_stripe.
  pose proof (Z.div_mod x m ltac:(lia)) as D.
  pose proof (Z.mod_pos_bound x m Hm) as B.
  split.
  - intros [n Hn]. assert (x / m = n).
    { symmetry. apply (Z.div_unique_pos _ _ _ (x - n*m)); nia. } subst. nia.
  - intros. exists (x / m). nia.
Qed.

Lemma s0_counts w m a b : 0 <= w <= m -> 0 < m -> 0 <= a <= b ->
  counts (in_stripe 0 w m) a b (s0 w m b - s0 w m a).
Proof.
  intros Hw Hm H.
  assert (G : forall n, 0 <= n -> counts (in_stripe 0 w m) a (a + n) (s0 w m (a + n) - s0 w m a)).
  { intros n Hn. pattern n. apply natlike_ind; auto.
    - replace (a + 0) with a by lia. rewrite Z.sub_diag. apply counts_nil. lia.
    - intros x Hx IH. replace (a + Z.succ x) with (a + x + 1) by lia.
      rewrite s0_succ by lia.
      destruct (Z.ltb_spec ((a + x) mod m) w).
      + replace (s0 w m (a + x) + 1 - s0 w m a) with (s0 w m (a + x) - s0 w m a + 1) by lia.
        apply counts_in; [lia|auto|]. apply in_stripe0; auto.
      + rewrite Z.add_0_r. apply counts_out; [lia|auto|]. rewrite in_stripe0 by lia. lia. }
  specialize (G (b - a) ltac:(lia)). replace (a + (b - a)) with b in G by lia. exact G.
Qed.

Lemma s0_bound w m e : 0 <= w <= m -> 0 < m -> 0 <= e ->
  0 <= (e / m) * w /\ 0 <= s0 w m e <= e.
Proof.
  intros. unfold s0. pose proof (Z.div_mod e m ltac:(lia)) as D.
  pose proof (Z.mod_pos_bound e m ltac:(lia)) as B.
  assert (0 <= e / m) by (apply Z.div_pos; lia). nia.
Qed.

Lemma stripes0_s0 w m e : 0 <= w <= m -> 0 < m -> 0 <= e < 4294967296 ->
  stripes0 w m e = s0 w m e.
Proof.
  intros Hw Hm He. unfold stripes0.
  pose proof (s0_bound w m e Hw Hm ltac:(lia)) as [B1 B2].
  unfold s0 in *. pose proof (Z.mod_pos_bound e m ltac:(lia)) as B.
  rewrite (u32_small (e / m * w)) by lia. apply u32_small. lia.
Qed.

Lemma s0_mono w m a b : 0 <= w <= m -> 0 < m -> 0 <= a <= b -> s0 w m a <= s0 w m b.
Proof.
  intros Hw Hm H.
  assert (forall n, 0 <= n -> s0 w m a <= s0 w m (a + n)).
  { intros n Hn. pattern n. apply natlike_ind; auto.
    - rewrite Z.add_0_r; lia.
    - intros x Hx IH. replace (a + Z.succ x) with (a + x + 1) by lia.
      rewrite s0_succ by lia. destruct (_ <? _); lia. }
  replace b with (a + (b - a)) by lia. apply H0; lia.
Qed.

Lemma stripes_correct s e ss se m :
  0 <= s <= e -> 0 <= ss <= se -> se - ss <= m -> 0 < m ->
  ss <= s + m -> e + m - ss < 4294967296 -> m < 4294967296 -> se < 4294967296 ->
  counts (in_stripe ss se m) s e (stripes (Range s e) (Range ss se) m).
Proof.
  intros. unfold stripes, stripes1, r_size. cbn [r_start r_end].
  assert (E1 : u32 (s + u32 (m - ss)) = s + m - ss).
  { unfold u32. rewrite Zplus_mod_idemp_r. rewrite Z.mod_small; lia. }
  assert (E2 : u32 (e + u32 (m - ss)) = e + m - ss).
  { unfold u32. rewrite Zplus_mod_idemp_r. rewrite Z.mod_small; lia. }
  rewrite E1, E2.
  assert (E3 : (if ss >=? se then 0 else u32 (se - ss)) = se - ss).
  { destruct (Z.geb_spec ss se); [lia|]. apply u32_small; lia. }
  rewrite E3. rewrite !stripes0_s0 by lia.
  pose proof (s0_counts (se - ss) m (s + m - ss) (e + m - ss) ltac:(lia) ltac:(lia) ltac:(lia)) as C.
  pose proof (s0_bound (se - ss) m (e + m - ss) ltac:(lia) ltac:(lia) ltac:(lia)).
  pose proof (s0_bound (se - ss) m (s + m - ss) ltac:(lia) ltac:(lia) ltac:(lia)).
  pose proof (s0_mono (se - ss) m (s + m - ss) (e + m - ss) ltac:(lia) ltac:(lia) ltac:(lia)).
  rewrite u32_small by lia.
  apply (counts_shift _ (ss - m)) in C.
  replace (s + m - ss + (ss - m)) with s in C by lia.
  replace (e + m - ss + (ss - m)) with e in C by lia.
  revert C. apply counts_ext. intros x Hx. unfold in_stripe.
  split; intros [n Hn].
  - exists (n - 1). nia.
  - exists (n + 1). nia.
Qed.

(** * my_sqrt *)
Lemma imul_some a b : -2147483648 <= a * b <= 2147483647 -> imul a b = Some (a * b).
Proof. intros. unfold imul, int_ok. destruct (_ && _) eqn:E; [auto|lia]. Qed.
Lemma iadd_some a b : -2147483648 <= a + b <= 2147483647 -> iadd a b = Some (a + b).
Proof. intros. unfold iadd, int_ok. destruct (_ && _) eqn:E; [auto|lia]. Qed.

Lemma sqrt_bisect_ok n : forall x under over,
  0 <= under -> under < over -> under * under <= x < over * over ->
  over <= 46340 -> over - under <= 2 ^ Z.of_nat n ->
  sqrt_bisect (S n) x under over = SOk (Z.sqrt x).
Proof.
  induction n; intros x under over H0 H1 H2 H3 H4;
    cbn [sqrt_bisect]; destruct (Z.ltb_spec (under + 1) over).
  - change (2 ^ Z.of_nat 0) with 1 in H4. lia.
  - f_equal. symmetry. apply Z.sqrt_unique. nia.
  - rewrite iadd_some by lia. rewrite Z.shiftr_div_pow2 by lia. change (2^1) with 2.
    set (mid := (over + under) / 2).
    assert (Hm : under < mid < over) by (unfold mid; lia).
    assert (mid * mid <= 2147483647) by nia.
    rewrite imul_some by nia.
    rewrite Nat2Z.inj_succ, Z.pow_succ_r in H4 by lia.
    destruct (Z.gtb_spec (mid * mid) x).
    + change (sqrt_bisect (S n) x under mid = SOk (Z.sqrt x)). apply IHn; try lia; unfold mid; lia.
    + change (sqrt_bisect (S n) x mid over = SOk (Z.sqrt x)). apply IHn; try lia; unfold mid; lia.
  - f_equal. symmetry. apply Z.sqrt_unique. nia.
Qed.


Lemma sqrt_down_ok n : forall x under over step L,
  0 < x -> under < over -> x < over * over -> over <= 46340 -> 0 <= under ->
  0 < step -> under + step = L -> L <= 46340 -> L <= step * 2 ^ Z.of_nat n ->
  exists u o, sqrt_down (S n) x under over step = Some (Some (u, o)) /\
    0 <= u < o /\ u * u <= x < o * o /\ o <= 46340.
Proof.
  induction n; intros x under over step L Hx H0 H1 H2 H3 H4 HL HL2 H5; cbn [sqrt_down].
  - change (2 ^ Z.of_nat 0) with 1 in H5. assert (under = 0) by lia. subst under.
    rewrite imul_some by lia. destruct (Z.gtb_spec (0 * 0) x); [lia|].
    exists 0, over. repeat split; lia.
  - rewrite imul_some by nia. destruct (Z.gtb_spec (under * under) x).
    + rewrite iadd_some by lia. destruct (Z.leb_spec (under - step) 0).
      * exists 0, under. repeat split; nia.
      * change (exists u o, sqrt_down (S n) x (under - step) under (step + step) = Some (Some (u, o)) /\
          0 <= u < o /\ u * u <= x < o * o /\ o <= 46340).
        apply IHn with (L := L); try lia.
        rewrite Nat2Z.inj_succ, Z.pow_succ_r in H5 by lia. nia.
    + exists under, over. repeat split; nia.
Qed.

Lemma sqrt_up_ok n : forall x under over step L,
  0 < x < 536870912 -> 0 <= under < over -> under * under <= x ->
  0 <= L -> over = L + step -> 1 <= step -> over <= 2 * under \/ over = under + 1 ->
  46340 < step * 2 ^ Z.of_nat n ->
  exists u o, sqrt_up (S n) x under over step = Some (Some (u, o)) /\
    0 <= u < o /\ u * u <= x < o * o /\ o <= 46340.
Proof.
  induction n; intros x under over step L Hx H0 H1 H2 H3 H4 H5 H6; cbn [sqrt_up];
    assert (U : under <= 23170) by nia; assert (O : over <= 46340) by lia.
  - change (2 ^ Z.of_nat 0) with 1 in H6. lia.
  - rewrite imul_some by nia. destruct (Z.leb_spec (over * over) x).
    + rewrite (iadd_some over step), (iadd_some step step) by lia.
      change (exists u o, sqrt_up (S n) x over (over + step) (step + step) = Some (Some (u, o)) /\
          0 <= u < o /\ u * u <= x < o * o /\ o <= 46340).
      apply IHn with (L := L); try lia.
      rewrite Nat2Z.inj_succ, Z.pow_succ_r in H6 by lia. nia.
    + exists under, over. repeat split; nia.
Qed.

Lemma my_sqrt_ok last x : 0 <= last <= 46340 -> x < 536870912 ->
  my_sqrt last x = SOk (Z.sqrt x).
Proof.
  intros Hl Hx. unfold my_sqrt. destruct (Z.leb_spec x 0).
  { f_equal. destruct (Z.eq_dec x 0); [subst; reflexivity|].
    symmetry. apply Z.sqrt_neg. lia. }
  rewrite imul_some by nia.
  assert (exists u o, (if last * last >? x then sqrt_down sqrt_fuel x (last - 1) last 1
      else sqrt_up sqrt_fuel x last (last + 1) 1) = Some (Some (u, o)) /\
    0 <= u < o /\ u * u <= x < o * o /\ o <= 46340) as (u & o & E & H1 & H2 & H3).
  { destruct (Z.gtb_spec (last * last) x).
    - apply (sqrt_down_ok 39) with (L := last); try lia; try nia.
    - apply (sqrt_up_ok 39) with (L := last); lia. }
  rewrite E. apply (sqrt_bisect_ok 39); lia.
Qed.

Lemma sqrt_small x : x < 536870912 -> 0 <= Z.sqrt x <= 46340.
Proof.
  intros. split; [apply Z.sqrt_nonneg|].
  destruct (Z_le_gt_dec x 0).
  - destruct (Z.eq_dec x 0); [subst; cbn; lia|]. rewrite Z.sqrt_neg; lia.
  - destruct (Z.sqrt_spec x ltac:(lia)) as [A _]. revert A. generalize (Z.sqrt x). intros s A.
    assert (~ s >= 46341); [intros C|lia]. assert (46341 * 46341 <= s * s) by nia. lia.
Qed.

Lemma sqrt_calls_ok xs : forall last, 0 <= last <= 46340 ->
  Forall (fun x => x < 536870912) xs ->
  sqrt_calls last xs = map (fun x => SOk (Z.sqrt x)) xs.
Proof.
  unfold sqrt_calls.
  induction xs as [|x xs IH]; intros last Hl Hx; cbn [run_outs sqrt_step map]; [reflexivity|].
  inversion Hx; subst. rewrite my_sqrt_ok by auto. f_equal. apply IH; auto.
  unfold my_sqrt_last. destruct (x <=? 0); [auto|]. rewrite my_sqrt_ok by auto.
  apply sqrt_small; auto.
Qed.

Lemma cyc_near_iff a b : Z.abs (a - b) < 2^31 ->
  (cyc_lt (u32 a) (u32 b) = true <-> a < b) /\
  (cyc_le (u32 a) (u32 b) = true <-> a <= b) /\
  (cyc_gt (u32 a) (u32 b) = true <-> a > b) /\
  (cyc_ge (u32 a) (u32 b) = true <-> a >= b) /\
  (cyc_eq (u32 a) (u32 b) = true <-> a = b).
Proof.
  change (2^31) with 2147483648. intros H.
  destruct (cyc_near a b H) as (A & B & C & D & E). rewrite A, B, C, D, E.
  repeat split; lia.
Qed.

Lemma cyc_lt_exact a b :
  cyc_lt (u32 a) (u32 b) = true <-> exists d, 1 <= d <= 2^31 /\ u32 b = u32 (a + d).
Proof.
  rewrite cyc_lt_gen. change (2^31) with 2147483648. split.
  - intros H. exists (u32 (b - a)). split; [lia|]. unfold u32.
    rewrite Zplus_mod_idemp_r. f_equal. lia.
  - intros (d & Hd & E). 
    assert (u32 (b - a) = u32 d) as ->.
    { rewrite <- u32_sub_u32, E. rewrite u32_sub_u32. f_equal. lia. }
    rewrite u32_small; lia.
Qed.

Lemma MOD_spec x m : 0 < m -> 0 <= MOD x m < m /\ exists k, x = k * m + MOD x m.
Proof.
  intros H. rewrite MOD_correct by auto. split; [apply Z.mod_pos_bound; auto|].
  exists (x / m). pose proof (Z.div_mod x m ltac:(lia)). lia.
Qed.

Lemma sqrt_calls_spec xs last :
  0 <= last <= 46340 -> Forall (fun x => x < 2^29) xs ->
  Forall2 (fun x r => exists s, r = SOk s /\ 0 <= s /\
             (0 < x -> s * s <= x < (s + 1) * (s + 1)) /\ (x <= 0 -> s = 0))
    xs (sqrt_calls last xs).
Proof.
  intros H1 H2. rewrite sqrt_calls_ok; auto.
  clear H1 H2. induction xs as [|x xs IH]; cbn [map]; constructor; auto.
  exists (Z.sqrt x). split; [reflexivity|]. split; [apply Z.sqrt_nonneg|]. split.
  - intros. apply Z.sqrt_spec. lia.
  - intros. destruct (Z.eq_dec x 0); [subst; reflexivity|]. apply Z.sqrt_neg. lia.
Qed.

Lemma far_stripe_refuted :
  exists s e ss se period, 0 <= s <= e /\ 0 <= ss <= se /\ se - ss <= period /\ 0 < period /\
   ~ counts (in_stripe ss se period) s e (stripes (Range s e) (Range ss se) period).
Proof.
  exists 0, 1, 14, 15, 7. repeat split; try lia.
  replace (stripes (Range 0 1) (Range 14 15) 7) with 0 by (vm_compute; reflexivity).
  intros H.
  assert (G : counts (in_stripe 14 15 7) 0 (0 + 1) (0 + 1)).
  { apply counts_in; [lia|apply counts_nil; lia|exists (-2); lia]. }
  pose proof (counts_fun _ _ _ _ _ H G). lia.
Qed.
