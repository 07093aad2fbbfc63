From Coq Require Import ZArith List Bool Lia ZifyBool ZifyNat.
From Verif Require Import Machine ArithModel ArithSpec ArithProofs FuncModel FuncSpec.
Import ListNotations.
Open Scope Z_scope.

Lemma chk_some x : -2147483648 <= x <= 2147483647 -> chk x = Some x.
Proof. intros; unfold chk, int_ok. replace (_ && _) with true by lia. reflexivity. Qed.
Lemma chk_inv x y : chk x = Some y -> y = x /\ -2147483648 <= x <= 2147483647.
Proof. unfold chk, int_ok. destruct (_ && _) eqn:E; intros H; inversion H; subst; split; lia. Qed.
Lemma shr15 x : Z.shiftr x 15 = x / 32768.
Proof. now rewrite Z.shiftr_div_pow2 by lia. Qed.
Lemma shr14 x : Z.shiftr x 14 = x / 16384.
Proof. now rewrite Z.shiftr_div_pow2 by lia. Qed.
Lemma to_int_small x : -2147483648 <= x < 2147483648 -> to_int x = x.
Proof.
  intros. unfold to_int, u32. destruct (Z.ltb_spec (x mod 4294967296) 2147483648).
  - destruct (Z_lt_ge_dec x 0).
    + rewrite <- (Z.mod_add x 1) in H0 by lia. rewrite Z.mod_small in H0; lia.
    + apply Z.mod_small; lia.
  - destruct (Z_lt_ge_dec x 0).
    + rewrite <- (Z.mod_add x 1) by lia. rewrite Z.mod_small; lia.
    + rewrite Z.mod_small in *; lia.
Qed.

(** Scale and friends *)
Lemma clamp_in f a b : a <= b -> a <= fn_clamp f a b <= b /\ (a <= f <= b -> fn_clamp f a b = f).
Proof. unfold fn_clamp, clampi32; intros. destruct (Z.ltb_spec f a), (Z.gtb_spec f b); lia. Qed.

Lemma scale_ok f a b : 0 <= f <= 32768 -> Z.abs (b - a) <= 65535 ->
  -1073741824 <= a <= 1073741824 -> -1073741824 <= b <= 1073741824 ->
  fn_scale f a b = Some (f * (b - a) / 32768 + a).
Proof.
  intros. unfold fn_scale. rewrite chk_some by lia. cbn [bind].
  rewrite chk_some by nia. cbn [bind]. rewrite shr15. apply chk_some.
  assert (-65536 <= f * (b - a) / 32768 <= 65536) by
    (split; [apply Z.div_le_lower_bound | apply Z.div_le_upper_bound]; nia). lia.
Qed.
Lemma scale_between f a b : 0 <= f <= 32768 ->
  Z.min a b <= f * (b - a) / 32768 + a <= Z.max a b.
Proof.
  intros. destruct (Z_le_gt_dec a b).
  - assert (0 <= f * (b - a) / 32768 <= b - a) by
      (split; [apply Z.div_le_lower_bound | apply Z.div_le_upper_bound]; nia). lia.
  - assert (b - a <= f * (b - a) / 32768 <= 0) by
      (split; [apply Z.div_le_lower_bound | apply Z.div_le_upper_bound]; nia). lia.
Qed.

Lemma scale_thm f a b : 0 <= f <= 32768 -> Z.abs (b - a) <= 65535 ->
  -1073741824 <= a <= 1073741824 -> -1073741824 <= b <= 1073741824 ->
  exists r, fn_scale f a b = Some r /\ Z.min a b <= r <= Z.max a b /\
  32768 * (r - a) <= f * (b - a) < 32768 * (r - a + 1).
Proof.
  intros. eexists; split; [apply scale_ok; auto|]. split; [apply scale_between; auto|].
  pose proof (Z.div_mod (f * (b - a)) 32768). pose proof (Z.mod_pos_bound (f * (b - a)) 32768). lia.
Qed.
Lemma scale_ends a b : Z.abs (b - a) <= 65535 ->
  -1073741824 <= a <= 1073741824 -> -1073741824 <= b <= 1073741824 ->
  fn_scale 0 a b = Some a /\ fn_scale 32768 a b = Some b.
Proof.
  intros; rewrite !scale_ok by lia. split; f_equal.
  rewrite Z.mul_comm, Z.div_mul by lia. lia.
Qed.
Lemma invert_ok f : 0 <= f <= 32768 -> fn_invert f = Some (32768 - f).
Proof.
  intros. unfold fn_invert. rewrite scale_ok by lia. f_equal.
  replace (f * (0 - 32768)) with (- f * 32768) by lia. rewrite Z.div_mul; lia.
Qed.

Lemma mult_ok f v : 0 <= f <= 32768 -> 0 <= v <= 32768 ->
  exists r, fn_mult f v = Some r /\ 0 <= r <= Z.min f v /\
  32768 * r <= f * v < 32768 * (r + 1).
Proof.
  intros. unfold fn_mult. rewrite chk_some by nia. cbn [bind]. rewrite shr15.
  eexists; split; [reflexivity|].
  pose proof (Z.div_mod (f * v) 32768). pose proof (Z.mod_pos_bound (f * v) 32768). nia.
Qed.

Lemma layer2_ok a b : 0 <= a <= 32768 -> 0 <= b <= 32768 ->
  exists r, fn_layer2 a b = Some r /\ Z.max a b <= r <= 32768 /\
  32768 * (32768 - r) <= (32768 - a) * (32768 - b) < 32768 * (32768 - r + 1).
Proof.
  intros. unfold fn_layer2. rewrite !chk_some by lia. cbn [bind].
  rewrite chk_some by nia. cbn [bind]. rewrite shr15.
  set (x := 32768 - a). set (y := 32768 - b).
  pose proof (Z.div_mod (x * y) 32768). pose proof (Z.mod_pos_bound (x * y) 32768).
  assert (0 <= x * y / 32768 <= Z.min x y) by nia.
  rewrite chk_some by lia. eexists; split; [reflexivity|]. subst x y. lia.
Qed.
Lemma layers_ok bs : forall a, 0 <= a <= 32768 -> Forall (fun b => 0 <= b <= 32768) bs ->
  exists r, fn_layers a bs = Some r /\ 0 <= r <= 32768 /\ Forall (fun x => x <= r) (a :: bs) /\
  (Forall (fun x => x = 0) (a :: bs) -> r = 0).
Proof.
  induction bs as [|b bs IH]; intros a Ha Hb.
  - exists a. cbn. repeat split; try lia. constructor; auto; lia.
    intros H. now apply Forall_inv in H.
  - inversion Hb as [|? ? Hb1 Hb2]; subst. destruct (IH b Hb1 Hb2) as (r & E & R & F & Zr).
    cbn [fn_layers]. rewrite E. cbn [bind].
    destruct (layer2_ok a r Ha R) as (q & Eq & Rq & Lq). exists q. split; auto.
    split; [lia|]. split.
    + constructor; [lia|]. eapply Forall_impl; [|exact F]. cbn; intros; lia.
    + intros H. inversion H; subst. rewrite Zr in * by auto. lia.
Qed.

(** Ramp, in/out *)
Lemma ramp_ok n led : 0 < n <= 65535 -> 0 <= led < n ->
  exists r, fn_ramp n led = Some r /\ 0 <= r < 32768 /\ r * n <= led * 32768 < (r + 1) * n.
Proof.
  intros. unfold fn_ramp. rewrite chk_some by lia. cbn [bind].
  replace (n =? 0) with false by lia. rewrite Z.quot_div_nonneg by lia.
  pose proof (Z.div_mod (led * 32768) n). pose proof (Z.mod_pos_bound (led * 32768) n).
  assert (0 <= led * 32768 / n < 32768) by nia.
  rewrite chk_some by lia. eexists; split; [reflexivity|]. nia.
Qed.

(** Counting over intervals *)
Lemma counts_len P a b c : counts P a b c -> 0 <= c <= Z.max 0 (b - a).
Proof. induction 1; lia. Qed.
Lemma counts_interval_nat s e a n :
  counts (fun u => s <= u < e) a (a + Z.of_nat n) (Z.max 0 (Z.min e (a + Z.of_nat n) - Z.max s a)).
Proof.
  induction n.
  - replace (Z.max 0 _) with 0 by lia. apply counts_nil; lia.
  - replace (a + Z.of_nat (S n)) with (a + Z.of_nat n + 1) by lia.
    set (b := a + Z.of_nat n) in *.
    destruct (Z_le_dec s b), (Z_lt_dec b e).
    + replace (Z.max 0 (Z.min e (b + 1) - Z.max s a)) with
        (Z.max 0 (Z.min e b - Z.max s a) + 1) by lia.
      apply counts_in; auto; lia.
    + replace (Z.max 0 (Z.min e (b + 1) - Z.max s a)) with
        (Z.max 0 (Z.min e b - Z.max s a)) by lia.
      apply counts_out; auto; lia.
    + replace (Z.max 0 (Z.min e (b + 1) - Z.max s a)) with
        (Z.max 0 (Z.min e b - Z.max s a)) by lia.
      apply counts_out; auto; lia.
    + replace (Z.max 0 (Z.min e (b + 1) - Z.max s a)) with
        (Z.max 0 (Z.min e b - Z.max s a)) by lia.
      apply counts_out; auto; lia.
Qed.
Lemma counts_interval s e a b : a <= b ->
  counts (fun u => s <= u < e) a b (Z.max 0 (Z.min e b - Z.max s a)).
Proof.
  intros. pose proof (counts_interval_nat s e a (Z.to_nat (b - a))).
  rewrite Z2Nat.id in H0 by lia. now replace (a + (b - a)) with b in H0 by lia.
Qed.
Lemma counts_union P Q a b c d : counts P a b c -> counts Q a b d ->
  (forall x, a <= x < b -> ~ (P x /\ Q x)) -> counts (fun x => P x \/ Q x) a b (c + d).
Proof.
  intros H; revert d; induction H; intros d HQ HD.
  - inversion HQ; subst; try lia. apply counts_nil; auto.
  - inversion HQ; subst.
    + lia.
    + assert (b0 = b) by lia; subst. exfalso; apply (HD b); [lia|auto].
    + assert (b0 = b) by lia; subst.
      replace (c + 1 + d) with (c + d + 1) by lia. apply counts_in; auto.
      apply IHcounts; auto. intros; apply HD; lia.
  - inversion HQ; subst.
    + lia.
    + assert (b0 = b) by lia; subst.
      replace (c + (c0 + 1)) with (c + c0 + 1) by lia. apply counts_in; auto.
      apply IHcounts; auto. intros; apply HD; lia.
    + assert (b0 = b) by lia; subst. apply counts_out; auto.
      apply IHcounts; auto. intros; apply HD; lia. tauto.
Qed.

Lemma inout_ok ext n led : 0 <= ext <= 32768 -> 0 < n <= 65535 -> 0 <= led < n ->
  exists r, fn_inout ext n led = Some r /\
  counts (fun u => ext * n <= u) (led * 32768) (led * 32768 + 32768) r.
Proof.
  intros. unfold fn_inout. rewrite chk_some by nia. cbn [bind].
  rewrite chk_some by nia. cbn [bind]. rewrite chk_some by lia. cbn [bind].
  rewrite chk_some by nia. cbn [bind]. eexists; split; [reflexivity|].
  pose proof (counts_interval (ext * n) (led * 32768 + 32768) (led * 32768) (led * 32768 + 32768) ltac:(lia)).
  eapply counts_ext in H2.
  - replace (clampi32 _ 0 32768) with
      (Z.max 0 (Z.min (led * 32768 + 32768) (led * 32768 + 32768) - Z.max (ext * n) (led * 32768)));
      [exact H2|].
    unfold clampi32. destruct (Z.ltb_spec (led * 32768 - (ext * n - 32768)) 0),
      (Z.gtb_spec (led * 32768 - (ext * n - 32768)) 32768); lia.
  - cbn; intros; lia.
Qed.

(** Linear section *)
Lemma led_range_ok led : 0 <= led <= 65534 ->
  led_range led = Some (Range (led * 32768) (led * 32768 + 32768)).
Proof.
  intros. unfold led_range. rewrite chk_some by lia. cbn [bind]. rewrite chk_some by lia.
  cbn [bind]. rewrite !u32_small by lia. reflexivity.
Qed.
Lemma and_size s e a b : 0 <= s -> 0 <= a -> b < 4294967296 -> 
  r_size (r_and (Range s e) (Range a b)) = Z.max 0 (Z.min e b - Z.max s a).
Proof.
  intros. unfold r_size, r_and. cbn [r_start r_end].
  destruct (Z.geb_spec (Z.max s a) (Z.min e b)); [lia|]. rewrite u32_small; lia.
Qed.
Lemma half_ok frac : 0 <= frac -> Z.quot frac 2 = frac / 2.
Proof. intros. apply Z.quot_div_nonneg; lia. Qed.

Lemma lin_range_ok pos frac n : 0 <= pos <= 32768 -> 0 <= frac <= 65536 -> 0 < n <= 32767 ->
  lin_range pos frac n =
  Some (Range (Z.max 0 ((pos - frac / 2) * n)) (Z.min (32768 * n) ((pos + frac / 2) * n))).
Proof.
  intros. unfold lin_range. rewrite half_ok by lia.
  assert (0 <= frac / 2 <= 32768) by (split; [apply Z.div_pos|apply Z.div_le_upper_bound]; lia).
  set (h := frac / 2) in *.
  repeat (rewrite chk_some by nia; cbn [bind]). f_equal.
  assert ((pos - h) * n <= 32768 * n) by nia.
  assert (0 <= (pos + h) * n) by nia.
  f_equal; unfold clampi32.
  - destruct (Z.ltb_spec ((pos - h) * n) 0), (Z.gtb_spec ((pos - h) * n) (32768 * n));
      rewrite u32_small; lia.
  - destruct (Z.ltb_spec ((pos + h) * n) 0), (Z.gtb_spec ((pos + h) * n) (32768 * n));
      rewrite u32_small; lia.
Qed.

Lemma linear_val pos frac n led :
  0 <= pos <= 32768 -> 0 <= frac <= 65536 -> 0 < n <= 32767 -> 0 <= led < n ->
  fn_linear pos frac n led = Some
    (Z.max 0 (Z.min (Z.min (32768 * n) ((pos + frac / 2) * n)) (led * 32768 + 32768) -
              Z.max (Z.max 0 ((pos - frac / 2) * n)) (led * 32768))).
Proof.
  intros. unfold fn_linear. rewrite lin_range_ok by auto. cbn [bind].
  rewrite led_range_ok by lia. cbn [bind]. rewrite and_size by lia. f_equal.
  apply to_int_small. nia.
Qed.
Lemma linear_ok pos frac n led :
  0 <= pos <= 32768 -> 0 <= frac <= 65536 -> 0 < n <= 32767 -> 0 <= led < n ->
  exists r, fn_linear pos frac n led = Some r /\
  counts (in_section pos (frac / 2) n) (led * 32768) (led * 32768 + 32768) r.
Proof.
  intros. rewrite linear_val by auto. eexists; split; [reflexivity|].
  set (h := frac / 2).
  pose proof (counts_interval ((pos - h) * n) ((pos + h) * n)
    (led * 32768) (led * 32768 + 32768) ltac:(lia)) as C.
  replace (Z.max 0 _) with (Z.max 0 (Z.min ((pos + h) * n) (led * 32768 + 32768) -
    Z.max ((pos - h) * n) (led * 32768))).
  - exact C.
  - lia.
Qed.

Lemma sum_leds_ext f g n : (forall i, 0 <= i < Z.of_nat n -> f i = g i) ->
  sum_leds f n = sum_leds g n.
Proof. induction n; intros H; cbn; auto. rewrite IHn, H; auto; intros; try apply H; lia. Qed.
Lemma sum_leds_plus f g n : sum_leds (fun i => f i + g i) n = sum_leds f n + sum_leds g n.
Proof. induction n; cbn; lia. Qed.
Lemma sum_interval s e n : 0 <= s -> 
  sum_leds (fun led => Z.max 0 (Z.min e (led * 32768 + 32768) - Z.max s (led * 32768))) n =
  Z.max 0 (Z.min e (32768 * Z.of_nat n) - s).
Proof. intros. induction n; cbn [sum_leds]; [lia|]. rewrite IHn. lia. Qed.

Lemma linear_sum pos frac n : 0 <= frac <= 65536 -> 0 < n <= 32767 ->
  frac / 2 <= pos <= 32768 - frac / 2 ->
  sum_leds (fun led => get0 (fn_linear pos frac n led)) (Z.to_nat n) = 2 * (frac / 2) * n.
Proof.
  intros. assert (0 <= frac / 2) by (apply Z.div_pos; lia).
  rewrite (sum_leds_ext _ (fun led => Z.max 0 (Z.min ((pos + frac / 2) * n) (led * 32768 + 32768) -
              Z.max ((pos - frac / 2) * n) (led * 32768)))).
  - rewrite sum_interval by nia. rewrite Z2Nat.id by lia. nia.
  - intros. rewrite linear_val by lia. cbn [get0]. f_equal. nia.
Qed.

(** Circular section *)
Lemma land32767 x : Z.land x 32767 = x mod 32768.
Proof. change 32767 with (Z.ones 15). now rewrite Z.land_ones by lia. Qed.

Definition circ_val pos frac n led : Z :=
  let h := frac / 2 in
  let s := ((pos - h) mod 32768) * n in
  let e := ((pos + h) mod 32768) * n in
  if frac =? 32768 then Z.max 0 (Z.min (n * 32768) (led * 32768 + 32768) - led * 32768)
  else if s <=? e then Z.max 0 (Z.min e (led * 32768 + 32768) - Z.max s (led * 32768))
  else Z.max 0 (Z.min e (led * 32768 + 32768) - Z.max 0 (led * 32768)) +
       Z.max 0 (Z.min (n * 32768) (led * 32768 + 32768) - Z.max s (led * 32768)).

Lemma circular_val pos frac n led :
  -1073741824 <= pos <= 1073741824 -> 0 <= frac <= 32768 -> 0 < n <= 65535 -> 0 <= led < n ->
  fn_circular pos frac n led = Some (circ_val pos frac n led).
Proof.
  intros. unfold fn_circular, circ_run, circ_val. rewrite led_range_ok by lia.
  rewrite (u32_small n) by lia. rewrite (u32_small (n * 32768)) by lia.
  assert (H3: 0 <= frac / 2 <= 16384) by (split; [apply Z.div_pos|apply Z.div_le_upper_bound]; lia).
  destruct (Z.eqb_spec frac 32768) as [E|E].
  { cbn [bind]. replace (0 <=? n * 32768) with true by lia. rewrite and_size by lia.
    rewrite to_int_small by lia. do 3 f_equal. lia. }
  destruct (Z.eqb_spec frac 0) as [E0|E0].
  { subst frac. cbn [bind]. cbn [Z.leb]. rewrite and_size by lia.
    change (0 / 2) with 0. rewrite Z.sub_0_r, Z.add_0_r.
    pose proof (Z.mod_pos_bound pos 32768 ltac:(lia)). change (0 <=? 0) with true. cbv iota.
    rewrite to_int_small by lia. apply f_equal. rewrite (Z.leb_refl (pos mod 32768 * n)). lia. }
  rewrite half_ok by lia. set (h := frac / 2) in *.
  repeat (rewrite chk_some by lia; cbn [bind]).
  rewrite !land32767.
  replace ((pos + 32768 - h) mod 32768) with ((pos - h) mod 32768).
  2:{ rewrite <- (Z.mod_add (pos - h) 1) by lia. f_equal; lia. }
  pose proof (Z.mod_pos_bound (pos - h) 32768 ltac:(lia)).
  pose proof (Z.mod_pos_bound (pos + h) 32768 ltac:(lia)).
  set (S := (pos - h) mod 32768) in *. set (E' := (pos + h) mod 32768) in *.
  rewrite !u32_small by nia.
  destruct (Z.leb_spec (S * n) (E' * n)).
  - rewrite and_size by nia. f_equal. apply to_int_small. lia.
  - rewrite !and_size by nia. f_equal.
    rewrite u32_small by lia. apply to_int_small. lia.
Qed.

Lemma in_circle_units pos h n u : 0 < n -> 0 <= u < 32768 * n -> 0 <= h < 16384 ->
  let s := ((pos - h) mod 32768) * n in let e := ((pos + h) mod 32768) * n in
  in_circle pos h n u <-> (if s <=? e then s <= u < e else u < e \/ s <= u).
Proof.
  intros Hn Hu Hh s e.
  pose proof (Z.div_mod (pos - h) 32768 ltac:(lia)) as D1.
  pose proof (Z.mod_pos_bound (pos - h) 32768 ltac:(lia)) as B1.
  pose proof (Z.div_mod (pos + h) 32768 ltac:(lia)) as D2.
  pose proof (Z.mod_pos_bound (pos + h) 32768 ltac:(lia)) as B2.
  subst s e. set (S := (pos - h) mod 32768) in *. set (E := (pos + h) mod 32768) in *.
  set (q1 := (pos - h) / 32768) in *. set (q2 := (pos + h) / 32768) in *.
  assert (Q : q2 = q1 \/ q2 = q1 + 1) by nia.
  unfold in_circle, in_section.
  destruct (Z.leb_spec (S * n) (E * n)) as [L|L].
  - assert (S <= E) by nia. assert (q2 = q1) by nia. subst q2. 
    split.
    + intros [k K]. assert (pos - h = 32768 * q1 + S) by lia. assert (pos + h = 32768 * q1 + E) by lia.
      rewrite H1, H2 in K.
      assert (k = q1). { nia. } nia.
    + intros [A B]. exists q1. nia.
  - assert (E < S) by nia. assert (q2 = q1 + 1) by nia.
    assert (F1: pos - h = 32768 * q1 + S) by lia. assert (F2: pos + h = 32768 * q1 + 32768 + E) by lia.
    split.
    + intros [k K]. rewrite F1, F2 in K.
      assert (k = q1 \/ k = q1 + 1) by nia. destruct H1; nia.
    + intros [A|A].
      * exists (q1 + 1). nia.
      * exists q1. nia.
Qed.

Lemma circular_ok pos frac n led :
  -1073741824 <= pos <= 1073741824 -> 0 <= frac <= 32768 -> 0 < n <= 65535 -> 0 <= led < n ->
  exists r, fn_circular pos frac n led = Some r /\
  counts (in_circle pos (frac / 2) n) (led * 32768) (led * 32768 + 32768) r.
Proof.
  intros. rewrite circular_val by auto. eexists; split; [reflexivity|].
  unfold circ_val.
  destruct (Z.eqb_spec frac 32768) as [E|E].
  - subst frac. change (32768 / 2) with 16384.
    pose proof (counts_interval 0 (n * 32768) (led * 32768) (led * 32768 + 32768) ltac:(lia)) as C.
    rewrite (Z.max_r 0 (led * 32768)) in C by lia.
    revert C. apply counts_ext. intros u Hu. split; [|intros _; lia]. intros _.
    pose proof (Z.div_mod (u - (pos - 16384) * n) (32768 * n) ltac:(lia)) as D.
    pose proof (Z.mod_pos_bound (u - (pos - 16384) * n) (32768 * n) ltac:(lia)) as B.
    exists (- ((u - (pos - 16384) * n) / (32768 * n))). unfold in_section. lia.
  - assert (H3: 0 <= frac / 2 < 16384) by
      (split; [apply Z.div_pos; lia|apply Z.div_lt_upper_bound; lia]).
    set (h := frac / 2) in *.
    pose proof (Z.mod_pos_bound (pos - h) 32768 ltac:(lia)).
    pose proof (Z.mod_pos_bound (pos + h) 32768 ltac:(lia)).
    destruct (Z.leb_spec ((pos - h) mod 32768 * n) ((pos + h) mod 32768 * n)) as [L|L].
    + pose proof (counts_interval ((pos - h) mod 32768 * n) ((pos + h) mod 32768 * n)
        (led * 32768) (led * 32768 + 32768) ltac:(lia)) as C.
      revert C. apply counts_ext. intros u Hu.
      rewrite (in_circle_units pos h n u) by lia. cbv zeta.
      replace (_ <=? _) with true by lia. reflexivity.
    + pose proof (counts_interval 0 ((pos + h) mod 32768 * n)
        (led * 32768) (led * 32768 + 32768) ltac:(lia)) as C1.
      pose proof (counts_interval ((pos - h) mod 32768 * n) (n * 32768)
        (led * 32768) (led * 32768 + 32768) ltac:(lia)) as C2.
      pose proof (counts_union _ _ _ _ _ _ C1 C2 ltac:(cbv beta; intros; lia)) as C.
      revert C. apply counts_ext. intros u Hu. cbv beta.
      rewrite (in_circle_units pos h n u) by lia. cbv zeta.
      replace (_ <=? _) with false by lia. lia.
Qed.

Lemma circular_sum pos frac n :
  -1073741824 <= pos <= 1073741824 -> 0 <= frac <= 32768 -> 0 < n <= 65535 ->
  sum_leds (fun led => get0 (fn_circular pos frac n led)) (Z.to_nat n) = 2 * (frac / 2) * n.
Proof.
  intros.
  rewrite (sum_leds_ext _ (circ_val pos frac n)) by
    (intros; rewrite circular_val by lia; reflexivity).
  unfold circ_val. 
  destruct (Z.eqb_spec frac 32768) as [E|E].
  - subst frac. rewrite (sum_leds_ext _ (fun led => Z.max 0 (Z.min (n * 32768) (led * 32768 + 32768) -
       Z.max 0 (led * 32768)))) by (intros; f_equal; lia).
    rewrite sum_interval by lia. change (32768 / 2) with 16384. lia.
  - assert (H3: 0 <= frac / 2 < 16384) by
      (split; [apply Z.div_pos; lia|apply Z.div_lt_upper_bound; lia]).
    set (h := frac / 2) in *.
    pose proof (Z.div_mod (pos - h) 32768 ltac:(lia)) as D1.
    pose proof (Z.mod_pos_bound (pos - h) 32768 ltac:(lia)) as B1.
    pose proof (Z.div_mod (pos + h) 32768 ltac:(lia)) as D2.
    pose proof (Z.mod_pos_bound (pos + h) 32768 ltac:(lia)) as B2.
    set (S := (pos - h) mod 32768) in *. set (E' := (pos + h) mod 32768) in *.
    set (q1 := (pos - h) / 32768) in *. set (q2 := (pos + h) / 32768) in *.
    assert (Q : q2 = q1 \/ q2 = q1 + 1) by nia.
    destruct (Z.leb_spec (S * n) (E' * n)) as [L|L].
    + assert (S <= E') by nia. assert (q2 = q1) by nia.
      rewrite sum_interval by nia. nia.
    + assert (E' < S) by nia. assert (q2 = q1 + 1) by nia.
      rewrite sum_leds_plus. rewrite !sum_interval by nia. nia.
Qed.

(** Smooth step *)
Definition cubic (x : Z) : Z := x * x / 16384 * (49152 - x) / 32768.
Lemma cubic_near x : 0 <= x <= 32768 ->
  536870912 * cubic x <= x * x * (49152 - x) /\
  2 * (x * x * (49152 - x)) < 536870912 * (2 * cubic x + 5).
Proof.
  intros. unfold cubic. set (a := x * x / 16384).
  pose proof (Z.div_mod (x * x) 16384 ltac:(lia)) as D1.
  pose proof (Z.mod_pos_bound (x * x) 16384 ltac:(lia)) as B1.
  pose proof (Z.div_mod (a * (49152 - x)) 32768 ltac:(lia)) as D2.
  pose proof (Z.mod_pos_bound (a * (49152 - x)) 32768 ltac:(lia)) as B2.
  fold a in D1. set (r := (x * x) mod 16384) in *.
  set (g := a * (49152 - x) / 32768) in *. set (s := (a * (49152 - x)) mod 32768) in *.
  assert (E : x * x * (49152 - x) = 536870912 * g + 16384 * s + r * (49152 - x)).
  { rewrite D1. replace ((16384 * a + r) * (49152 - x)) with
      (16384 * (a * (49152 - x)) + r * (49152 - x)) by ring. rewrite D2. ring. }
  rewrite E. split; nia.
Qed.
Lemma cubic_exact_mono x y : 0 <= x <= y -> y <= 32768 ->
  x * x * (49152 - x) <= y * y * (49152 - y).
Proof.
  intros.
  assert (y * y * (49152 - y) - x * x * (49152 - x) =
    (y - x) * (49152 * (x + y) - (x * x + x * y + y * y))) by ring.
  assert (x * x + x * y + y * y <= 49152 * (x + y)) by nia.
  assert (0 <= (y - x) * (49152 * (x + y) - (x * x + x * y + y * y))) by
    (apply Z.mul_nonneg_nonneg; lia). lia.
Qed.
Lemma cubic_range x : 0 <= x <= 32768 -> 0 <= cubic x <= 32768.
Proof.
  intros. destruct (cubic_near x H).
  pose proof (cubic_exact_mono x 32768 ltac:(lia) ltac:(lia)).
  pose proof (cubic_exact_mono 0 x ltac:(lia) ltac:(lia)).
  split; [|lia]. unfold cubic. apply Z.div_pos; [|lia].
  apply Z.mul_nonneg_nonneg; [apply Z.div_pos; nia|lia].
Qed.
Definition ss_val (x : Z) : Z := if x <? 0 then 0 else if x >? 32768 then 32768 else cubic x.
Lemma ss_val_range x : 0 <= ss_val x <= 32768.
Proof.
  unfold ss_val. destruct (Z.ltb_spec x 0), (Z.gtb_spec x 32768); try lia. apply cubic_range; lia.
Qed.
Lemma ss_val_mono x y : x <= y -> ss_val x <= ss_val y + 2.
Proof.
  intros. unfold ss_val.
  destruct (Z.ltb_spec x 0), (Z.gtb_spec x 32768), (Z.ltb_spec y 0), (Z.gtb_spec y 32768); try lia.
  - pose proof (cubic_range y ltac:(lia)). lia.
  - pose proof (cubic_range x ltac:(lia)). lia.
  - destruct (cubic_near x ltac:(lia)), (cubic_near y ltac:(lia)).
    pose proof (cubic_exact_mono x y ltac:(lia) ltac:(lia)). lia.
Qed.
Lemma ss_val_low x : x <= 0 -> ss_val x = 0.
Proof.
  intros. unfold ss_val. destruct (Z.ltb_spec x 0); auto. assert (x = 0) by lia. subst. reflexivity.
Qed.
Lemma ss_val_high x : 32768 <= x -> ss_val x = 32768.
Proof.
  intros. unfold ss_val. destruct (Z.ltb_spec x 0); [lia|]. destruct (Z.gtb_spec x 32768); auto.
  assert (x = 32768) by lia. subst. reflexivity.
Qed.
Lemma ss_get_ok m l led : -2147483648 <= led * m <= 2147483647 ->
  -2147483648 <= led * m - l <= 2147483647 ->
  ss_get (m, l) led = Some (ss_val (led * m - l)).
Proof.
  intros. unfold ss_get, ss_val. cbn [fst snd]. rewrite chk_some by auto. cbn [bind].
  rewrite chk_some by auto. cbn [bind]. set (x := led * m - l) in *.
  destruct (Z.ltb_spec x 0); auto. destruct (Z.gtb_spec x 32768); auto.
  rewrite chk_some by nia. cbn [bind]. rewrite shr14.
  assert (0 <= x * x / 16384 <= 65536) by (split; [apply Z.div_pos|apply Z.div_le_upper_bound]; nia).
  assert (x * x / 16384 * 16384 <= x * x) by (pose proof (Z.mul_div_le (x * x) 16384); lia).
  rewrite chk_some. 2:{ split; [nia|].
    assert (x * x / 16384 * (49152 - x) * 16384 <= 32768 * 32768 * 16384).
    { pose proof (cubic_exact_mono x 32768 ltac:(lia) ltac:(lia)). nia. } lia. }
  cbn [bind]. rewrite shr15. reflexivity.
Qed.

Definition ss_m (width n : Z) : Z :=
  if width =? 0 then 32768 else Z.quot (Z.quot 1073741824 width) n.
Definition ss_l (pos width n : Z) : Z :=
  if width =? 0 then n * pos else Z.quot (32768 * pos) width - 16384.
Lemma quot_neg_r a w : w < 0 -> 0 <= a -> Z.quot a w = - (a / (- w)).
Proof.
  intros. replace w with (- (- w)) at 1 by lia. rewrite Z.quot_opp_r by lia.
  rewrite Z.quot_div_nonneg by lia. reflexivity.
Qed.
Lemma ss_bounds pos width n led : 0 <= pos <= 32768 -> 0 < n <= 65535 -> 0 <= led < n ->
  let m := ss_m width n in let l := ss_l pos width n in
  (0 <= width -> 0 <= led * m <= 2147450880 /\ - 16384 <= l <= 2147450880) /\
  (width < 0 -> -1073741824 <= led * m <= 0 /\ -1073758208 <= l <= -16384).
Proof.
  intros Hp Hn Hl. cbv zeta. unfold ss_m, ss_l. destruct (Z.eqb_spec width 0) as [E|E].
  - split; [intros _|lia]. nia.
  - split; intros Hw.
    + rewrite !Z.quot_div_nonneg by (try apply Z.div_pos; try apply Z.quot_pos; lia).
      assert (0 <= 1073741824 / width <= 1073741824) by
        (split; [apply Z.div_pos|apply Z.div_le_upper_bound]; nia).
      assert (0 <= 1073741824 / width / n) by (apply Z.div_pos; lia).
      pose proof (Z.mul_div_le (1073741824 / width) n ltac:(lia)).
      assert (0 <= 32768 * pos / width <= 1073741824) by
        (split; [apply Z.div_pos|apply Z.div_le_upper_bound]; nia).
      nia.
    + rewrite (quot_neg_r 1073741824 width), (quot_neg_r (32768 * pos) width) by lia. rewrite Z.quot_opp_l by lia.
      set (w := - width) in *.
      assert (0 <= 1073741824 / w <= 1073741824) by
        (split; [apply Z.div_pos|apply Z.div_le_upper_bound]; nia).
      rewrite Z.quot_div_nonneg by lia.
      assert (0 <= 1073741824 / w / n) by (apply Z.div_pos; lia).
      pose proof (Z.mul_div_le (1073741824 / w) n ltac:(lia)).
      assert (0 <= 32768 * pos / w <= 1073741824) by
        (split; [apply Z.div_pos|apply Z.div_le_upper_bound]; nia).
      nia.
Qed.
Lemma ss_ok pos width n led : 0 <= pos <= 32768 -> 0 < n <= 65535 -> 0 <= led < n ->
  -2147483648 <= width <= 2147483647 ->
  fn_smooth_step pos width n led = Some (ss_val (led * ss_m width n - ss_l pos width n)).
Proof.
  intros Hp Hn Hl Hw.
  destruct (ss_bounds pos width n led Hp Hn Hl) as [B1 B2]. cbv zeta in *.
  destruct (ss_bounds pos width n (n-1) Hp Hn ltac:(lia)) as [C1 C2]. cbv zeta in *.
  assert (R : ss_run pos width n = Some (ss_m width n, ss_l pos width n)).
  { unfold ss_run. destruct (Z.eqb_spec width 0) as [E|E].
    - subst. rewrite chk_some by nia. reflexivity.
    - change (32768 * 32768) with 1073741824.
      assert (Z.abs (Z.quot 1073741824 width) <= 1073741824).
      { destruct (Z_lt_ge_dec width 0).
        - rewrite quot_neg_r by lia.
          assert (0 <= 1073741824 / (- width) <= 1073741824) by
            (split; [apply Z.div_pos|apply Z.div_le_upper_bound]; nia). lia.
        - rewrite Z.quot_div_nonneg by lia.
          assert (0 <= 1073741824 / (width) <= 1073741824) by
            (split; [apply Z.div_pos|apply Z.div_le_upper_bound]; nia). lia. }
      rewrite chk_some by lia. cbn [bind]. replace (n =? 0) with false by lia.
      assert (Z.abs (Z.quot (Z.quot 1073741824 width) n) <= 1073741824).
      { destruct (Z_lt_ge_dec (Z.quot 1073741824 width) 0) as [G|G].
        - rewrite <- (Z.opp_involutive (Z.quot 1073741824 width)), Z.quot_opp_l by lia.
          rewrite Z.quot_div_nonneg by lia. set (y := - Z.quot 1073741824 width) in *.
          assert (0 <= y / n <= 1073741824) by
            (split; [apply Z.div_pos|apply Z.div_le_upper_bound]; nia). lia.
        - rewrite Z.quot_div_nonneg by lia. set (y := Z.quot 1073741824 width) in *.
          assert (0 <= y / n <= 1073741824) by
            (split; [apply Z.div_pos|apply Z.div_le_upper_bound]; nia). lia. }
      rewrite chk_some by lia. cbn [bind]. rewrite chk_some by lia. cbn [bind].
      assert (L : ss_l pos width n = Z.quot (32768 * pos) width - 16384).
      { unfold ss_l. destruct (Z.eqb_spec width 0); [lia|reflexivity]. }
      assert (-1073758208 <= ss_l pos width n <= 2147450880) by
        (destruct (Z_lt_ge_dec width 0); lia).
      rewrite L in *. rewrite chk_some by lia. cbn [bind]. rewrite chk_some by lia. cbn [bind].
      unfold ss_m. destruct (Z.eqb_spec width 0); [lia|]. reflexivity. }
  unfold fn_smooth_step. rewrite R. cbn [bind]. apply ss_get_ok;
    (destruct (Z_lt_ge_dec width 0); lia).
Qed.
Lemma ss_m_sign width n : 0 < n -> (0 <= width -> 0 <= ss_m width n) /\ (width < 0 -> ss_m width n <= 0).
Proof.
  intros. unfold ss_m. destruct (Z.eqb_spec width 0); [lia|]. split; intros.
  - rewrite !Z.quot_div_nonneg; try lia. apply Z.div_pos; [apply Z.div_pos; lia|lia].
    rewrite Z.quot_div_nonneg by lia. apply Z.div_pos; lia.
  - rewrite (quot_neg_r 1073741824 width) by lia. rewrite Z.quot_opp_l by lia.
    assert (0 <= 1073741824 / (- width)) by (apply Z.div_pos; lia).
    rewrite Z.quot_div_nonneg by lia.
    assert (0 <= 1073741824 / (- width) / n) by (apply Z.div_pos; lia). lia.
Qed.
Lemma ss_range pos width n led : 0 <= pos <= 32768 -> 0 < n <= 65535 -> 0 <= led < n ->
  -2147483648 <= width <= 2147483647 ->
  exists r, fn_smooth_step pos width n led = Some r /\ 0 <= r <= 32768.
Proof. intros. rewrite ss_ok by auto. eexists; split; [reflexivity|]. apply ss_val_range. Qed.
Lemma ss_mono pos width n led1 led2 r1 r2 :
  0 <= pos <= 32768 -> 0 < n <= 65535 -> 0 <= led1 <= led2 -> led2 < n ->
  -2147483648 <= width <= 2147483647 ->
  fn_smooth_step pos width n led1 = Some r1 -> fn_smooth_step pos width n led2 = Some r2 ->
  (0 <= width -> r1 <= r2 + 2) /\ (width < 0 -> r2 <= r1 + 2).
Proof.
  intros Hp Hn Hl1 Hl2 Hw E1 E2. rewrite ss_ok in E1, E2 by lia.
  inversion E1; inversion E2; subst; clear E1 E2.
  destruct (ss_m_sign width n ltac:(lia)) as [A B].
  split; intros; apply ss_val_mono; [specialize (A H)|specialize (B H)]; nia.
Qed.
Lemma ss_outside pos width n led : 0 <= pos <= 32768 -> 0 < n <= 65535 -> 0 <= led < n ->
  0 <= width <= 2147483647 ->
  (65536 * led <= (2 * pos - width) * n -> fn_smooth_step pos width n led = Some 0) /\
  (1073741824 * led >= (32768 * pos + 16384 * width) * n + led * width * n ->
   (width = 0 -> 32768 * led >= n * pos + 32768) ->
   fn_smooth_step pos width n led = Some 32768).
Proof.
  intros Hp Hn Hl Hw. rewrite ss_ok by lia. unfold ss_m, ss_l.
  destruct (Z.eqb_spec width 0) as [E|E].
  { subst. split; intros.
    - f_equal. apply ss_val_low. lia.
    - f_equal. apply ss_val_high. lia. }
  rewrite !Z.quot_div_nonneg by (try apply Z.quot_pos; lia).
  rewrite Z.div_div by lia.
  pose proof (Z.div_mod 1073741824 (width * n) ltac:(lia)) as D1.
  pose proof (Z.mod_pos_bound 1073741824 (width * n) ltac:(lia)) as B1.
  pose proof (Z.div_mod (32768 * pos) width ltac:(lia)) as D2.
  pose proof (Z.mod_pos_bound (32768 * pos) width ltac:(lia)) as B2.
  set (m := 1073741824 / (width * n)) in *. set (l := 32768 * pos / width) in *.
  set (rm := 1073741824 mod (width * n)) in *. set (rl := (32768 * pos) mod width) in *.
  split; intros; f_equal; [apply ss_val_low|apply ss_val_high].
  - assert (led * m * (width * n) <= led * 1073741824) by nia.
    assert ((led * m - l + 16384) * (width * n) < width * n) by nia. nia.
  - assert (led * m * (width * n) >= led * 1073741824 - led * (width * n)) by nia.
    assert ((led * m - l + 16384) * (width * n) >= 32768 * (width * n)) by nia. nia.
Qed.

(** Bump *)
Lemma bump_table i : 0 <= i < 32 ->
  0 <= nth (Z.to_nat i) bump_shape 0 <= 255 /\ 0 <= nth (Z.to_nat (i + 1)) bump_shape 0 <= 255.
Proof.
  assert (A : Forall (fun x => 0 <= x <= 255) bump_shape) by
    (unfold bump_shape; repeat (apply Forall_cons || apply Forall_nil); lia).
  intros. rewrite Forall_forall in A.
  split; apply A; apply nth_In; cbn [length bump_shape]; lia.
Qed.
Lemma bump_ok mult loc led : -2147483648 <= led * mult <= 2147483647 ->
  -2147483647 <= led * mult - loc <= 2147483647 ->
  exists r, fn_bump mult loc led = Some r /\ 0 <= r <= 32640 /\
  (4096 <= Z.abs (led * mult - loc) -> r = 0).
Proof.
  intros. unfold fn_bump. repeat (rewrite chk_some by lia; cbn [bind]).
  rewrite Z.shiftr_div_pow2 by lia. change (2 ^ 7) with 128.
  set (d := Z.abs (led * mult - loc)) in *.
  change 63 with (Z.ones 6). rewrite Z.land_ones by lia. change (2 ^ 6) with 64.
  pose proof (Z.mod_pos_bound d 64 ltac:(lia)).
  destruct (Z.geb_spec (d / 128) 32) as [G|G].
  - eexists; split; [reflexivity|]. lia.
  - assert (0 <= d / 128) by (apply Z.div_pos; lia).
    destruct (bump_table (d / 128) ltac:(lia)).
    set (x := nth _ _ _) in *. set (y := nth (Z.to_nat (d / 128 + 1)) _ _) in *.
    eexists; split; [reflexivity|]. split; [nia|]. intros.
    assert (32 <= d / 128) by (apply Z.div_le_lower_bound; lia). lia.
Qed.
