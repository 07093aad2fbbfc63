From Coq Require Import ZArith List Bool Lia ZifyBool.
From Verif Require Import ArithModel ColorModel ColorSpec.
Import ListNotations.
Open Scope Z_scope.

Lemma color_eq (a o : color) : r a = r o -> g a = g o -> b a = b o -> a = o.
Proof. destruct a, o; cbn; intros; subst; reflexivity. Qed.

(** ** Mixing *)
Lemma floor_between T v lo hi : 0 < T -> lo * T <= v -> v <= hi * T -> lo <= v / T <= hi.
Proof.
  intros T0 A B. split.
  - apply Z.div_le_lower_bound; lia.
  - apply Z.div_le_upper_bound; lia.
Qed.
Lemma floor_mono T v w : 0 < T -> v <= w -> v / T <= w / T.
Proof. intros. apply Z.div_le_mono; lia. Qed.
Definition blend T x a o := ((T - x) * a + x * o) / T.
Lemma blend_between T x a o : 0 < T -> 0 <= x <= T -> between (blend T x a o) a o.
Proof. intros T0 X. unfold between, blend. apply floor_between; nia. Qed.
Lemma blend_0 T a o : 0 < T -> blend T 0 a o = a.
Proof. intros. unfold blend. replace ((T - 0) * a + 0 * o) with (a * T) by ring. apply Z.div_mul. lia. Qed.
Lemma blend_T T a o : 0 < T -> blend T T a o = o.
Proof. intros. unfold blend. replace ((T - T) * a + T * o) with (o * T) by ring. apply Z.div_mul. lia. Qed.
Lemma blend_mono T x y a o : 0 < T -> 0 <= x -> x <= y -> y <= T -> between (blend T y a o) (blend T x a o) o.
Proof.
  intros T0 X XY Y. pose proof (blend_between T y a o T0). pose proof (blend_between T x a o T0). unfold between in *.
  destruct (Z.le_ge_cases a o) as [C|C].
  - assert (blend T x a o <= blend T y a o) by (apply floor_mono; nia). lia.
  - assert (blend T y a o <= blend T x a o) by (apply floor_mono; nia). lia.
Qed.
Lemma mixc_blend wrap M s x a o : (forall v, 0 <= v <= M -> wrap v = v) -> 0 <= s -> 0 <= x <= 2 ^ s -> 0 <= a <= M -> 0 <= o <= M ->
  mixc wrap s x a o = blend (2 ^ s) x a o.
Proof.
  intros WR S0 X A O. unfold mixc. rewrite Z.shiftr_div_pow2 by lia. apply WR.
  pose proof (blend_between (2 ^ s) x a o ltac:(lia) X). unfold between, blend in *. lia.
Qed.
Lemma proper wrap M s : (forall v, 0 <= v <= M -> wrap v = v) -> 0 <= s ->
  proper_mix (each (fun x => 0 <= x <= M)) (2 ^ s) (fun a o x => map2 (mixc wrap s x) a o).
Proof.
  intros WR S0 a o (A1 & A2 & A3) (O1 & O2 & O3). pose proof (Z.pow_pos_nonneg 2 s).
  split; [|split; [|split]].
  - apply color_eq; cbn [r g b map2 map1]; rewrite (mixc_blend wrap M) by (auto; lia); apply blend_0; lia.
  - apply color_eq; cbn [r g b map2 map1]; rewrite (mixc_blend wrap M) by (auto; lia); apply blend_T; lia.
  - intros x X. unfold each3, map2. cbn. rewrite !(mixc_blend wrap M) by (auto; lia). repeat split; apply blend_between; lia.
  - intros x y X XY Y. unfold each3, map2. cbn. rewrite !(mixc_blend wrap M) by (auto; lia). repeat split; apply blend_mono; lia.
Qed.
Lemma u8_id v : 0 <= v <= 255 -> u8 v = v. Proof. intros. apply Z.mod_small. lia. Qed.
Lemma u16_id v : 0 <= v <= 65535 -> u16 v = v. Proof. intros. apply Z.mod_small. lia. Qed.
Lemma u32_id v : 0 <= v < 2 ^ 32 -> u32 v = v. Proof. intros. apply Z.mod_small. lia. Qed.

(** MixColors with shift up to 15. *)
Lemma mul32_id c x : 0 <= c <= 65535 -> 0 <= x <= 32768 -> mul32 c x = c * x.
Proof. intros. unfold mul32. rewrite (u16_id x) by lia. apply u32_id. nia. Qed.
Lemma mix32_blend s x a o : 0 <= s <= 15 -> 0 <= x <= 2 ^ s -> 0 <= a <= 65535 -> 0 <= o <= 65535 ->
  mix32 x s a o = blend (2 ^ s) x a o.
Proof.
  intros S0 X A O. unfold mix32. assert (2 ^ s <= 2 ^ 15) by (apply Z.pow_le_mono_r; lia). change (2 ^ 15) with 32768 in *.
  rewrite !mul32_id by lia. rewrite u32_id by nia. rewrite Z.shiftr_div_pow2 by lia.
  replace (a * (2 ^ s - x) + o * x) with ((2 ^ s - x) * a + x * o) by ring. apply u16_id.
  pose proof (blend_between (2 ^ s) x a o ltac:(lia) X). unfold between, blend in *. lia.
Qed.
Lemma mix_opaque_proper s od1 od2 : 0 <= s <= 15 ->
  proper_mix is16 (2 ^ s) (fun a o x => oc (mix_opaque (Opaque a od1) (Opaque o od2) x s)).
Proof.
  intros S0 a o (A1 & A2 & A3) (O1 & O2 & O3). pose proof (Z.pow_pos_nonneg 2 s). unfold mix_opaque. cbn [oc].
  split; [|split; [|split]].
  - apply color_eq; cbn [r g b map2]; rewrite mix32_blend by lia; apply blend_0; lia.
  - apply color_eq; cbn [r g b map2]; rewrite mix32_blend by lia; apply blend_T; lia.
  - intros x X. unfold each3, map2. cbn [r g b]. rewrite !mix32_blend by lia. repeat split; apply blend_between; lia.
  - intros x y X XY Y. unfold each3, map2. cbn [r g b]. rewrite !mix32_blend by lia. repeat split; apply blend_mono; lia.
Qed.

(** ** Scaling, selecting, dithering *)
Lemma select_scan top a o : 0 <= top -> is16 a -> is16 o ->
  let v := select top a o in
  0 <= v <= top /\ each2 (fun a o => o * v <= a * top) a o /\
  (v < top -> ~ each2 (fun a o => o * (v + 1) <= a * top) a o).
Proof.
  intros T (A1 & A2 & A3) (O1 & O2 & O3) v.
  assert (S : forall ret c o, 0 <= ret -> 0 <= c -> 0 <= o ->
    let q := (if o =? 0 then ret else Z.min ret (c * top / o)) in
    0 <= q <= ret /\ o * q <= c * top /\ (q < ret -> c * top < o * (q + 1))).
  { intros ret c o' R C O q. unfold q. destruct (o' =? 0) eqn:E.
    - split; [lia|]. split; [nia|]. lia.
    - pose proof (Z.div_mod (c * top) o'). pose proof (Z.mod_pos_bound (c * top) o').
      assert (0 <= c * top / o') by (apply Z.div_pos; nia). split; [lia|]. split; [nia|]. intros L. replace (Z.min ret (c * top / o')) with (c * top / o') by lia. lia. }
  unfold v, select. cbv zeta.
  pose proof (S top (r a) (r o) T ltac:(lia) ltac:(lia)) as P1. cbv zeta in P1. set (q1 := if r o =? 0 then _ else _) in *. clearbody q1.
  pose proof (S q1 (g a) (g o) ltac:(lia) ltac:(lia) ltac:(lia)) as P2. cbv zeta in P2. set (q2 := if g o =? 0 then _ else _) in *. clearbody q2.
  pose proof (S q2 (b a) (b o) ltac:(lia) ltac:(lia) ltac:(lia)) as P3. cbv zeta in P3. set (q3 := if b o =? 0 then _ else _) in *. clearbody q3.
  split; [lia|]. split; [unfold each2; repeat split; nia|].
  intros L (X1 & X2 & X3). destruct (Z.lt_ge_cases q3 q2); [lia|]. assert (q3 = q2) by lia. subst q3.
  destruct (Z.lt_ge_cases q2 q1); [lia|]. assert (q2 = q1) by lia. subst q2. lia.
Qed.

Lemma shr8 x : Z.shiftr x 8 = x / 256. Proof. rewrite Z.shiftr_div_pow2 by lia. reflexivity. Qed.
Lemma shr15 x : Z.shiftr x 15 = x / 32768. Proof. rewrite Z.shiftr_div_pow2 by lia. reflexivity. Qed.
Lemma dither_channel c n : 0 <= c <= 65535 -> -255 <= n <= 255 ->
  let d := u8 (clampi32 (Z.shiftr (c + n) 8) 0 255) in
  0 <= d <= 255 /\ c / 256 - 1 <= d <= c / 256 + 1 /\
  d = u8 (Z.shiftr (if n <? 0 then uqsub16 c (- n) else uqadd16 c n) 8).
Proof.
  intros C N. rewrite !shr8. unfold clampi32, uqadd16, uqsub16.
  assert (E1 : forall x, x < 0 -> -256 <= x -> x / 256 = -1) by (intros; Z.div_mod_to_equations; lia).
  assert (CD : c / 256 * 256 <= c < c / 256 * 256 + 256) by (Z.div_mod_to_equations; lia).
  assert (ND : (c + n) / 256 * 256 <= c + n < (c + n) / 256 * 256 + 256) by (Z.div_mod_to_equations; lia).
  destruct ((c + n) / 256 <? 0) eqn:L; [|destruct ((c + n) / 256 >? 255) eqn:G].
  - change (u8 0) with 0. cbv zeta. split; [lia|]. split; [lia|]. replace (n <? 0) with true by lia. replace (Z.max (c - - n) 0) with 0 by lia. reflexivity.
  - change (u8 255) with 255. cbv zeta. split; [lia|]. split; [lia|]. replace (n <? 0) with false by lia. replace (Z.min (c + n) 65535) with 65535 by lia. reflexivity.
  - cbv zeta. rewrite u8_id by lia. split; [lia|]. split; [lia|].
    destruct (n <? 0) eqn:NN; [replace (Z.max (c - - n) 0) with (c + n) by lia|replace (Z.min (c + n) 65535) with (c + n) by lia]; symmetry; apply u8_id; lia.
Qed.

(** ** Rotation *)
Lemma rot_f_range n C MAX : 0 <= C -> 0 <= n -> MAX - C <= rot_f n C MAX <= MAX.
Proof.
  intros HC HN. unfold rot_f, clampi32. cbv zeta. set (k := Z.min _ _).
  assert (forall t, 0 <= t <= 16384 -> 0 <= Z.quot (C * t) 16384 <= C).
  { intros t HT. rewrite Z.quot_div_nonneg by nia. split; [apply Z.div_pos; nia|apply Z.div_le_upper_bound; nia]. }
  destruct (k <? 0) eqn:E0; [specialize (H 0); lia|]. destruct (k >? 16384) eqn:E; [specialize (H 16384); lia|]. specialize (H k); lia.
Qed.
Lemma rot_f_max n C MAX k : 0 <= n -> n mod 98304 = k -> k = 0 \/ 65536 <= k -> rot_f n C MAX = MAX.
Proof.
  intros N K H. unfold rot_f. rewrite Z.rem_mod_nonneg, K by lia. cbv zeta. unfold clampi32.
  pose proof (Z.mod_pos_bound n 98304).
  destruct (Z.min k (65536 - k) <? 0) eqn:E; [rewrite Z.mul_0_r; cbn; lia|].
  replace (Z.min k (65536 - k)) with 0 by lia. rewrite Z.mul_0_r. cbn. lia.
Qed.
Lemma rot_f_min n C MAX k : 0 <= n -> n mod 98304 = k -> 16384 <= k <= 49152 -> rot_f n C MAX = MAX - C.
Proof.
  intros N K H. unfold rot_f. rewrite Z.rem_mod_nonneg, K by lia. cbv zeta. unfold clampi32.
  replace (Z.min k (65536 - k) <? 0) with false by lia.
  destruct (Z.min k (65536 - k) >? 16384) eqn:E; [|replace (Z.min k (65536 - k)) with 16384 by lia]; rewrite Z.quot_mul by lia; reflexivity.
Qed.
Definition cmax (c : color) := Z.max (r c) (Z.max (g c) (b c)).
Definition cmin (c : color) := Z.min (r c) (Z.min (g c) (b c)).
Lemma quot_small x C : 0 < C -> - C <= x <= C -> -16384 <= Z.quot (16384 * x) C <= 16384.
Proof.
  intros C0 X. assert (P : forall y, 0 <= y <= C -> 0 <= Z.quot (16384 * y) C <= 16384).
  { intros y Y. rewrite Z.quot_div_nonneg by nia. split; [apply Z.div_pos; nia|apply Z.div_le_upper_bound; nia]. }
  destruct (Z.le_ge_cases 0 x); [specialize (P x); lia|]. replace (16384 * x) with (- (16384 * - x)) by ring.
  rewrite Z.quot_opp_l by lia. specialize (P (- x)). lia.
Qed.
Lemma rotate_ok c angle : is16 c -> 0 <= angle -> let d := rotate c angle in is16 d /\ cmax d = cmax c /\ cmin d = cmin c.
Proof.
  intros (R & G & B) A. cbv zeta. unfold rotate. destruct (angle =? 0); [repeat split; assumption || lia|].
  fold (cmax c). fold (cmin c). destruct (cmax c - cmin c =? 0) eqn:E; [repeat split; assumption || lia|].
  set (C := cmax c - cmin c) in *.
  assert (CM : 0 <= cmin c /\ cmin c < cmax c <= 65535 /\ 0 < C) by (unfold C, cmax, cmin in *; lia).
  assert (D : forall x y, cmin c <= x <= cmax c -> cmin c <= y <= cmax c -> - C <= x - y <= C) by (unfold C; lia).
  assert (RR : cmin c <= r c <= cmax c /\ cmin c <= g c <= cmax c /\ cmin c <= b c <= cmax c) by (unfold cmin, cmax; lia).
  set (H0 := if r c =? cmax c then _ else _).
  assert (HB : -16384 <= H0 <= 5 * 16384).
  { unfold H0. pose proof (quot_small (g c - b c) C). pose proof (quot_small (b c - r c) C). pose proof (quot_small (r c - g c) C).
    pose proof (D (g c) (b c)). pose proof (D (b c) (r c)). pose proof (D (r c) (g c)).
    destruct (r c =? cmax c); [lia|]. destruct (g c =? cmax c); lia. }
  clearbody H0. set (n := 16384 + (H0 + angle)). assert (N0 : 0 <= n) by (unfold n; lia).
  replace (5 * 16384 + (H0 + angle)) with (n + 65536) by (unfold n; lia).
  replace (3 * 16384 + (H0 + angle)) with (n + 32768) by (unfold n; lia).
  replace (1 * 16384 + (H0 + angle)) with n by (unfold n; lia). clearbody n.
  pose proof (rot_f_range n C (cmax c) ltac:(lia) ltac:(lia)) as R1.
  pose proof (rot_f_range (n + 32768) C (cmax c) ltac:(lia) ltac:(lia)) as R2.
  pose proof (rot_f_range (n + 65536) C (cmax c) ltac:(lia) ltac:(lia)) as R3.
  rewrite !u16_id by lia.
  assert (K : let k := n mod 98304 in
     0 <= k < 98304 /\ (n + 32768) mod 98304 = (if k <? 65536 then k + 32768 else k - 65536) /\
     (n + 65536) mod 98304 = (if k <? 32768 then k + 65536 else k - 32768)).
  { cbv zeta. assert (n = 98304 * (n / 98304) + n mod 98304) by (apply Z.div_mod; lia). pose proof (Z.mod_pos_bound n 98304).
    set (q := n / 98304) in *. set (k := n mod 98304) in *. clearbody q k. split; [lia|].
    destruct (k <? 65536) eqn:E1; destruct (k <? 32768) eqn:E2; split; subst n; symmetry;
      [apply Z.mod_unique_pos with q|apply Z.mod_unique_pos with q|apply Z.mod_unique_pos with q|apply Z.mod_unique_pos with (q + 1)|
       lia|lia|apply Z.mod_unique_pos with (q + 1)|apply Z.mod_unique_pos with (q + 1)]; lia. }
  cbv zeta in K. set (k := n mod 98304) in *. destruct K as (K0 & K1 & K2).
  assert (HMAX : rot_f n C (cmax c) = cmax c \/ rot_f (n + 32768) C (cmax c) = cmax c \/ rot_f (n + 65536) C (cmax c) = cmax c).
  { destruct (k <? 32768) eqn:E1; [right; right; eapply rot_f_max; [lia|exact K2|lia]|].
    destruct (k <? 65536) eqn:E2; [right; left; eapply rot_f_max; [lia|exact K1|lia]|].
    left. eapply rot_f_max; [lia|reflexivity|fold k; lia]. }
  assert (HMIN : rot_f n C (cmax c) = cmax c - C \/ rot_f (n + 32768) C (cmax c) = cmax c - C \/ rot_f (n + 65536) C (cmax c) = cmax c - C).
  { destruct (k <? 65536) eqn:E2.
    - destruct (Z.le_gt_cases k 16384); [right; left; eapply rot_f_min; [lia|exact K1|lia]|].
      destruct (Z.le_gt_cases k 49152); [left; eapply rot_f_min; [lia|reflexivity|fold k; lia]|].
      right; right. eapply rot_f_min; [lia|exact K2|]. destruct (k <? 32768) eqn:E3; lia.
    - replace (k <? 32768) with false in K2 by lia.
      destruct (Z.le_gt_cases k 81920); [right; right; eapply rot_f_min; [lia|exact K2|lia]|]. right; left. eapply rot_f_min; [lia|exact K1|lia]. }
  replace (cmax c - C) with (cmin c) in HMIN by (unfold C; lia).
  replace (cmax c - C) with (cmin c) in R1, R2, R3 by (unfold C; lia).
  set (x := rot_f n C (cmax c)) in *. set (y := rot_f (n + 32768) C (cmax c)) in *. set (z := rot_f (n + 65536) C (cmax c)) in *.
  clearbody x y z. split; [repeat split; cbn [r g b]; lia|]. split; [unfold cmax at 1|unfold cmin at 1]; cbn [r g b]; lia.
Qed.

(** ** Layers *)
Lemma ceil15 v : Z.shiftr (v + 32767) 15 * 32768 >= v /\ Z.shiftr (v + 32767) 15 * 32768 < v + 32768.
Proof. rewrite shr15. Z.div_mod_to_equations; lia. Qed.
Lemma floor15 v : Z.shiftr v 15 * 32768 <= v < Z.shiftr v 15 * 32768 + 32768.
Proof. rewrite shr15. Z.div_mod_to_equations; lia. Qed.

Lemma pm_of_um_ok a : um_ok a -> pm_ok (pm_of_um a) /\ each2 (fun p u => near 1 p (u * ua a) 15) (pc (pm_of_um a)) (uc a).
Proof.
  intros ((R & G & B) & A). unfold pm_of_um, pm_ok, each, each2, near. cbn [pc pa map1 r g b].
  rewrite !mul32_id by lia. change (2 ^ 15) with 32768.
  assert (K : forall c, 0 <= c <= 65535 -> u16 (Z.shiftr (c * ua a) 15) = Z.shiftr (c * ua a) 15 /\ 0 <= Z.shiftr (c * ua a) 15 /\ Z.shiftr (c * ua a) 15 * 32768 <= 65535 * ua a /\
      Z.shiftr (c * ua a) 15 * 32768 <= c * ua a < Z.shiftr (c * ua a) 15 * 32768 + 32768).
  { intros c HC. pose proof (floor15 (c * ua a)). assert (0 <= Z.shiftr (c * ua a) 15) by (apply Z.shiftr_nonneg; nia).
    split; [apply u16_id; nia|]. split; [lia|]. split; [nia|lia]. }
  pose proof (K _ R) as (-> & ? & ? & ?). pose proof (K _ G) as (-> & ? & ? & ?). pose proof (K _ B) as (-> & ? & ? & ?).
  repeat split; try lia.
Qed.

Lemma addc_eq ac oa x o : 0 <= ac -> 0 <= oa -> ac + oa <= 32768 -> 0 <= x <= 65535 -> 0 <= o -> o * 32768 <= 65535 * oa ->
  addc ac x o = Z.shiftr (x * ac) 15 + o /\ 0 <= Z.shiftr (x * ac) 15 /\ Z.shiftr (x * ac) 15 * 32768 <= x * ac < Z.shiftr (x * ac) 15 * 32768 + 32768.
Proof.
  intros A O S X P1 P2. unfold addc. rewrite mul32_id by lia. pose proof (floor15 (x * ac)) as F.
  assert (0 <= Z.shiftr (x * ac) 15) by (apply Z.shiftr_nonneg; nia). set (q := Z.shiftr (x * ac) 15) in *. clearbody q.
  rewrite (u16_id q) by nia. split; [apply u16_id; nia|]. split; assumption.
Qed.
Lemma paint32_eq ac oa x o : 0 <= ac -> 0 <= oa -> ac + oa <= 32768 -> 0 <= x <= 65535 -> 0 <= o <= 65535 ->
  paint32 ac oa x o = Z.shiftr (x * ac + o * oa) 15 /\ 0 <= Z.shiftr (x * ac + o * oa) 15 /\
  Z.shiftr (x * ac + o * oa) 15 * 32768 <= x * ac + o * oa < Z.shiftr (x * ac + o * oa) 15 * 32768 + 32768.
Proof.
  intros A O S X P. unfold paint32. rewrite !mul32_id by lia. rewrite u32_id by nia. pose proof (floor15 (x * ac + o * oa)) as F.
  assert (0 <= Z.shiftr (x * ac + o * oa) 15) by (apply Z.shiftr_nonneg; nia). set (q := Z.shiftr (x * ac + o * oa) 15) in *. clearbody q.
  split; [apply u16_id; nia|]. split; assumption.
Qed.
Lemma u16_ac a : 0 <= a <= 32768 -> u16 (32768 - a) = 32768 - a. Proof. intros. apply u16_id. lia. Qed.
Lemma pm_chan16 a c : 0 <= pa a <= 32768 -> 0 <= c -> c * 32768 <= 65535 * pa a -> 0 <= c <= 65535. Proof. lia. Qed.

Lemma opaque_over_um_ok base over : opaque_ok base -> um_ok over ->
  let d := opaque_over_um base over in
  opaque_ok d /\ each3 between (oc d) (oc base) (uc over) /\
  oc d = map2 (blend 32768 (ua over)) (oc base) (uc over).
Proof.
  intros (R & G & B) ((R' & G' & B') & A). cbv zeta.
  assert (E : oc (opaque_over_um base over) = map2 (blend 32768 (ua over)) (oc base) (uc over)).
  { unfold opaque_over_um. destruct (ua over =? 0) eqn:Z0.
    - replace (ua over) with 0 by lia. apply color_eq; cbn [r g b map2 map1]; rewrite blend_0; lia.
    - cbv zeta. rewrite u16_ac by lia. cbn [oc].
      assert (K : forall x o, 0 <= x <= 65535 -> 0 <= o <= 65535 -> paint32 (32768 - ua over) (ua over) x o = blend 32768 (ua over) x o).
      { intros x o X O. destruct (paint32_eq (32768 - ua over) (ua over) x o) as (-> & _); try lia. rewrite shr15. unfold blend. f_equal. lia. }
      apply color_eq; cbn [r g b map2 map1]; apply K; assumption. }
  rewrite E. unfold opaque_ok. rewrite E.
  pose proof (blend_between 32768 (ua over) (r (oc base)) (r (uc over))). pose proof (blend_between 32768 (ua over) (g (oc base)) (g (uc over))).
  pose proof (blend_between 32768 (ua over) (b (oc base)) (b (uc over))).
  unfold is16, each, each3, between in *. cbn [r g b map2 map1]. repeat split; try lia.
Qed.
Lemma opaque_over_pm_eq base over : opaque_ok base -> pm_ok over ->
  oc (opaque_over_pm base over) = map2 (fun x o => Z.shiftr (x * (32768 - pa over)) 15 + o) (oc base) (pc over).
Proof.
  intros (R & G & B) ((R' & G' & B') & A). unfold opaque_over_pm. destruct (pa over =? 0) eqn:Z0.
  - replace (pa over) with 0 in * by lia. change (32768 - 0) with 32768.
    assert (K : forall x, Z.shiftr (x * 32768) 15 = x) by (intros; rewrite shr15; apply Z.div_mul; lia).
    apply color_eq; cbn [r g b map2 map1]; rewrite K; lia.
  - cbv zeta. rewrite u16_ac by lia. cbn [oc].
    apply color_eq; cbn [r g b map2 map1]; apply (addc_eq (32768 - pa over) (pa over)); lia.
Qed.
Lemma opaque_over_pm_ok base over : opaque_ok base -> pm_ok over -> opaque_ok (opaque_over_pm base over).
Proof.
  intros OB OV. unfold opaque_ok. rewrite opaque_over_pm_eq by assumption. destruct OB as (R & G & B). destruct OV as ((R' & G' & B') & A).
  assert (K : forall x o, 0 <= x <= 65535 -> 0 <= o /\ o * 32768 <= 65535 * pa over -> 0 <= Z.shiftr (x * (32768 - pa over)) 15 + o <= 65535).
  { intros x o X O. destruct (addc_eq (32768 - pa over) (pa over) x o) as (_ & F1 & F2); try lia. nia. }
  unfold is16, each. cbn [r g b map2 map1]. repeat split; apply K; assumption.
Qed.

Lemma pm_combine ba oa alpha : 0 <= ba -> 0 <= oa -> ba + oa <= 32768 -> alpha = ba + oa -> u16 alpha = alpha.
Proof. intros. apply u16_id. lia. Qed.

Lemma um_over_um_ok base over : um_ok base -> um_ok over -> pm_ok (um_over_um base over).
Proof.
  intros ((R & G & B) & A) ((R' & G' & B') & A'). unfold um_over_um. rewrite u16_ac by lia.
  pose proof (floor15 (ua base * (32768 - ua over))) as F.
  assert (0 <= Z.shiftr (ua base * (32768 - ua over)) 15) by (apply Z.shiftr_nonneg; nia).
  set (ba := Z.shiftr (ua base * (32768 - ua over)) 15) in *. assert (BA : ba + ua over <= 32768) by nia. clearbody ba. clear F.
  unfold pm_ok, each. cbn [pc pa map2 r g b]. rewrite u16_id by lia.
  assert (K : forall x o, 0 <= x <= 65535 -> 0 <= o <= 65535 -> 0 <= paint32 ba (ua over) x o /\ paint32 ba (ua over) x o * 32768 <= 65535 * (ba + ua over)).
  { intros x o X O. destruct (paint32_eq ba (ua over) x o) as (-> & F1 & F2); try lia. nia. }
  pose proof (K _ _ R R'). pose proof (K _ _ G G'). pose proof (K _ _ B B'). repeat split; lia.
Qed.
Lemma um_over_pm_ok base over : um_ok base -> pm_ok over -> pm_ok (um_over_pm base over).
Proof.
  intros ((R & G & B) & A) ((R' & G' & B') & A'). unfold um_over_pm. rewrite u16_ac by lia.
  pose proof (floor15 (ua base * (32768 - pa over))) as F.
  assert (0 <= Z.shiftr (ua base * (32768 - pa over)) 15) by (apply Z.shiftr_nonneg; nia).
  set (ba := Z.shiftr (ua base * (32768 - pa over)) 15) in *. assert (BA : ba + pa over <= 32768) by nia. clearbody ba. clear F.
  unfold pm_ok, each. cbn [pc pa map2 r g b]. rewrite u16_id by lia.
  assert (K : forall x o, 0 <= x <= 65535 -> 0 <= o /\ o * 32768 <= 65535 * pa over -> 0 <= addc ba x o /\ addc ba x o * 32768 <= 65535 * (ba + pa over)).
  { intros x o X O. destruct (addc_eq ba (pa over) x o) as (-> & F1 & F2); try lia. nia. }
  pose proof (K _ _ R R'). pose proof (K _ _ G G'). pose proof (K _ _ B B'). repeat split; lia.
Qed.
Lemma pm_over_um_ok base over : pm_ok base -> um_ok over -> pm_ok (pm_over_um base over).
Proof.
  intros ((R & G & B) & A) ((R' & G' & B') & A'). unfold pm_over_um. rewrite u16_ac by lia.
  pose proof (ceil15 (pa base * (32768 - ua over))) as F. set (ac := 32768 - ua over) in *. assert (AC : ac + ua over = 32768 /\ 0 <= ac) by (unfold ac; lia). clearbody ac.
  set (ba := Z.shiftr (pa base * ac + 32767) 15) in *. assert (BA : 0 <= ba <= ac) by nia. clearbody ba.
  unfold pm_ok, each. cbn [pc pa map2 r g b]. rewrite u16_id by lia.
  assert (K : forall x o, 0 <= x /\ x * 32768 <= 65535 * pa base -> 0 <= o <= 65535 -> 0 <= paint32 ac (ua over) x o /\ paint32 ac (ua over) x o * 32768 <= 65535 * (ba + ua over)).
  { intros x o X O. destruct (paint32_eq ac (ua over) x o) as (-> & F1 & F2); try lia. split; [lia|]. assert (x * ac <= 65535 * ba) by nia. nia. }
  pose proof (K _ _ R R'). pose proof (K _ _ G G'). pose proof (K _ _ B B'). repeat split; lia.
Qed.
Lemma pm_over_pm_eq base over : pm_ok base -> pm_ok over ->
  pc (pm_over_pm base over) = map2 (fun x o => Z.shiftr (x * (32768 - pa over)) 15 + o) (pc base) (pc over) /\
  pa (pm_over_pm base over) = Z.shiftr (pa base * (32768 - pa over) + 32767) 15 + pa over.
Proof.
  intros ((R & G & B) & A) ((R' & G' & B') & A'). unfold pm_over_pm. rewrite u16_ac by lia. cbn [pc pa]. split.
  - apply color_eq; cbn [r g b map2 map1]; apply (addc_eq (32768 - pa over) (pa over)); lia.
  - pose proof (ceil15 (pa base * (32768 - pa over))) as F. apply u16_id. nia.
Qed.
Lemma pm_over_pm_ok base over : pm_ok base -> pm_ok over -> pm_ok (pm_over_pm base over).
Proof.
  intros HB HO. destruct (pm_over_pm_eq base over HB HO) as (E1 & E2). unfold pm_ok. rewrite E1, E2.
  destruct HB as ((R & G & B) & A), HO as ((R' & G' & B') & A').
  pose proof (ceil15 (pa base * (32768 - pa over))) as F. set (ac := 32768 - pa over) in *. assert (AC : ac + pa over = 32768 /\ 0 <= ac) by (unfold ac; lia). clearbody ac.
  set (ba := Z.shiftr (pa base * ac + 32767) 15) in *. assert (BA : 0 <= ba <= ac) by nia. clearbody ba.
  assert (K : forall x o, 0 <= x /\ x * 32768 <= 65535 * pa base -> 0 <= o /\ o * 32768 <= 65535 * pa over ->
     0 <= Z.shiftr (x * ac) 15 + o /\ (Z.shiftr (x * ac) 15 + o) * 32768 <= 65535 * (ba + pa over)).
  { intros x o X O. destruct (addc_eq ac (pa over) x o) as (_ & F1 & F2); try lia. split; [lia|]. assert (x * ac <= 65535 * ba) by nia. nia. }
  unfold each. cbn [map2 r g b]. pose proof (K _ _ R R'). pose proof (K _ _ G G'). pose proof (K _ _ B B'). repeat split; lia.
Qed.
Lemma pm_mul_ok a x : pm_ok a -> 0 <= x <= 32768 -> pm_ok (pm_mul a x).
Proof.
  intros ((R & G & B) & A) X. unfold pm_mul, pm_ok, each. cbn [pc pa map1 r g b]. rewrite !mul32_id by lia. rewrite (u16_id x) by lia.
  pose proof (ceil15 (pa a * x)) as F. set (ba := Z.shiftr (pa a * x + 32767) 15) in *. assert (BA : 0 <= ba <= 32768) by nia. clearbody ba.
  rewrite (u16_id ba) by lia.
  assert (K : forall c, 0 <= c /\ c * 32768 <= 65535 * pa a -> 0 <= u16 (Z.shiftr (c * x) 15) /\ u16 (Z.shiftr (c * x) 15) * 32768 <= 65535 * ba).
  { intros c C. pose proof (floor15 (c * x)). assert (0 <= Z.shiftr (c * x) 15) by (apply Z.shiftr_nonneg; nia). rewrite u16_id by nia. nia. }
  pose proof (K _ R). pose proof (K _ G). pose proof (K _ B). repeat split; lia.
Qed.
Lemma mix_pm_ok a o x s : pm_ok a -> pm_ok o -> 0 <= s <= 15 -> 0 <= x <= 2 ^ s -> pm_ok (mix_pm a o x s).
Proof.
  intros ((R & G & B) & A) ((R' & G' & B') & A') S0 X. assert (P : 0 < 2 ^ s <= 32768) by (split; [lia|change 32768 with (2 ^ 15); apply Z.pow_le_mono_r; lia]).
  unfold mix_pm, pm_ok, each. cbn [pc pa map2 r g b]. rewrite !mix32_blend by lia. rewrite Z.shiftr_div_pow2 by lia.
  unfold blend. set (T := 2 ^ s) in *. clearbody T.
  set (ba := (pa a * (T - x) + pa o * x + (T - 1)) / T).
  assert (F : ba * T <= pa a * (T - x) + pa o * x + (T - 1) < ba * T + T).
  { unfold ba. pose proof (Z.div_mod (pa a * (T - x) + pa o * x + (T - 1)) T). pose proof (Z.mod_pos_bound (pa a * (T - x) + pa o * x + (T - 1)) T). lia. }
  clearbody ba. assert (BA : 0 <= ba <= 32768) by nia. rewrite u16_id by lia.
  assert (K : forall c d, 0 <= c /\ c * 32768 <= 65535 * pa a -> 0 <= d /\ d * 32768 <= 65535 * pa o ->
     0 <= ((T - x) * c + x * d) / T /\ ((T - x) * c + x * d) / T * 32768 <= 65535 * ba).
  { intros c d C D. set (v := (T - x) * c + x * d). assert (V : 0 <= v /\ v * 32768 <= 65535 * (ba * T)).
    { unfold v. split; [nia|]. assert (x * (d * 32768) <= x * (65535 * pa o)) by (apply Z.mul_le_mono_nonneg_l; lia).
      assert ((T - x) * (c * 32768) <= (T - x) * (65535 * pa a)) by (apply Z.mul_le_mono_nonneg_l; lia). nia. }
    clearbody v. split; [apply Z.div_pos; lia|].
    pose proof (Z.div_mod v T ltac:(lia)) as DM. pose proof (Z.mod_pos_bound v T ltac:(lia)). set (q := v / T) in *. clearbody q. nia. }
  pose proof (K _ _ R R'). pose proof (K _ _ G G'). pose proof (K _ _ B B'). repeat split; lia.
Qed.

(** Flattening two layers first, or painting them one after the other. *)
Lemma flatten_ok base a o : opaque_ok base -> pm_ok a -> pm_ok o ->
  each2 (fun x y => -3 <= x - y <= 1) (oc (opaque_over_pm base (pm_over_pm a o))) (oc (opaque_over_pm (opaque_over_pm base a) o)).
Proof.
  intros HB HA HO. rewrite (opaque_over_pm_eq base _ HB (pm_over_pm_ok _ _ HA HO)).
  rewrite (opaque_over_pm_eq _ o (opaque_over_pm_ok _ _ HB HA) HO). rewrite (opaque_over_pm_eq base a HB HA).
  destruct (pm_over_pm_eq a o HA HO) as (-> & ->).
  destruct HB as (R & G & B), HA as ((R' & G' & B') & A), HO as ((R'' & G'' & B'') & A').
  assert (K : forall x y z, 0 <= x <= 65535 -> 0 <= y /\ y * 32768 <= 65535 * pa a -> 0 <= z /\ z * 32768 <= 65535 * pa o ->
     -3 <= Z.shiftr (x * (32768 - (Z.shiftr (pa a * (32768 - pa o) + 32767) 15 + pa o))) 15 + (Z.shiftr (y * (32768 - pa o)) 15 + z)
        - (Z.shiftr ((Z.shiftr (x * (32768 - pa a)) 15 + y) * (32768 - pa o)) 15 + z) <= 1).
  { intros x y z X Y Z'. set (ac := 32768 - pa o). set (aa := 32768 - pa a). assert (AC : 0 <= ac <= 32768 /\ 0 <= aa <= 32768 /\ pa a = 32768 - aa) by (unfold ac, aa; lia).
    pose proof (ceil15 (pa a * ac)) as F1. set (c1 := Z.shiftr (pa a * ac + 32767) 15) in *.
    replace (32768 - (c1 + pa o)) with (ac - c1) by (unfold ac; lia). clearbody c1.
    pose proof (floor15 (x * (ac - c1))) as F2. set (f2 := Z.shiftr (x * (ac - c1)) 15) in *. clearbody f2.
    pose proof (floor15 (y * ac)) as F3. set (f3 := Z.shiftr (y * ac) 15) in *. clearbody f3.
    pose proof (floor15 (x * aa)) as F4. set (f4 := Z.shiftr (x * aa) 15) in *. clearbody f4.
    pose proof (floor15 ((f4 + y) * ac)) as F5. set (f5 := Z.shiftr ((f4 + y) * ac) 15) in *. clearbody f5.
    clearbody ac aa. destruct AC as (AC1 & AC2 & PA). rewrite PA in F1. clear PA.
    (* with P = x*aa*ac: 32768*x*(ac-c1) in (P - 32768*x, P], 32768*f4*ac in (P - 32768*ac, P] *)
    assert (P1 : x * aa * ac - 32768 * x <= 32768 * (x * (ac - c1)) <= x * aa * ac) by nia.
    assert (P2 : x * aa * ac - 32768 * ac <= 32768 * (f4 * ac) <= x * aa * ac) by nia.
    set (P := x * aa * ac) in *. set (Q1 := x * (ac - c1)) in *. set (Q2 := f4 * ac) in *. replace ((f4 + y) * ac) with (Q2 + y * ac) in F5 by (unfold Q2; ring).
    set (Q3 := y * ac) in *. clearbody P Q1 Q2 Q3. lia. }
  unfold each2. cbn [map2 r g b]. repeat split; apply K; assumption.
Qed.

(** Opaque and transparent layers. *)
Lemma shr15_mul x : Z.shiftr (x * 32768) 15 = x. Proof. rewrite shr15. apply Z.div_mul. lia. Qed.
Lemma shr15_ceil x : Z.shiftr (x * 32768 + 32767) 15 = x.
Proof. rewrite shr15. rewrite Z.div_add_l by lia. change (32767 / 32768) with 0. lia. Qed.
Lemma shr15_0 : Z.shiftr 0 15 = 0. Proof. reflexivity. Qed.
Lemma paint32_hide oa x o : oa = 32768 -> 0 <= x <= 65535 -> 0 <= o <= 65535 -> paint32 0 oa x o = o.
Proof. intros -> X O. destruct (paint32_eq 0 32768 x o) as (-> & _); try lia. rewrite Z.mul_0_r. apply shr15_mul. Qed.
Lemma addc_hide oa x o : oa = 32768 -> 0 <= x <= 65535 -> 0 <= o -> o * 32768 <= 65535 * oa -> addc 0 x o = o.
Proof. intros -> X O P. destruct (addc_eq 0 32768 x o) as (-> & _); try lia. rewrite Z.mul_0_r, shr15_0. lia. Qed.
Lemma hide_all base_o base_u base_p over_u over_p :
  opaque_ok base_o -> um_ok base_u -> pm_ok base_p -> um_ok over_u -> pm_ok over_p ->
  ua over_u = 32768 -> pa over_p = 32768 ->
  opaque_over_um base_o over_u = Opaque (uc over_u) (u_od over_u) /\
  opaque_over_pm base_o over_p = Opaque (pc over_p) (p_od over_p) /\
  um_over_um base_u over_u = PM (uc over_u) 32768 (u_od over_u) /\
  um_over_pm base_u over_p = over_p /\
  pm_over_um base_p over_u = PM (uc over_u) 32768 (u_od over_u) /\
  pm_over_pm base_p over_p = over_p.
Proof.
  intros (R & G & B) ((Ru & Gu & Bu) & Au) ((Rp & Gp & Bp) & Ap) ((Ro & Go & Bo) & Ao) ((Rv & Gv & Bv) & Av) E1 E2.
  assert (C1 : forall x o, 0 <= x <= 65535 -> 0 <= o <= 65535 -> paint32 0 32768 x o = o) by (intros; apply paint32_hide; auto).
  assert (C2 : forall x o, 0 <= x <= 65535 -> 0 <= o /\ o * 32768 <= 65535 * pa over_p -> addc 0 x o = o) by (intros x o X (O1 & O2); apply (addc_hide (pa over_p)); auto).
  unfold opaque_over_um, opaque_over_pm, um_over_um, um_over_pm, pm_over_um, pm_over_pm. rewrite E1, E2 in *.
  change (u16 (32768 - 32768)) with 0. rewrite !Z.mul_0_r. change (0 + 32767) with 32767. change (Z.shiftr 32767 15) with 0. rewrite shr15_0.
  cbn [Z.eqb]. change (32768 >=? 16384) with true. change (32768 >? 16384) with true. change (u16 (0 + 32768)) with 32768. cbn match.
  assert (D1 : forall c, is16 c -> map2 (paint32 0 32768) c (uc over_u) = uc over_u).
  { intros c (X & Y & Z). apply color_eq; cbn [r g b map2]; apply C1; assumption. }
  assert (D2 : forall c, is16 c -> map2 (addc 0) c (pc over_p) = pc over_p).
  { intros c (X & Y & Z). apply color_eq; cbn [r g b map2]; apply C2; assumption. }
  assert (I1 : is16 (pc base_p)) by (repeat split; lia).
  rewrite !D1, !D2 by (assumption || (repeat split; lia)).
  assert (PE : PM (pc over_p) 32768 (p_od over_p) = over_p) by (rewrite <- E2; destruct over_p; reflexivity).
  rewrite PE. change (32768 =? 0) with false. cbn match. repeat split; reflexivity.
Qed.
Lemma clear_all base_o base_u base_p over_u over_p :
  opaque_ok base_o -> um_ok base_u -> pm_ok base_p -> um_ok over_u -> pm_ok over_p ->
  ua over_u = 0 -> pa over_p = 0 ->
  opaque_over_um base_o over_u = base_o /\
  opaque_over_pm base_o over_p = base_o /\
  um_over_um base_u over_u = pm_of_um base_u /\
  um_over_pm base_u over_p = pm_of_um base_u /\
  pm_over_um base_p over_u = base_p /\
  pm_over_pm base_p over_p = base_p.
Proof.
  intros OB ((Ru & Gu & Bu) & Au) ((Rp & Gp & Bp) & Ap) ((Ro & Go & Bo) & Ao) ((Rv & Gv & Bv) & Av) E1 E2.
  assert (Z0 : r (pc over_p) = 0 /\ g (pc over_p) = 0 /\ b (pc over_p) = 0) by lia. destruct Z0 as (Zr & Zg & Zb).
  unfold opaque_over_um, opaque_over_pm, um_over_um, um_over_pm, pm_over_um, pm_over_pm, pm_of_um. rewrite E1, E2 in *.
  change (u16 (32768 - 0)) with 32768. rewrite !shr15_mul, !shr15_ceil, !Z.add_0_r. cbn [Z.eqb Z.gtb Z.geb Z.compare].
  assert (P : forall t x o, 0 <= t <= 32768 -> 0 <= x <= 65535 -> 0 <= o <= 65535 -> paint32 t 0 x o = u16 (Z.shiftr (mul32 x t) 15)).
  { intros t x o T X O. destruct (paint32_eq t 0 x o) as (E & F1 & F2); try lia. rewrite E. rewrite Z.mul_0_r, Z.add_0_r in *. rewrite mul32_id by lia. symmetry. apply u16_id. nia. }
  assert (Q : forall t x, 0 <= t <= 32768 -> 0 <= x <= 65535 -> addc t x 0 = u16 (Z.shiftr (mul32 x t) 15)).
  { intros t x T X. destruct (addc_eq t 0 x 0) as (E & F1 & F2); try lia. rewrite E, Z.add_0_r. rewrite mul32_id by lia. symmetry. apply u16_id. nia. }
  assert (I : forall x, 0 <= x <= 65535 -> u16 (Z.shiftr (mul32 x 32768) 15) = x).
  { intros x X. rewrite mul32_id by lia. rewrite shr15_mul. apply u16_id. lia. }
  assert (U : u16 (ua base_u) = ua base_u) by (apply u16_id; lia). assert (UP : u16 (pa base_p) = pa base_p) by (apply u16_id; lia).
  rewrite U, UP. split; [reflexivity|]. split; [reflexivity|]. split; [|split; [|split]].
  - f_equal. apply color_eq; cbn [r g b map1 map2]; apply P; lia.
  - f_equal. apply color_eq; cbn [r g b map1 map2]; rewrite ?Zr, ?Zg, ?Zb; apply Q; lia.
  - destruct base_p as [pcb pab odb]. cbn [pc pa p_od] in *. f_equal. apply color_eq; cbn [r g b map1 map2]; rewrite P by lia; apply I; lia.
  - destruct base_p as [pcb pab odb]. cbn [pc pa p_od] in *. f_equal. apply color_eq; cbn [r g b map1 map2]; rewrite ?Zr, ?Zg, ?Zb; rewrite Q by lia; apply I; lia.
Qed.

(** The dithered average: split v = 256 q + m; only the 256 values of m are evaluated. *)
Definition cell (lo hi : bool) (m n : Z) : Z :=
  if m + n <? 0 then (if lo then 0 else -1) else if m + n >=? 256 then (if hi then 0 else 1) else 0.
Definition cells (lo hi : bool) (m : Z) : Z := fold_right Z.add 0 (map (cell lo hi m) (concat dither_matrix)).
(* 257 * (16 q + cells) - 16 * (256 q + m) = 16 q + 257 * cells - 16 * m *)
Definition tile_ok (m : Z) : bool :=
  let ok lo hi q := (-2258 <=? 16 * q + 257 * cells lo hi m - 16 * m) && (16 * q + 257 * cells lo hi m - 16 * m <=? 2258) in
  ok true false 0 && ok false false 1 && ok false false 254 && ok false true 255.
Fixpoint all_below (n : nat) (v : Z) : bool := match n with O => true | S n => tile_ok v && all_below n (v + 1) end.
Lemma all_below_ok n : forall v x, all_below n v = true -> v <= x < v + Z.of_nat n -> tile_ok x = true.
Proof.
  induction n as [|n IH]; intros v x H X; [lia|]. cbn [all_below] in H. apply andb_prop in H as (A & B).
  destruct (Z.eq_dec x v) as [-> |]; [exact A|]. apply (IH (v + 1)); [exact B|lia].
Qed.
Lemma cell_ok q m n : 0 <= q <= 255 -> 0 <= m < 256 -> -256 <= n <= 256 ->
  u8 (clampi32 (Z.shiftr (256 * q + m + n) 8) 0 255) = q + cell (q =? 0) (q =? 255) m n.
Proof.
  intros Q M N. rewrite shr8. replace (256 * q + m + n) with (q * 256 + (m + n)) by ring. rewrite Z.div_add_l by lia.
  unfold cell, clampi32.
  assert (D : (m + n) / 256 = if m + n <? 0 then -1 else if m + n >=? 256 then 1 else 0).
  { destruct (m + n <? 0) eqn:A; [|destruct (m + n >=? 256) eqn:B]; Z.div_mod_to_equations; lia. }
  rewrite D. destruct (m + n <? 0); [|destruct (m + n >=? 256)].
  - destruct (q =? 0) eqn:E; [replace (q + -1 <? 0) with true by lia; change (u8 0) with 0; lia|].
    replace (q + -1 <? 0) with false by lia. replace (q + -1 >? 255) with false by lia. apply u8_id. lia.
  - destruct (q =? 255) eqn:E; [replace (q + 1 <? 0) with false by lia; replace (q + 1 >? 255) with true by lia; change (u8 255) with 255; lia|].
    replace (q + 1 <? 0) with false by lia. replace (q + 1 >? 255) with false by lia. apply u8_id. lia.
  - replace (q + 0 <? 0) with false by lia. replace (q + 0 >? 255) with false by lia. apply u8_id. lia.
Qed.
Lemma cells_total q m (f : Z -> Z) l : Forall (fun n => f n = q + cell (q =? 0) (q =? 255) m n) l ->
  fold_right Z.add 0 (map f l) = Z.of_nat (length l) * q + fold_right Z.add 0 (map (cell (q =? 0) (q =? 255) m) l).
Proof. induction 1 as [|n l H _ IH]; cbn [map fold_right length]; [lia|]. rewrite IH, H. lia. Qed.
Lemma tile_average v : 0 <= v <= 65535 ->
  let total := fold_right Z.add 0 (map (fun n => r (dither (Color v v v) n)) (concat dither_matrix)) in
  -2258 <= 257 * total - 16 * v <= 2258.
Proof.
  intros V total. set (q := v / 256). set (m := v mod 256).
  assert (E : v = 256 * q + m) by (apply Z.div_mod; lia). assert (M : 0 <= m < 256) by (apply Z.mod_pos_bound; lia).
  assert (Q : 0 <= q <= 255) by lia.
  assert (T : total = 16 * q + cells (q =? 0) (q =? 255) m).
  { unfold total, cells. rewrite (cells_total q m); [reflexivity|]. rewrite Forall_forall. intros n IN. cbn [r dither map1]. rewrite E.
    apply cell_ok; try assumption. assert (A : Forall (fun n => -256 <= n <= 256) (concat dither_matrix)) by (cbn; repeat (apply Forall_cons; [lia|]); constructor).
    rewrite Forall_forall in A. apply A, IN. }
  assert (A : all_below 256 0 = true) by (vm_compute; reflexivity).
  assert (K : tile_ok m = true) by (apply (all_below_ok _ 0 m A); lia).
  unfold tile_ok in K. cbv zeta in K. clearbody total q m. rewrite T, E.
  destruct (q =? 0) eqn:E0; [replace (q =? 255) with false by lia|destruct (q =? 255) eqn:E1]; lia.
Qed.

Lemma scale_union : forall a o v, is8 a -> is8 o -> 0 <= v <= 255 ->
  each2 (fun x y => 255 * x <= y * v < 255 * x + 255) (c8_scale a v) a /\
  c8_scale a 255 = a /\ is8 (c8_max a o) /\
  each2 Z.le a (c8_max a o) /\ each2 Z.le o (c8_max a o) /\
  (forall c, each2 Z.le a c -> each2 Z.le o c -> each2 Z.le (c8_max a o) c).
Proof.
  intros [ar ag ab] [or_ og ob] v A O V. unfold is8, each, each2, c8_scale, c8_max, map1, map2 in *. cbn [r g b] in *.
  assert (K : forall c, 0 <= c <= 255 -> 255 * u8 (c * v / 255) <= c * v < 255 * u8 (c * v / 255) + 255).
  { intros c C. rewrite u8_id.
    - pose proof (Z.div_mod (c * v) 255 ltac:(lia)). pose proof (Z.mod_pos_bound (c * v) 255 ltac:(lia)). lia.
    - split; [apply Z.div_pos; nia|apply Z.div_le_upper_bound; nia]. }
  split; [repeat split; apply K; lia|]. split; [rewrite !Z.div_mul by lia; rewrite !u8_id by lia; reflexivity|]. repeat split; try lia. all: intros; try (destruct H, H0); lia.
Qed.
Lemma fade_ok : forall u o x, um_ok u -> opaque_ok o -> 0 <= x <= 32768 ->
  um_ok (um_mul u x) /\ uc (um_mul u x) = uc u /\ 32768 * ua (um_mul u x) <= ua u * x < 32768 * ua (um_mul u x) + 32768 /\
  um_mul u 32768 = u /\ um_ok (opaque_mul o x) /\ uc (opaque_mul o x) = oc o /\ ua (opaque_mul o x) = x.
Proof.
  intros u o x (U1 & U2) O X. unfold um_mul, opaque_mul, um_ok. cbn [uc ua u_od]. rewrite (u16_id x) by lia. rewrite Z.shiftr_div_pow2 by lia. change (2 ^ 15) with 32768.
  assert (0 <= ua u * x / 32768 <= 32768) by (split; [apply Z.div_pos; nia|apply Z.div_le_upper_bound; nia]).
  pose proof (Z.div_mod (ua u * x) 32768 ltac:(lia)). pose proof (Z.mod_pos_bound (ua u * x) 32768 ltac:(lia)).
  rewrite (u16_id (_ / _)) by lia. split; [auto|]. split; [reflexivity|]. split; [lia|]. split; [|auto].
  rewrite (u16_id 32768) by lia. rewrite Z.shiftr_div_pow2 by lia. change (2 ^ 15) with 32768. rewrite Z.div_mul by lia. rewrite u16_id by lia. destruct u; reflexivity.
Qed.
