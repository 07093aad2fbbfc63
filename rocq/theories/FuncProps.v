(** C48, C49, C50, C70, C71, C72, C73: blade-style functions. *)
From Coq Require Import ZArith List Bool Lia.
From Verif Require Import Machine ArithModel ArithSpec FuncModel FuncSpec FuncProofs FuncTimeProofs.
Import ListNotations.
Open Scope Z_scope.

(** C48: clamped functions lie in their interval and are otherwise unchanged. *)
Theorem C48_clamp : forall f a b, a <= b ->
  a <= fn_clamp f a b <= b /\ (a <= f <= b -> fn_clamp f a b = f).
Proof. exact clamp_in. Qed.
Example C48_clamp_ex : fn_clamp 40000 0 32768 = 32768 /\ fn_clamp 7 0 32768 = 7.
Proof. split; reflexivity. Qed.

(** C48: scaling maps 0..32768 into the interval from a to b, at the place the fraction
    f/32768 says (rounded down), exactly at the end points. *)
Theorem C48_scale : forall f a b,
  0 <= f <= 32768 -> Z.abs (b - a) <= 65535 ->
  -1073741824 <= a <= 1073741824 -> -1073741824 <= b <= 1073741824 ->
  (exists r, fn_scale f a b = Some r /\ Z.min a b <= r <= Z.max a b /\
     32768 * (r - a) <= f * (b - a) < 32768 * (r - a + 1)) /\
  fn_scale 0 a b = Some a /\ fn_scale 32768 a b = Some b.
Proof. intros; split; [apply scale_thm|apply scale_ends]; assumption. Qed.
Example C48_scale_ex : fn_scale 8192 1000 (-1000) = Some 500.
Proof. reflexivity. Qed.
(** The finding: for a and b more than 65535 apart the product overflows. *)
Theorem C48_scale_refuted :
  ~ (forall f a b, 0 <= f <= 32768 -> -32768 <= a <= 32768 -> -32768 <= b <= 32768 ->
     fn_scale f a b <> None).
Proof. intros H. apply (H 32768 (-32768) 32768); [lia..|reflexivity]. Qed.
Theorem C48_invert : forall f, 0 <= f <= 32768 -> fn_invert f = Some (32768 - f).
Proof. exact invert_ok. Qed.
Example C48_invert_ex : fn_invert 1 = Some 32767.
Proof. reflexivity. Qed.

(** C48: products of fractions are the rounded-down product; layered functions are at
    least as large as each part. *)
Theorem C48_mult : forall f v, 0 <= f <= 32768 -> 0 <= v <= 32768 ->
  exists r, fn_mult f v = Some r /\ 0 <= r <= Z.min f v /\
  32768 * r <= f * v < 32768 * (r + 1).
Proof. exact mult_ok. Qed.
Example C48_mult_ex : fn_mult 16384 16384 = Some 8192.
Proof. reflexivity. Qed.
Theorem C48_layer : forall a b, 0 <= a <= 32768 -> 0 <= b <= 32768 ->
  exists r, fn_layers a [b] = Some r /\ Z.max a b <= r <= 32768 /\
  32768 * (32768 - r) <= (32768 - a) * (32768 - b) < 32768 * (32768 - r + 1).
Proof. exact layer2_ok. Qed.
Theorem C48_layers : forall a bs, 0 <= a <= 32768 -> Forall (fun b => 0 <= b <= 32768) bs ->
  exists r, fn_layers a bs = Some r /\ 0 <= r <= 32768 /\ Forall (fun x => x <= r) (a :: bs) /\
  (Forall (fun x => x = 0) (a :: bs) -> r = 0).
Proof. intros; apply layers_ok; assumption. Qed.
Example C48_layers_ex : fn_layers 16384 [16384; 0] = Some 24576.
Proof. reflexivity. Qed.

(** C48: comparisons are 0 or 32768; ModF is the remainder in 0..max-1. *)
Theorem C48_compare : forall f v b t,
  fn_less f v = (if f <? v then 32768 else 0) /\
  (fn_between f b t = 32768 <-> b < f < t) /\ (fn_between f b t = 0 <-> ~ b < f < t).
Proof.
  intros. split; [reflexivity|]. unfold fn_between.
  destruct (Z.gtb_spec f b), (Z.ltb_spec f t); cbn; split; split; intros; try lia; discriminate.
Qed.
Theorem C48_mod : forall f m, 0 < m -> 0 <= fn_mod f m < m /\ exists k, f = k * m + fn_mod f m.
Proof.
  intros f m H. unfold fn_mod. destruct (Z.eqb_spec m 0); [lia|]. apply ArithProofs.MOD_spec; auto.
Qed.
Example C48_mod_ex : fn_mod (-1) 5 = 4 /\ fn_between 5 4 6 = 32768.
Proof. split; reflexivity. Qed.

(** C48: the ramp gives each LED its place on the blade, rounded down. *)
Theorem C48_ramp : forall n led, 0 < n <= 65535 -> 0 <= led < n ->
  exists r, fn_ramp n led = Some r /\ 0 <= r < 32768 /\ r * n <= led * 32768 < (r + 1) * n.
Proof. exact ramp_ok. Qed.
Example C48_ramp_ex : fn_ramp 144 143 = Some 32540.
Proof. reflexivity. Qed.

(** C48: a blade extended by ext/32768 of its length covers with its off-color exactly
    the units beyond that point, on every LED. *)
Theorem C48_extension : forall ext n led, 0 <= ext <= 32768 -> 0 < n <= 65535 -> 0 <= led < n ->
  exists r, fn_inout ext n led = Some r /\
  counts (fun u => ext * n <= u) (led * 32768) (led * 32768 + 32768) r.
Proof. exact inout_ok. Qed.
Example C48_extension_ex : fn_inout 16384 3 0 = Some 0 /\ fn_inout 16384 3 1 = Some 16384 /\
  fn_inout 16384 3 2 = Some 32768.
Proof. repeat split; reflexivity. Qed.

(** C48: a smooth step stays within 0..32768, never overflows, ... *)
Theorem C48_smooth_step : forall pos width n led,
  0 <= pos <= 32768 -> 0 < n <= 65535 -> 0 <= led < n -> -2147483648 <= width <= 2147483647 ->
  exists r, fn_smooth_step pos width n led = Some r /\ 0 <= r <= 32768.
Proof. exact ss_range. Qed.
(** ... rises along the blade (falls for negative width) up to a rounding error of 2, ... *)
Theorem C48_smooth_monotone : forall pos width n led1 led2 r1 r2,
  0 <= pos <= 32768 -> 0 < n <= 65535 -> 0 <= led1 <= led2 -> led2 < n ->
  -2147483648 <= width <= 2147483647 ->
  fn_smooth_step pos width n led1 = Some r1 -> fn_smooth_step pos width n led2 = Some r2 ->
  (0 <= width -> r1 <= r2 + 2) /\ (width < 0 -> r2 <= r1 + 2).
Proof. exact ss_mono. Qed.
(** ... is 0 up to pos - width/2, and 32768 from pos + width/2 on, the latter up to a
    rounding error of one step per LED. *)
Theorem C48_smooth_outside : forall pos width n led,
  0 <= pos <= 32768 -> 0 < n <= 65535 -> 0 <= led < n -> 0 <= width <= 2147483647 ->
  (65536 * led <= (2 * pos - width) * n -> fn_smooth_step pos width n led = Some 0) /\
  (1073741824 * led >= (32768 * pos + 16384 * width) * n + led * width * n ->
   (width = 0 -> 32768 * led >= n * pos + 32768) ->
   fn_smooth_step pos width n led = Some 32768).
Proof. exact ss_outside. Qed.
Example C48_smooth_ex :
  map (fun led => fn_smooth_step 16384 16384 8 led) [0; 2; 3; 4; 5; 6; 7] =
  [Some 0; Some 0; Some 5120; Some 16384; Some 27648; Some 32768; Some 32768].
Proof. reflexivity. Qed.
(** The corners: the exact claims fail. *)
Theorem C48_smooth_monotone_refuted :
  ~ (forall pos width n led r1 r2, 0 <= pos <= 32768 -> 0 < width <= 32768 -> 0 < n <= 65535 ->
     0 <= led < n - 1 ->
     fn_smooth_step pos width n led = Some r1 -> fn_smooth_step pos width n (led + 1) = Some r2 ->
     r1 <= r2).
Proof.
  intros H. specialize (H 32762 32768 4681 2486 94 93 ltac:(lia) ltac:(lia) ltac:(lia) ltac:(lia)
    eq_refl eq_refl). lia.
Qed.
Theorem C48_smooth_end_refuted :
  ~ (forall pos width n led, 0 <= pos <= 32768 -> 0 < width <= 32768 -> 0 < n <= 300 ->
     0 <= led < n -> 65536 * led >= (2 * pos + width) * n ->
     fn_smooth_step pos width n led = Some 32768).
Proof. intros H. specialize (H 8192 16384 144 72 ltac:(lia) ltac:(lia) ltac:(lia) ltac:(lia) ltac:(lia)). discriminate. Qed.

(** C48: a linear section lights on every LED exactly the units within half the
    fraction of the position; a section that lies on the blade adds up to its length. *)
Theorem C48_linear : forall pos frac n led,
  0 <= pos <= 32768 -> 0 <= frac <= 65536 -> 0 < n <= 32767 -> 0 <= led < n ->
  exists r, fn_linear pos frac n led = Some r /\
  counts (in_section pos (frac / 2) n) (led * 32768) (led * 32768 + 32768) r.
Proof. exact linear_ok. Qed.
Theorem C48_linear_sum : forall pos frac n, 0 <= frac <= 65536 -> 0 < n <= 32767 ->
  frac / 2 <= pos <= 32768 - frac / 2 ->
  sum_leds (fun led => get0 (fn_linear pos frac n led)) (Z.to_nat n) = 2 * (frac / 2) * n.
Proof. exact linear_sum. Qed.
Example C48_linear_ex :
  map (fn_linear 16384 8192 4) [0; 1; 2; 3] = [Some 0; Some 16384; Some 16384; Some 0].
Proof. reflexivity. Qed.
(** C48: a circular section does so with wrap-around, for every position. *)
Theorem C48_circular : forall pos frac n led,
  -1073741824 <= pos <= 1073741824 -> 0 <= frac <= 32768 -> 0 < n <= 65535 -> 0 <= led < n ->
  exists r, fn_circular pos frac n led = Some r /\
  counts (in_circle pos (frac / 2) n) (led * 32768) (led * 32768 + 32768) r.
Proof. exact circular_ok. Qed.
Theorem C48_circular_sum : forall pos frac n,
  -1073741824 <= pos <= 1073741824 -> 0 <= frac <= 32768 -> 0 < n <= 65535 ->
  sum_leds (fun led => get0 (fn_circular pos frac n led)) (Z.to_nat n) = 2 * (frac / 2) * n.
Proof. exact circular_sum. Qed.
Example C48_circular_ex :
  map (fn_circular 0 16384 4) [0; 1; 2; 3] = [Some 32768; Some 0; Some 0; Some 32768].
Proof. reflexivity. Qed.

(** C49: the modulo counter is the sum of the increments of all pulses modulo max. *)
Theorem C49_modulo : forall mx B h, 0 < mx -> 0 <= B -> mx + B <= 2147483647 ->
  Forall (fun i => 0 <= snd i <= B) h ->
  run inc_step (Some 0) (map (fun i => (fst i, snd i, mx)) h) = Some (pulsed h mod mx).
Proof. intros mx B h H1 H2 H3 H4. now rewrite (inc_run mx B h H1 H2 H3 H4 0 ltac:(lia)). Qed.
Example C49_modulo_ex : run inc_step (Some 0)
  (map (fun i => (fst i, snd i, 5)) [(true, 3); (false, 3); (true, 3); (true, 2)]) = Some 3.
Proof. reflexivity. Qed.
(** The corner: with a negative increment the value is negative, not in 0..max-1. *)
Theorem C49_negative_refuted :
  ~ (forall mx i h, 0 < mx <= 1000 -> -1000 <= i <= 1000 -> forall v,
     run inc_step (Some 0) (map (fun p : bool => (p, i, mx)) h) = Some v -> 0 <= v < mx).
Proof. intros H. specialize (H 5 (-1) [true] ltac:(lia) ltac:(lia) (-1) eq_refl). lia. Qed.

(** C49: the counter with reset counts the pulses since the last reset, capped. *)
Theorem C49_with_reset : forall mx inc h1 p h2, 0 <= mx -> 0 <= inc -> mx + inc <= 2147483647 ->
  Forall (fun i => fst i = false) h2 ->
  run incr_step (Some 0)
    (map (fun i => (fst i, snd i, mx, inc)) (h1 ++ (true, p) :: h2)) =
  Some (Z.min mx (inc * pcount (p :: map snd h2))).
Proof. exact incr_since. Qed.
Theorem C49_never_reset : forall mx inc h, 0 <= mx -> 0 <= inc -> mx + inc <= 2147483647 ->
  Forall (fun i => fst i = false) h ->
  run incr_step (Some 0) (map (fun i => (fst i, snd i, mx, inc)) h) =
  Some (Z.min mx (inc * pcount (map snd h))).
Proof.
  intros mx inc h H1 H2 H3 H4. pose proof (incr_none mx inc h H1 H2 H3 H4 0 ltac:(lia)) as R.
  replace (Z.min mx (inc * 0)) with 0 in R by lia. exact R.
Qed.
Example C49_with_reset_ex : run incr_step (Some 0) (map (fun i => (fst i, snd i, 25, 10))
  [(false, true); (true, true); (false, true); (false, false); (false, true)]) = Some 25.
Proof. reflexivity. Qed.

(** C49: a threshold pulse fires once per excursion above the threshold: in the first
    frame that reaches it, and again only after falling below the hysteresis level. *)
Theorem C49_threshold : forall thr h fs, -2147483648 <= thr * h <= 2147483647 ->
  exists os, run_outs thr_step false (map (fun f => (f, thr, h)) fs) = map Some os /\
  fires_once thr (Z.quot (thr * h) 100) fs os.
Proof.
  intros thr h fs H. destruct (thr_inv thr h fs H) as (os & A & B & _). exists os. split; assumption.
Qed.
Example C49_threshold_ex : run_outs thr_step false
  (map (fun f => (f, 100, 66)) [50; 100; 120; 70; 110; 65; 100]) =
  map Some [0; 32768; 0; 0; 0; 0; 32768].
Proof. reflexivity. Qed.

(** C50: ChangeSlowly moves towards its target, never past it, in every frame, at most
    speed per second; ... *)
Theorem C50_toward : forall v t0 t target speed s',
  small v -> small target -> 0 <= speed <= 2147483647 -> t0 <= t ->
  ch_step (Chs v (u32 t0)) (t, target, speed) = Some s' ->
  (v <= target -> v <= ch_value s' <= target) /\
  (target <= v -> target <= ch_value s' <= v) /\
  1000000 * Z.abs (ch_value s' - v) <= speed * (t - t0).
Proof.
  intros v t0 t target speed s' H1 H2 H3 H4 H5.
  exact (proj2 (ch_toward v t0 t target speed s' H1 H2 H3 H4 H5)).
Qed.
(** ... nor over any history of frames and moving targets; ... *)
Theorem C50_speed : forall speed h v t0,
  0 <= speed <= 2147483647 -> Forall (fun i => small (snd i)) h -> small v -> mono_from t0 h ->
  exists w l, run ch_steps (Some (Chs v (u32 t0))) (map (fun i => (fst i, snd i, speed)) h) =
    Some (Chs w l) /\
  1000000 * Z.abs (w - v) <= speed * (last (map fst h) t0 - t0).
Proof.
  intros speed h v t0 H1 H2 H3 H4. destruct (ch_run speed h H1 H2 v t0 H3 H4) as (w & A & B & C & D).
  eauto.
Qed.
(** ... and arrives, if every frame is long enough to move by k > 0. *)
Theorem C50_arrives : forall speed target g k ts v t0,
  small target -> 0 <= speed <= 2147483647 -> 0 <= g -> 0 <= k -> 1000000 * k <= speed * g ->
  small v -> gaps g 1000000 t0 ts -> Z.abs (v - target) <= k * Z.of_nat (length ts) ->
  exists l, run ch_steps (Some (Chs v (u32 t0))) (map (fun t => (t, target, speed)) ts) =
    Some (Chs target l).
Proof.
  intros speed target g k ts v t0 H1 H2 H3 H4 H5 H6 H7 H8.
  destruct (ch_arrives speed target g k ts H1 H2 H3 H4 H5 v t0 H6 H7) as (w & l & A & B).
  exists l. rewrite A. f_equal. f_equal. lia.
Qed.
Example C50_slow_ex :
  run ch_steps (Some (Chs 0 (u32 0))) (map (fun t => (t, 100, 20000)) [2000; 4000; 6000]) =
  Some (Chs 100 6000) /\ gaps 2000 1000000 0 [2000; 4000; 6000] /\ mono_from 0 [(2000,100);(4000,100)].
Proof. split; [reflexivity|]. cbn. lia. Qed.
(** The finding: with short frames it never moves at all: any number of frames with
    speed * frame time < 1 leaves the value where it was. *)
Theorem C50_stall_refuted : forall speed target g ts v t0,
  small target -> 0 <= speed <= 2147483647 -> speed * g < 1000000 -> 0 <= g <= 1000000 ->
  small v -> gaps 0 g t0 ts ->
  exists l, run ch_steps (Some (Chs v (u32 t0))) (map (fun t => (t, target, speed)) ts) =
    Some (Chs v l).
Proof.
  intros speed target g ts v t0 H1 H2 H3 H4 H5 H6.
  exact (ch_stalls speed target g ts H1 H2 H3 H4 v t0 H5 H6).
Qed.

(** C50: after every frame HoldPeak is at least its input, at most the largest value so
    far, and has fallen by at most speed per second; ... *)
Theorem C50_peak : forall hold speed h v t0 p,
  0 <= speed <= 1073741823 -> 0 <= hold < 4294967296 -> Forall (fun i => small (snd i)) h ->
  small v -> p <= t0 -> mono_from t0 h -> h <> [] ->
  let w := hp_value (run hp_step (Hps v (u32 t0) (u32 (p / 1000)))
                       (map (fun i => (fst i, snd i, hold, speed)) h)) in
  snd (last h (0, 0)) <= w /\ w <= fold_right Z.max v (map snd h) /\
  1000000 * (v - w) <= speed * (last (map fst h) t0 - t0).
Proof.
  intros hold speed h v t0 p H1 H2 H3 H4 H5 H6 H7.
  destruct (hp_run hold speed h H1 H2 H3 v t0 p H4 H5 H6) as (w & p' & A & _ & _ & _ & B & C & D & _).
  unfold hp_from, hpi in A. cbv zeta. rewrite A. cbn [hp_value].
  assert (v <= fold_right Z.max v (map snd h)).
  { clear. induction (map snd h); cbn; lia. }
  split; [auto|]. split; [lia|auto].
Qed.
(** ... and a value that raised the peak is not left during the hold time. *)
Theorem C50_hold : forall hold speed h v t0 p t c,
  0 <= speed <= 1073741823 -> 0 <= hold < 4294967296 -> Forall (fun i => small (snd i)) h ->
  small v -> small c -> p <= t0 -> t0 <= t -> v < c -> mono_from t h ->
  last (map fst h) t / 1000 - t / 1000 <= hold ->
  c <= hp_value (run hp_step (Hps v (u32 t0) (u32 (p / 1000)))
                   (map (fun i => (fst i, snd i, hold, speed)) ((t, c) :: h))).
Proof.
  intros hold speed h v t0 p t c H1 H2 H3 H4 Hc H5 H6 H7 H8 H9.
  cbn [map run fst snd].
  pose proof (hp_step_ok v t0 p t c hold speed H4 Hc H1 H2 H6 ltac:(lia)) as (L & SV & BD & SP & HO & PK).
  cbv zeta in *. unfold hpi in *. cbn [fst snd] in *. set (s' := hp_step _ _) in *.
  destruct s' as [v' l' k']. cbn [hp_value hp_last hp_peak] in *. subst l'.
  destruct PK as [[_ PK]|[-> ->]]; [lia|].
  destruct (hp_run hold speed h H1 H2 H3 c t t Hc ltac:(lia) H8) as (w & p' & A & _ & _ & _ & _ & _ & _ & D).
  unfold hp_from, hpi in A. rewrite A. cbn [hp_value]. apply D. exact H9.
Qed.
Example C50_hold_ex :
  hp_value (run hp_step (Hps 0 0 0) (map (fun i => (fst i, snd i, 500, 1000))
    [(1000000, 700); (1400000, 30)])) = 700 /\
  hp_value (run hp_step (Hps 0 0 0) (map (fun i => (fst i, snd i, 500, 1000))
    [(1000000, 700); (1400000, 30); (1600000, 30)])) = 500.
Proof. split; reflexivity. Qed.
(** The corner: an input that stays at the peak does not renew the hold time. *)
Theorem C50_plateau_refuted :
  ~ (forall hold speed t0 t c t', 0 <= hold < 4294967296 -> 0 <= speed <= 1073741823 ->
     0 < c <= 32768 -> t0 <= t <= t' -> t' / 1000 - t / 1000 <= hold ->
     c <= hp_value (run hp_step (Hps 0 0 0)
            (map (fun i => (fst i, snd i, hold, speed)) [(t0, c); (t, c); (t', 0)]))).
Proof.
  intros H. specialize (H 500 1000 1000000 1400000 700 1600000 ltac:(lia) ltac:(lia) ltac:(lia)
    ltac:(lia) ltac:(vm_compute; discriminate)).
  vm_compute in H. congruence.
Qed.

(** C70: from the frame in which a trigger detects its effect (at t0, whatever state it
    was in) on, in every frame its value is the envelope of delay, fade in, sustain and
    fade out since t0, if frames come at least every 1000 seconds. *)
Theorem C70_trigger : forall delay fin sus fout s t0 ts,
  0 <= delay <= 3294967 -> 0 <= fin <= 3294967 -> 0 <= sus <= 3294967 -> 0 <= fout <= 3294967 ->
  paced 999999999 t0 ts ->
  exists s', run (tr_steps (Trd delay fin sus fout)) (Some s)
               ((t0, true) :: map (fun t => (t, false)) ts) = Some s' /\
  envelope (1000 * delay) (1000 * fin) (1000 * sus) (1000 * fout) (last ts t0 - t0) (ts_value s').
Proof.
  intros delay fin sus fout s t0 ts H1 H2 H3 H4 P.
  set (d := Trd delay fin sus fout).
  assert (OK : durs_ok d) by (unfold durs_ok, ms_ok; cbn; lia).
  destruct (trig_start d s t0 OK) as (s1 & E & I1).
  destruct (trig_run d t0 ts OK t0 s1 I1 P) as (s2 & R & I2).
  exists s2. split; [|apply I2]. cbn [run tr_steps bind]. rewrite E. exact R.
Qed.
Example C70_trigger_ex :
  option_map ts_value (run (tr_steps (Trd 0 100 500 1000)) (Some (Trs 0 4 0))
    [(5000, true); (55000, false); (105000, false); (1105000, false)]) = Some 16384 /\
  paced 999999999 5000 [55000; 105000; 1105000].
Proof. split; [reflexivity|]. repeat (constructor; [lia|]). constructor. Qed.
(** The finding: after a longer pause between two frames the trigger fires by itself. *)
Theorem C70_gap_refuted :
  ~ (forall delay fin sus fout s t0 t,
     0 <= delay <= 3294967 -> 0 <= fin <= 3294967 -> 0 <= sus <= 3294967 -> 0 <= fout <= 3294967 ->
     t0 <= t <= t0 + 3000000000 -> forall s',
     run (tr_steps (Trd delay fin sus fout)) (Some s) [(t0, true); (t, false)] = Some s' ->
     envelope (1000 * delay) (1000 * fin) (1000 * sus) (1000 * fout) (t - t0) (ts_value s')).
Proof.
  intros H.
  destruct (run (tr_steps (Trd 0 100 500 1000)) (Some (Trs 0 4 0)) [(0, true); (2894000000, false)])
    as [s'|] eqn:E; [|vm_compute in E; discriminate].
  specialize (H 0 100 500 1000 (Trs 0 4 0) 0 2894000000 ltac:(lia) ltac:(lia) ltac:(lia)
    ltac:(lia) ltac:(lia) s' E).
  vm_compute in E. injection E as <-. cbn [ts_value] in H.
  inversion H; lia.
Qed.

(** C71: a blinking function is dark for the first promille + 1 thousandths of each
    period (up to rounding down) and bright in the rest, with periods that follow each
    other without drift, however the frames fall. *)
Theorem C71_blink : forall pm promille s0 ts i T o,
  0 < pm <= 2147483 -> paced (1000 * pm - 1) s0 ts -> Forall (fun t => s0 < t) ts ->
  nth_error ts i = Some T ->
  nth_error (run_outs blink_step (u32 s0) (map (fun t => (t, pm, promille)) ts)) i = Some o ->
  exists j p, 0 < p <= 1000 * pm /\ T = s0 + j * (1000 * pm) + p /\
    o = (if p / pm <=? promille then 0 else 32768).
Proof.
  intros pm promille s0 ts i T o H P F Hi Ho.
  apply (blink_run pm promille s0 ts H 0 s0) with (i := i); auto; try lia.
  replace (s0 + 0 * (1000 * pm)) with s0 by lia. exact Ho.
Qed.
Example C71_blink_ex :
  run_outs blink_step (u32 0) (map (fun t => (t, 10, 500)) [4000; 5010; 10000; 10001; 14000; 16000]) =
  [0; 32768; 32768; 0; 0; 32768] /\ paced (1000 * 10 - 1) 0 [4000; 5010; 10000; 10001; 14000; 16000].
Proof. split; [reflexivity|]. repeat (constructor; [lia|]). constructor. Qed.
(** The finding: the documentation has it the other way round at the ends
    ("1000 = always on, 0 = always off"). *)
Theorem C71_doc_refuted : forall pm s0 ts i T o,
  0 < pm <= 2147483 -> paced (1000 * pm - 1) s0 ts -> Forall (fun t => s0 < t) ts ->
  nth_error ts i = Some T ->
  nth_error (run_outs blink_step (u32 s0) (map (fun t => (t, pm, 1000)) ts)) i = Some o -> o = 0.
Proof.
  intros pm s0 ts i T o H P F Hi Ho.
  destruct (C71_blink pm 1000 s0 ts i T o H P F Hi Ho) as (j & p & B & _ & ->).
  assert (p / pm <= 1000) by (apply Z.div_le_upper_bound; lia).
  destruct (Z.leb_spec (p / pm) 1000); [reflexivity|lia].
Qed.

(** C71: a strobe is dark for 1000/frequency ms and then bright for the given time,
    without drift. *)
Theorem C71_strobe : forall freq on s0 ts i T o,
  0 < freq <= 1000 -> 0 < on <= 1000000 ->
  paced (Z.min on (1000 / freq)) s0 ts -> Forall (fun t => s0 < t) ts ->
  nth_error ts i = Some T ->
  nth_error (run_outs strobe_step (false, u32 s0) (map (fun t => (t, freq, on)) ts)) i = Some o ->
  exists j p, 0 < p <= 1000 / freq + on /\ T = s0 + j * (1000 / freq + on) + p /\
    o = (if p <=? 1000 / freq then 0 else 32768).
Proof.
  intros freq on s0 ts i T o H1 H2 P F Hi Ho.
  assert (0 < 1000 / freq) by (apply Z.div_str_pos; lia).
  assert (E : strobe_at s0 (1000 / freq) on 0 false = s0) by (unfold strobe_at; lia).
  apply (strobe_run freq on s0 ts H1 H2 0 false s0) with (i := i); rewrite ?E; auto; lia.
Qed.
Example C71_strobe_ex :
  run_outs strobe_step (false, u32 0) (map (fun t => (t, 50, 10)) [8; 15; 21; 30; 31; 41; 51; 55]) =
  [0; 0; 32768; 32768; 0; 0; 32768; 32768] /\
  paced (Z.min 10 (1000 / 50)) 0 [8; 15; 21; 30; 31; 41; 51; 55].
Proof. split; [reflexivity|]. repeat (constructor; [vm_compute; split; discriminate|]). constructor. Qed.

(** C71: a sequence shows the bits of its words in order, one per time slot, over and
    over. *)
Theorem C71_sequence : forall mpb bits ws t, 0 < mpb -> 0 < bits -> ws <> [] ->
  exists b, nth_error (all_bits ws)
      (Z.to_nat ((t mod 2 ^ 32 / mpb) mod Z.min bits (16 * Z.of_nat (length ws)))) = Some b /\
    seq_value mpb bits ws t = Some (if b then 32768 else 0).
Proof. exact seq_ok. Qed.
Example C71_sequence_ex : seq_value 100 37 [43690; 1; 61440] 3200 = Some 32768 /\
  seq_value 100 37 [43690; 1; 61440] 3600 = Some 0.
Proof. split; reflexivity. Qed.

(** C72: a selection shows the entry whose number is the function modulo the number of
    entries, also for negative values. *)
Theorem C72_select : forall f values, values <> [] ->
  fn_select f values = nth_error values (Z.to_nat (f mod Z.of_nat (length values))).
Proof. exact select_ok. Qed.
Theorem C72_selectx : forall f values, values <> [] -> 0 <= f < 2 ^ 32 ->
  fn_selectx f values = nth_error values (Z.to_nat (f mod Z.of_nat (length values))).
Proof. exact selectx_ok. Qed.
Example C72_select_ex : fn_select (-1) [10; 20; 30] = Some 30 /\ fn_selectx 5 [10; 20; 30; 40; 50; 60; 70] = Some 60.
Proof. split; reflexivity. Qed.
(** The finding: the IntSelectX form does not do so for negative values. *)
Theorem C72_negative_refuted :
  ~ (forall f values, values <> [] -> -1000 <= f ->
     fn_selectx f values = nth_error values (Z.to_nat (f mod Z.of_nat (length values)))).
Proof. intros H. specialize (H (-1) [10; 20; 30] ltac:(discriminate) ltac:(lia)). discriminate. Qed.

(** C73: a bump stays within 0..32768 and reads only its table: it is 0 from 4096 units
    on. *)
Theorem C73_bump : forall mult loc led,
  -2147483648 <= led * mult <= 2147483647 -> -2147483647 <= led * mult - loc <= 2147483647 ->
  exists r, fn_bump mult loc led = Some r /\ 0 <= r <= 32768 /\
  (4096 <= Z.abs (led * mult - loc) -> r = 0).
Proof.
  intros mult loc led H1 H2. destruct (bump_ok mult loc led H1 H2) as (r & A & B & C).
  exists r. split; [auto|]. split; [lia|auto].
Qed.
Example C73_bump_ex : fn_bump 100 500 5 = Some 32640 /\ fn_bump 100 500 60 = Some 0.
Proof. split; reflexivity. Qed.
(** The finding: it does not fall with the distance; it jumps up in the middle of every step of the table. *)
Theorem C73_falling_refuted :
  ~ (forall mult loc led1 led2 r1 r2, 0 < mult <= 1000 -> 0 <= loc <= 1000 -> 0 <= led1 <= 1000 ->
     0 <= led2 <= 1000 -> Z.abs (led1 * mult - loc) <= Z.abs (led2 * mult - loc) ->
     fn_bump mult loc led1 = Some r1 -> fn_bump mult loc led2 = Some r2 -> r2 <= r1).
Proof.
  intros H. pose proof (H 1 0 191 192) as C.
  destruct (fn_bump 1 0 191) as [r1|] eqn:E1; [|discriminate].
  destruct (fn_bump 1 0 192) as [r2|] eqn:E2; [|discriminate].
  specialize (C r1 r2 ltac:(lia) ltac:(lia) ltac:(lia) ltac:(lia) ltac:(lia) eq_refl eq_refl).
  vm_compute in E1, E2. injection E1 as <-. injection E2 as <-. apply C. reflexivity.
Qed.

Print Assumptions C48_clamp.
Print Assumptions C48_scale.
Print Assumptions C48_scale_refuted.
Print Assumptions C48_invert.
Print Assumptions C48_mult.
Print Assumptions C48_layer.
Print Assumptions C48_layers.
Print Assumptions C48_compare.
Print Assumptions C48_mod.
Print Assumptions C48_ramp.
Print Assumptions C48_extension.
Print Assumptions C48_smooth_step.
Print Assumptions C48_smooth_monotone.
Print Assumptions C48_smooth_outside.
Print Assumptions C48_smooth_monotone_refuted.
Print Assumptions C48_smooth_end_refuted.
Print Assumptions C48_linear.
Print Assumptions C48_linear_sum.
Print Assumptions C48_circular.
Print Assumptions C48_circular_sum.
Print Assumptions C49_modulo.
Print Assumptions C49_negative_refuted.
Print Assumptions C49_with_reset.
Print Assumptions C49_never_reset.
Print Assumptions C49_threshold.
Print Assumptions C50_toward.
Print Assumptions C50_speed.
Print Assumptions C50_arrives.
Print Assumptions C50_stall_refuted.
Print Assumptions C50_peak.
Print Assumptions C50_hold.
Print Assumptions C50_plateau_refuted.
Print Assumptions C70_trigger.
Print Assumptions C70_gap_refuted.
Print Assumptions C71_blink.
Print Assumptions C71_doc_refuted.
Print Assumptions C71_strobe.
Print Assumptions C71_sequence.
Print Assumptions C72_select.
Print Assumptions C72_selectx.
Print Assumptions C72_negative_refuted.
Print Assumptions C73_bump.
Print Assumptions C73_falling_refuted.
