(** Blades of several colors: Mix, Gradient, Remap, ColorSequence, ColorSelect, Stripes. *)
From Coq Require Import ZArith List Bool Lia.
From Verif Require Import Machine ArithModel ColorModel ColorSpec BlendModel BlendSpec BlendProofs.
Import ListNotations.
Local Open Scope Z_scope.

Definition red := Opaque (Color 65535 0 0) false.
Definition green := Opaque (Color 0 65535 0) false.
Definition blue := Opaque (Color 0 0 65535) true.
Definition white := Color 65535 65535 65535.

(** C129: a mix of colors by a function from 0 to 32768 shows the color at that place on the way
    from the first to the last, each color having an equal share of the way. *)
Theorem C129_mix : forall cs f, 2 <= count cs < 65536 -> colors_ok cs -> 0 <= f <= 32768 ->
  on_way cs (f * (count cs - 1)) (mix_many cs f) /\
  (forall x y, is16 (oc x) -> is16 (oc y) -> on_way [x; y] f (mix_two x y f)).
Proof. intros cs f H H0 H1. split; [apply mix_many_way; auto|intros; apply mix_two_way; auto]. Qed.
Example C129_mix_ex : count [red; green; blue] = 3 /\ colors_ok [red; green; blue] /\
  mix_many [red; green; blue] 24576 = Opaque (Color 0 32767 32767) false.
Proof. split; [reflexivity|]. split; [repeat constructor; cbn; lia|reflexivity]. Qed.
(** At the ends it is exactly the first and the last color. *)
Theorem C129_ends : forall cs a z, 2 <= count cs < 65536 -> colors_ok cs ->
  nth_is cs 0 a -> nth_is cs (count cs - 1) z ->
  mix_many cs 0 = a /\ mix_many cs 32768 = z /\ mix_two a z 0 = a /\ mix_two a z 32768 = z.
Proof. exact mix_ends. Qed.
(** With three or more colors a function out of range shows the first or last color... *)
Theorem C129_outside : forall cs f a z, 2 <= count cs -> colors_ok cs ->
  nth_is cs 0 a -> nth_is cs (count cs - 1) z -> -2147483648 <= f * (count cs - 1) <= 2147483647 ->
  (f < 0 -> mix_many cs f = a) /\ (f > 32768 -> mix_many cs f = z).
Proof. exact mix_outside. Qed.
Example C129_outside_ex : nth_is [red; green; blue] 2 blue /\ mix_many [red; green; blue] 40000 = blue /\ mix_many [red; green; blue] (-1) = red.
Proof. repeat split; try reflexivity; lia. Qed.
(** ... but with two colors it does not: finding. *)
Theorem C129_outside_two_refuted : exists a z f, is16 (oc a) /\ is16 (oc z) /\ 32768 < f < 65536 /\
  mix_two a z f <> z /\ ~ each3 between (oc (mix_two a z f)) (oc a) (oc z).
Proof.
  exists red, (Opaque (Color 65535 0 65535) false), 40000. split; [cbn; unfold is16, each; cbn; lia|]. split; [cbn; unfold is16, each; cbn; lia|].
  split; [lia|]. split; [vm_compute; discriminate|]. vm_compute. intros ((H & _) & _). apply H. reflexivity.
Qed.
(** C129: a gradient takes equal steps along the colors from the first LED, which has the first
    color, and the last LED is less than (LEDs - 1)/32768 short of the last color. *)
Theorem C129_gradient : forall cs leds, 1 <= count cs <= 65536 -> colors_ok cs -> 2 <= leds < 2147483648 ->
  exists step, 0 <= (count cs - 1) * 32768 - (leds - 1) * step < leds - 1 /\
    forall led, 0 <= led < leds -> exists c, gradient cs leds led = Some c /\ on_way cs (led * step) c.
Proof. exact gradient_way. Qed.
Example C129_gradient_ex : gradient [red; green; blue] 3 0 = Some red /\ gradient [red; green; blue] 3 1 = Some green /\
  gradient [red; green; blue] 3 2 = Some blue.
Proof. repeat split. Qed.
(** Finding: on 144 LEDs the last is not quite the last color. *)
Theorem C129_tip_refuted : exists cs leds c z, colors_ok cs /\ 2 <= leds /\ nth_is cs (count cs - 1) z /\
  gradient cs leds (leds - 1) = Some c /\ c <> z.
Proof.
  exists [red; green], 144, (Opaque (Color 41 65493 0) false), green. split; [repeat constructor; cbn; lia|].
  split; [lia|]. split; [split; [vm_compute; discriminate|reflexivity]|]. split; [vm_compute; reflexivity|discriminate].
Qed.
(** Finding: a gradient on a blade with one LED divides by zero, whatever the colors. *)
Theorem C129_one_led_refuted : forall cs led, gradient cs 1 led = None.
Proof. reflexivity. Qed.
(** Finding: mixing by RampF is not the same as Gradient, although its comment says so: RampF
    does not reach 32768 at the tip. *)
Theorem C129_ramp_refuted : exists cs leds, colors_ok cs /\ 2 <= leds /\
  gradient cs leds (leds - 1) <> Some (mix_many cs (ramp leds (leds - 1))) /\ ramp leds (leds - 1) = 16384.
Proof.
  exists [red; green; blue], 2. split; [repeat constructor; cbn; lia|]. split; [lia|]. split; [vm_compute; discriminate|reflexivity].
Qed.
(** C129: Remap shows the place the function tells it, and never asks for an LED the blade does
    not have, whatever the function's value. *)
Theorem C129_remap : forall leds pos, 1 <= leds -> leds * 32768 <= 2147483647 -> -2147483648 <= pos * leds <= 2147483647 ->
  exists a z t, remap leds pos = Some (a, z, t) /\ 0 <= a < leds /\ z = Z.min (a + 1) (leds - 1) /\ 0 <= t < 32768 /\
    a * 32768 + t = Z.max 0 (Z.min (pos * leds) (leds * 32768 - 1)).
Proof. exact remap_safe. Qed.
Example C129_remap_ex : remap 144 (-5) = Some (0, 1, 0) /\ remap 144 16384 = Some (72, 73, 0) /\ remap 144 50000 = Some (143, 143, 32767).
Proof. repeat split. Qed.
(** Remapping by RampF changes nothing, up to LEDs/32768 of one LED. *)
Theorem C129_remap_same : forall leds led, 1 <= leds -> leds * 32768 <= 2147483647 -> 0 <= led < leds ->
  exists a z t, remap leds (ramp leds led) = Some (a, z, t) /\ led * 32768 - leds < a * 32768 + t <= led * 32768.
Proof. exact remap_ramp. Qed.
(** Finding: remapping by the inverse of RampF does not reverse the blade: the last LED is shown
    twice at the base, and the first LED nowhere. *)
Theorem C129_remap_reverse_refuted : exists leds, 1 < leds /\
  (exists t, remap leds (32768 - ramp leds 0) = Some (leds - 1, leds - 1, t)) /\
  (exists t, remap leds (32768 - ramp leds 1) = Some (leds - 1, leds - 1, t)) /\
  remap leds (32768 - ramp leds (leds - 1)) = Some (1, 2, 0).
Proof. exists 128. split; [lia|]. split; [eexists; reflexivity|]. split; [eexists; reflexivity|]. reflexivity. Qed.

(** C130: run at least once per color, the color sequence changes color on time, without drift,
    and across wrap-arounds of the clock: color number c + j in the (j+1)th period. *)
Theorem C130_sequence : forall ms n ts t0 c j, 0 < ms -> ms * 10000 < 4294967296 -> 0 < n -> 0 <= c < n ->
  steady (ms * 1000) t0 ts -> 0 <= j -> j * (ms * 1000) < last ts t0 - t0 <= (j + 1) * (ms * 1000) ->
  q_n (fold_left (cseq_run ms n) (map u32 ts) (CSeq (u32 t0) c)) = (c + j) mod n.
Proof. exact cseq_time. Qed.
Example C130_sequence_ex : steady 1000 4294967000 [4294967900; 4294968400; 4294969390] /\
  q_n (fold_left (cseq_run 1 3) (map u32 [4294967900; 4294968400; 4294969390]) (CSeq 4294967000 1)) = 0.
Proof. split; [cbn; lia|reflexivity]. Qed.
(** Whatever the times, it is one of the colors. *)
Theorem C130_valid : forall ms n ts s cs, 0 < n -> n = count cs -> 0 <= q_n s < n ->
  nth_is cs (q_n (fold_left (cseq_run ms n) ts s)) (cseq_get cs (fold_left (cseq_run ms n) ts s)).
Proof.
  intros ms n ts s cs Hn E Hs. pose proof (cseq_valid ms n ts s Hn Hs) as V. unfold cseq_get.
  pose proof (pick_nth cs (q_n (fold_left (cseq_run ms n) ts s)) ltac:(apply ne_of_count; lia)) as P.
  rewrite Z.max_r, Z.min_l in P by lia. exact P.
Qed.
(** After a pause of more than ten periods it starts over; after a shorter one it goes through
    the colors it missed, one in each run. *)
Theorem C130_late : forall ms n s now, 0 < ms ->
  (ms * 10000 < u32 (now - q_last s) -> cseq_run ms n s now = CSeq now 0) /\
  (ms * 1000 < u32 (now - q_last s) <= ms * 10000 -> q_n (cseq_run ms n s now) = (q_n s + 1) mod n).
Proof. exact cseq_late. Qed.
(** C130: a color selected by a function is color number f modulo the number of colors, also for
    negative f; the transition begins when that number changes, and once it is done the
    selected color is shown. *)
Theorem C130_select : forall tr cs s f, 1 <= count cs <= 256 ->
  nth_is cs (f mod count cs) (csel_get tr cs (fst (csel_run (count cs) s f true))) /\
  (forall done, snd (csel_run (count cs) s f done) = true <-> f mod count cs <> e_sel s) /\
  (forall done, e_sel (fst (csel_run (count cs) s f done)) = f mod count cs).
Proof.
  intros tr cs s f Hn. split; [apply csel_shows; auto|]. split; intros done; destruct (csel_step (count cs) s f done ltac:(lia)) as (A & B & _).
  - rewrite B. destruct (Z.eqb_spec (f mod count cs) (e_sel s)); cbn; split; intros; congruence.
  - exact A.
Qed.
Example C130_select_ex : csel_get (fun a _ => a) [red; green; blue] (fst (csel_run 3 (CSel 0 0) (-1) true)) = blue.
Proof. reflexivity. Qed.
(** While it runs, the transition goes from the color selected before to the one selected now. *)
Theorem C130_fades : forall tr cs s f a z, 1 <= count cs <= 256 -> f mod count cs <> e_sel s ->
  nth_is cs (e_sel s) a -> nth_is cs (f mod count cs) z ->
  csel_get tr cs (fst (csel_run (count cs) s f false)) = tr a z.
Proof. exact csel_fades. Qed.
(** Finding: a new selection during a transition makes the blade jump to a color it had not yet
    reached: with transitions at their start (showing the color they start from), selecting
    number 1 and then number 2 shows color 1. *)
Theorem C130_jump_refuted : exists cs, 1 <= count cs <= 256 /\
  let start := fun a (_ : opaque) => a in
  let s1 := fst (csel_run (count cs) (CSel 0 0) 1 false) in
  let s2 := fst (csel_run (count cs) s1 2 false) in
  csel_get start cs s1 = red /\ csel_get start cs s2 = green.
Proof. exists [red; green; blue]. split; [vm_compute; split; discriminate|]. split; reflexivity. Qed.

(** C131: a stripes style shows at each LED one color at the strength of a sine of its place in
    the pattern, fading into the next; nothing else is added. *)
Theorem C131_stripes : forall cs m mult led, 1 <= count cs -> Forall is16 cs ->
  stripe_shows sin_table cs ((m + led * mult) mod 4294967296 / 1024 mod (341 * count cs)) (stripes_color cs m mult led).
Proof. exact stripes_shows. Qed.
Example C131_stripes_ex : stripes_color [oc red; oc green] 262144 51200 0 = Color 65531 0 0 /\
  stripes_color [oc red; oc green] 262144 51200 2 = Color 53575 6019 0.
Proof. split; vm_compute; reflexivity. Qed.
(** The table is that of a sine wave of 1024 steps. *)
Theorem C131_sine : forall i, 0 <= i < 1024 ->
  sin_table ((i + 512) mod 1024) = - sin_table i /\ sin_table ((1536 - i) mod 1024) = sin_table i /\
  Z.abs (sin_table i * sin_table i + sin_table ((i + 256) mod 1024) * sin_table ((i + 256) mod 1024) - 16383 * 16383) <= 42847 /\
  (i < 512 -> 0 <= sin_table i) /\ (i < 256 -> sin_table i < sin_table (i + 1)).
Proof. exact wave. Qed.
(** Stripes are nowhere darker than 86% of their color, even between two: *)
Theorem C131_bright : forall cs c m mult led, 1 <= count cs -> Forall (eq c) cs -> is16 c ->
  each2 (fun o k => 14204 * k - 2 * 16384 < 16384 * o <= 16411 * k /\ o <= 65535) (stripes_color cs m mult led) c.
Proof. exact stripes_bright. Qed.
Example C131_bright_ex : Forall (eq white) [white; white] /\ stripes_color [white; white] 0 51200 0 = Color 56815 56815 56815.
Proof. split; [exact (Forall_cons _ eq_refl (Forall_cons _ eq_refl (Forall_nil _)))|vm_compute; reflexivity]. Qed.
(** C131: the pattern moves at the speed asked for, whatever the frame times: after any number of
    frames it is off by less than one unit (of 1/1024 pattern position) per frame.  The
    frames are pairs of real time and width. *)
Theorem C131_speed : forall n speed, 1 <= n <= 6000 -> forall fs t0 m0 k0, 0 <= m0 < n * 349184 ->
  (fix gaps t l := match l with [] => True | (t', w) :: r =>
     0 <= t' - t <= 2147483647 /\ Z.abs ((t' - t) * speed) <= 2147483647 /\ w <> 0 /\ gaps t' r end) t0 fs ->
  exists m moved k,
    fold_left (fun s f => match s with Some (m, last, _) => stripes_run n m last (f_now f) (f_width f) (f_speed f) | None => None end)
      (map (fun f => Frame (u32 (fst f)) (snd f) speed) fs) (Some (m0, u32 t0, k0))
      = Some (m, u32 (last (map fst fs) t0), k) /\ 0 <= m < n * 349184 /\ m = (m0 + moved) mod (n * 349184) /\
    Z.abs (333 * moved - speed * (last (map fst fs) t0 - t0)) <= 332 * Z.of_nat (length fs).
Proof. exact move. Qed.
Example C131_speed_ex : stripes_run 2 0 4294967000 704 1000 1000 = Some (3003, 704, 51200).
Proof. reflexivity. Qed.
(** The width sets how far apart LEDs are in the pattern. *)
Theorem C131_width : forall n m last now width speed m' l' k, 0 < width ->
  stripes_run n m last now width speed = Some (m', l', k) -> k * width <= 51200000 < (k + 1) * width.
Proof.
  intros n m last now width speed m' l' k Hw H. unfold stripes_run in H.
  destruct (imul _ _); [|discriminate]. destruct (iadd _ _); [|discriminate]. destruct (_ =? _); [discriminate|].
  injection H as _ _ <-. rewrite Z.quot_div_nonneg by lia. unfold u32.
  pose proof (Z.div_mod 51200000 width ltac:(lia)). pose proof (Z.mod_pos_bound 51200000 width Hw).
  assert (0 <= 51200000 / width <= 51200000) by (split; [apply Z.div_pos; lia|apply Z.div_le_upper_bound; nia]).
  rewrite Z.mod_small by lia. lia.
Qed.
(** Finding: a width function that returns 0 divides by zero (only the constant 0 is refused). *)
Theorem C131_zero_width_refuted : forall n m last now speed, stripes_run n m last now 0 speed = None.
Proof. intros. unfold stripes_run. destruct (imul _ _); [|reflexivity]. destruct (iadd _ _); reflexivity. Qed.
(** Finding: at speed 1000 a frame more than 2.15 seconds after the last overflows. *)
Theorem C131_pause_refuted : forall n m last width, exists now, u32 (now - u32 last) = 2150000 /\
  stripes_run n m (u32 last) now width 1000 = None.
Proof.
  intros n m last width. exists (u32 (last + 2150000)).
  assert (E : u32 (u32 (last + 2150000) - u32 last) = 2150000) by (apply u32_diff; lia).
  split; [exact E|]. unfold stripes_run, to_int. rewrite E. reflexivity.
Qed.
(** C131: with hard stripes, a pixel that lies in one stripe shows exactly its color. *)
Theorem C131_hard : forall n size cs p i c k, 1 <= n -> 341 * n < 1000000000 -> 1 <= size < 1000000000 ->
  0 <= p < 341 * n -> nth_is cs i c -> count cs = n ->
  k * (341 * n) + (p + 341 * i) <= 0 -> size <= k * (341 * n) + (p + 341 * i) + 341 ->
  hard_get cs size p (n * 341) (Color 0 0 0) = c.
Proof. exact hard_shows. Qed.
Example C131_hard_ex : -1 * (341 * 2) + (400 + 341 * 0) <= 0 /\ 50 <= -1 * (341 * 2) + (400 + 341 * 0) + 341 /\
  hard_get [oc red; oc green] 50 400 (2 * 341) (Color 0 0 0) = oc red.
Proof. repeat split; lia. Qed.
(** Finding: where two hard stripes meet, the mixed pixel is wrong, because the second stripe
    starts beyond one repetition: between two of three white stripes it has a sixth of their
    brightness. *)
Theorem C131_hard_edge_refuted : exists p, 0 <= p < 1023 /\
  hard_get [white; white; white] 50 p (3 * 341) (Color 0 0 0) = Color 10914 10914 10914.
Proof. exists 342. split; [lia|]. vm_compute. reflexivity. Qed.
(** Finding: hard stripes wider than 50000 are black, whatever the colors. *)
Theorem C131_hard_wide_refuted : forall cs m led width, 50000 < width ->
  hard_color cs m (Z.quot 51200000 width) led = Color 0 0 0.
Proof.
  intros cs m led width H. unfold hard_color.
  assert (E : Z.shiftr (51200000 ÷ width) 10 = 0).
  { rewrite Z.quot_div_nonneg by lia. rewrite Z.shiftr_div_pow2 by lia. apply Z.div_small.
    split; [apply Z.div_pos; lia|]. apply Z.div_lt_upper_bound; lia. }
  rewrite E. generalize (stripe_pos (Z.of_nat (length cs)) m (51200000 ÷ width) led). generalize (Z.of_nat (length cs) * 341).
  induction cs as [|c cs IH]; intros md p; [reflexivity|]. cbn [hard_get].
  assert (W : stripes (Range 0 0) (Range p (p + 341)) md = 0).
  { unfold stripes, stripes1. cbn [r_start r_end]. rewrite Z.sub_diag. reflexivity. }
  rewrite W. cbn [Z.eqb]. apply IH.
Qed.

Print Assumptions C129_mix.
Print Assumptions C129_ends.
Print Assumptions C129_outside.
Print Assumptions C129_outside_two_refuted.
Print Assumptions C129_gradient.
Print Assumptions C129_tip_refuted.
Print Assumptions C129_one_led_refuted.
Print Assumptions C129_ramp_refuted.
Print Assumptions C129_remap.
Print Assumptions C129_remap_same.
Print Assumptions C129_remap_reverse_refuted.
Print Assumptions C130_sequence.
Print Assumptions C130_valid.
Print Assumptions C130_late.
Print Assumptions C130_select.
Print Assumptions C130_fades.
Print Assumptions C130_jump_refuted.
Print Assumptions C131_stripes.
Print Assumptions C131_sine.
Print Assumptions C131_bright.
Print Assumptions C131_speed.
Print Assumptions C131_width.
Print Assumptions C131_zero_width_refuted.
Print Assumptions C131_pause_refuted.
Print Assumptions C131_hard.
Print Assumptions C131_hard_edge_refuted.
Print Assumptions C131_hard_wide_refuted.
