(** C23 mixing, C24 byte orders, C25 layers, C63 dithering and selection, C64 hue rotation. *)
From Coq Require Import ZArith List Bool Lia.
From Verif Require Import ArithModel ColorModel ColorSpec ColorProofs.
Import ListNotations.
Open Scope Z_scope.

(** C23 *)
Theorem C23_mix8 : proper_mix is8 256 c8_mix /\ proper_mix is8 16384 c8_mix2 /\ proper_mix is8 32768 c8_mix3.
Proof.
  split; [|split]; [exact (proper u8 255 8 u8_id ltac:(lia))|exact (proper u8 255 14 u8_id ltac:(lia))|exact (proper u8 255 15 u8_id ltac:(lia))].
Qed.
Theorem C23_mix16 : proper_mix is16 256 c16_mix /\ proper_mix is16 16384 c16_mix2 /\ proper_mix is16 32768 c16_mix3.
Proof.
  split; [|split]; [exact (proper u16 65535 8 u16_id ltac:(lia))|exact (proper u16 65535 14 u16_id ltac:(lia))|exact (proper u16 65535 15 u16_id ltac:(lia))].
Qed.
Theorem C23_mixcolors : forall s od1 od2, 0 <= s <= 15 ->
  proper_mix is16 (2 ^ s) (fun a o x => oc (mix_opaque (Opaque a od1) (Opaque o od2) x s)).
Proof. exact mix_opaque_proper. Qed.
(** C23: scaling a color by a byte is division by 255, rounded down: 255 keeps it and 0 is black;
    the union of two colors is the brighter in each channel. *)
Theorem C23_scale_union : forall a o v, is8 a -> is8 o -> 0 <= v <= 255 ->
  each2 (fun x y => 255 * x <= y * v < 255 * x + 255) (c8_scale a v) a /\
  c8_scale a 255 = a /\ is8 (c8_max a o) /\
  each2 Z.le a (c8_max a o) /\ each2 Z.le o (c8_max a o) /\
  (forall c, each2 Z.le a c -> each2 Z.le o c -> each2 Z.le (c8_max a o) c).
Proof. exact scale_union. Qed.
Example C23_scale_ex : is8 (Color 200 7 0) /\ c8_scale (Color 200 7 0) 128 = Color 100 3 0 /\ c8_max (Color 200 7 0) (Color 3 9 0) = Color 200 9 0.
Proof. vm_compute. intuition discriminate. Qed.
(** C23 finding: the "clamped" mix lets 65536 through, which is stored as 0: a mix of
    black and white beyond full scale comes out black. *)
Theorem C23_mix_clamped_refuted : exists a o x, is16 a /\ is16 o /\ 256 < x /\
  ~ each2 (fun m o => o <= m) (c16_mix_clamped a o x) o.
Proof.
  exists (Color 0 0 0), (Color 65535 65535 65535), 512. repeat split; cbn; try lia.
  vm_compute. intros (H & _). apply H. reflexivity.
Qed.
Example C23_ex : is16 (Color 0 65535 300) /\ c16_mix (Color 0 65535 300) (Color 65535 0 301) 128 = Color 32767 32767 300.
Proof. vm_compute. repeat split; discriminate. Qed.

(** C24: the bytes sent are what the order's name spells. *)
Theorem C24_bytes_sent : forall o ls c, In (o, ls) spelled -> sent c o = map (amount c) ls.
Proof.
  intros o ls c H. unfold spelled in H. cbn [In] in H.
  repeat (destruct H as [H|H]; [injection H as <- <-; reflexivity|]). contradiction.
Qed.
(** C24: combining two three-channel orders composes them. *)
Theorem C24_combine : forall o1 o2 c, In o1 rgb_orders -> In o2 rgb_orders ->
  exists o, combine_byteorder o1 o2 = Some o /\ In o rgb_orders /\ sent c o = sent (as_color (sent c o2)) o1.
Proof.
  intros o1 o2 c H1 H2. unfold rgb_orders in H1, H2. cbn [In] in H1, H2.
  repeat (destruct H1 as [<- | H1]; [repeat (destruct H2 as [<- | H2]; [eexists; split; [vm_compute; reflexivity|split; [vm_compute; tauto|reflexivity]]|]); contradiction|]).
  contradiction.
Qed.
(** C24: inverting a three-channel order undoes it, from both sides. *)
Theorem C24_invert : forall o, In o rgb_orders ->
  exists i, invert_byteorder o = Some i /\ combine_byteorder i o = Some RGB /\ combine_byteorder o i = Some RGB.
Proof.
  intros o H. unfold rgb_orders in H. cbn [In] in H.
  repeat (destruct H as [<- | H]; [eexists; split; [vm_compute; reflexivity|split; vm_compute; reflexivity]|]). contradiction.
Qed.
(** C24: with an energy-efficient order, white plus what is left makes the color again. *)
Theorem C24_eco : forall o c, In o eco_orders -> is8 c ->
  Forall (fun x => 0 <= x <= 255) (sent c o) /\
  Z.min (r c) (Z.min (g c) (b c)) + amount c Lr = r c /\ Z.min (r c) (Z.min (g c) (b c)) + amount c Lg = g c /\
  Z.min (r c) (Z.min (g c) (b c)) + amount c Lb = b c.
Proof.
  intros o c H (R & G & B). split; [|cbn; lia].
  assert (L : exists ls, In (o, ls) spelled).
  { unfold eco_orders in H. cbn [In] in H. repeat (destruct H as [<- | H]; [eexists; unfold spelled; cbn [In]; tauto|]). contradiction. }
  destruct L as (ls & L). rewrite (C24_bytes_sent o ls c L). apply Forall_forall. intros x X. apply in_map_iff in X as (l & <- & _).
  destruct l; cbn; lia.
Qed.
(** C24 finding: both operations are undefined (negative shift) for every RGBW order. *)
Theorem C24_rgbw_refuted : forall o, In o (rgbw_orders ++ eco_orders) ->
  invert_byteorder o = None /\ combine_byteorder o RGB = None.
Proof.
  intros o H. cbn in H. repeat (destruct H as [<- | H]; [split; vm_compute; reflexivity|]). contradiction.
Qed.
Example C24_ex : sent (Color 1 2 3) GRB = [2; 1; 3] /\ sent (Color 10 20 15) GRBw = [10; 0; 5; 10] /\
  combine_byteorder GRB BGR = Some 0x231.
Proof. vm_compute. auto. Qed.

(** C25: every way of painting a layer over another stays in range. *)
Theorem C25_in_range : forall o u p u' p',
  opaque_ok o -> um_ok u -> pm_ok p -> um_ok u' -> pm_ok p' ->
  opaque_ok (opaque_over_um o u') /\ opaque_ok (opaque_over_pm o p') /\
  pm_ok (um_over_um u u') /\ pm_ok (um_over_pm u p') /\ pm_ok (pm_over_um p u') /\ pm_ok (pm_over_pm p p').
Proof.
  intros o u p u' p' O U P U' P'.
  split; [apply opaque_over_um_ok; assumption|]. split; [apply opaque_over_pm_ok; assumption|].
  split; [apply um_over_um_ok; assumption|]. split; [apply um_over_pm_ok; assumption|].
  split; [apply pm_over_um_ok; assumption|apply pm_over_pm_ok; assumption].
Qed.
(** C25: conversions, fading and mixing of layers stay in range. *)
Theorem C25_ops_in_range : forall u p p' x s,
  um_ok u -> pm_ok p -> pm_ok p' -> 0 <= s <= 15 -> 0 <= x <= 2 ^ s ->
  pm_ok (pm_of_um u) /\ pm_ok (pm_mul p x) /\ pm_ok (mix_pm p p' x s).
Proof.
  intros u p p' x s U P P' S X. assert (2 ^ s <= 32768) by (change 32768 with (2 ^ 15); apply Z.pow_le_mono_r; lia).
  split; [apply pm_of_um_ok; assumption|]. split; [apply pm_mul_ok; [assumption|lia]|apply mix_pm_ok; assumption].
Qed.
(** C25: fading a layer multiplies its opacity (rounded down) and leaves its color alone. *)
Theorem C25_fade : forall u o x, um_ok u -> opaque_ok o -> 0 <= x <= 32768 ->
  um_ok (um_mul u x) /\ uc (um_mul u x) = uc u /\ 32768 * ua (um_mul u x) <= ua u * x < 32768 * ua (um_mul u x) + 32768 /\
  um_mul u 32768 = u /\ um_ok (opaque_mul o x) /\ uc (opaque_mul o x) = oc o /\ ua (opaque_mul o x) = x.
Proof. exact fade_ok. Qed.
Example C25_fade_ex : um_ok (UM (Color 65535 1000 0) 20000 true) /\ um_mul (UM (Color 65535 1000 0) 20000 true) 16384 = UM (Color 65535 1000 0) 10000 true.
Proof. vm_compute. intuition discriminate. Qed.
(** C25: an opaque layer hides what is below it. *)
Theorem C25_opaque_hides : forall base_o base_u base_p over_u over_p,
  opaque_ok base_o -> um_ok base_u -> pm_ok base_p -> um_ok over_u -> pm_ok over_p ->
  ua over_u = 32768 -> pa over_p = 32768 ->
  opaque_over_um base_o over_u = Opaque (uc over_u) (u_od over_u) /\
  opaque_over_pm base_o over_p = Opaque (pc over_p) (p_od over_p) /\
  um_over_um base_u over_u = PM (uc over_u) 32768 (u_od over_u) /\
  um_over_pm base_u over_p = over_p /\
  pm_over_um base_p over_u = PM (uc over_u) 32768 (u_od over_u) /\
  pm_over_pm base_p over_p = over_p.
Proof. exact hide_all. Qed.
(** C25: a fully transparent layer changes nothing. *)
Theorem C25_transparent_neutral : forall base_o base_u base_p over_u over_p,
  opaque_ok base_o -> um_ok base_u -> pm_ok base_p -> um_ok over_u -> pm_ok over_p ->
  ua over_u = 0 -> pa over_p = 0 ->
  opaque_over_um base_o over_u = base_o /\
  opaque_over_pm base_o over_p = base_o /\
  um_over_um base_u over_u = pm_of_um base_u /\
  um_over_pm base_u over_p = pm_of_um base_u /\
  pm_over_um base_p over_u = base_p /\
  pm_over_pm base_p over_p = base_p.
Proof. exact clear_all. Qed.
(** C25: an opaque base under an unmultiplied layer shows a color between the two. *)
Theorem C25_between : forall base over, opaque_ok base -> um_ok over ->
  each3 between (oc (opaque_over_um base over)) (oc base) (uc over).
Proof. intros. apply opaque_over_um_ok; assumption. Qed.
(** C25: painting two layers in turn or flattening them first gives the same color up to
    three steps of 1/65536. *)
Theorem C25_flatten : forall base a o, opaque_ok base -> pm_ok a -> pm_ok o ->
  each2 (fun x y => -3 <= x - y <= 1) (oc (opaque_over_pm base (pm_over_pm a o))) (oc (opaque_over_pm (opaque_over_pm base a) o)).
Proof. exact flatten_ok. Qed.
(** C25 finding: converting a premultiplied color without overdrive to one with overdrive
    multiplies by alpha a second time, so the layer gets darker. *)
Theorem C25_conversion_refuted : exists base p, opaque_ok base /\ pm_ok p /\ p_od p = false /\
  opaque_over_pm base (pm_of_nod p) <> opaque_over_pm base p.
Proof.
  exists (Opaque (Color 0 0 0) false), (PM (Color 32767 0 0) 16384 false). repeat split; cbn; try lia. vm_compute. discriminate.
Qed.
Example C25_ex :
  um_ok (UM (Color 65535 1000 0) 20000 true) /\ pm_ok (PM (Color 30000 5 0) 16384 false) /\
  opaque_over_um (Opaque (Color 0 65535 4) false) (UM (Color 65535 1000 0) 20000 true) = Opaque (Color 39999 26145 1) true.
Proof. vm_compute. repeat split; discriminate. Qed.

(** C63: reducing 16-bit channels to 8 bits with dithering: in range, at most one step from
    plain truncation, the two implementations agree, and 8-bit colors survive exactly. *)
Theorem C63_dither : forall c n, is16 c -> -255 <= n <= 255 ->
  is8 (dither c n) /\ dither_m4 c n = dither c n /\
  each2 (fun d c => c / 256 - 1 <= d <= c / 256 + 1) (dither c n) c.
Proof.
  intros c n (R & G & B) N.
  pose proof (dither_channel (r c) n R N) as (R1 & R2 & R3). pose proof (dither_channel (g c) n G N) as (G1 & G2 & G3).
  pose proof (dither_channel (b c) n B N) as (B1 & B2 & B3).
  split; [exact (conj R1 (conj G1 B1))|]. split; [apply color_eq; symmetry; assumption|exact (conj R2 (conj G2 B2))].
Qed.
Theorem C63_undithered_exact : forall c, is8 c -> dither (c16_of_c8 c) 0 = c.
Proof.
  intros c (R & G & B).
  assert (K : forall v, 0 <= v <= 255 -> u8 (clampi32 (Z.shiftr (u16 (v * 257) + 0) 8) 0 255) = v).
  { intros v V. rewrite u16_id by lia. rewrite shr8. unfold clampi32, u8.
    destruct ((v * 257 + 0) / 256 <? 0) eqn:E1; [Z.div_mod_to_equations; lia|].
    destruct ((v * 257 + 0) / 256 >? 255) eqn:E2; Z.div_mod_to_equations; lia. }
  apply color_eq; cbn [r g b map1 dither c16_of_c8]; apply K; assumption.
Qed.
(** C63: over a 4 by 4 tile the average of the dithered value is within 0.55 steps of the
    exact 8-bit value c / 257. *)
Theorem C63_tile_average : forall v, 0 <= v <= 65535 ->
  let total := fold_right Z.add 0 (map (fun n => r (dither (Color v v v) n)) (concat dither_matrix)) in
  -2258 <= 257 * total - 16 * v <= 2258.
Proof. exact tile_average. Qed.
(** C63: positions repeat every four LEDs in both directions and use every matrix entry. *)
Theorem C63_tile : forall c x y,
  dither_xy c (x + 4)%Z y = dither_xy c x y /\ dither_xy c x (y + 4) = dither_xy c x y /\
  (0 <= x < 4 -> 0 <= y < 4 -> dither_xy c x y = dither c (nth (Z.to_nat (4 * x + y)) (concat dither_matrix) 0)%Z).
Proof.
  intros c x y. unfold dither_xy. change 3 with (Z.ones 2). rewrite !Z.land_ones by lia. change (2 ^ 2) with 4.
  replace (x + 4) with (x + 1 * 4) by lia. replace (y + 4) with (y + 1 * 4) by lia. rewrite !Z_mod_plus_full.
  split; [reflexivity|]. split; [reflexivity|]. intros X Y. rewrite !Z.mod_small by lia. f_equal.
  assert (x = 0 \/ x = 1 \/ x = 2 \/ x = 3) as [-> | [-> | [-> | ->]]] by lia;
  assert (y = 0 \/ y = 1 \/ y = 2 \/ y = 3) as [-> | [-> | [-> | ->]]] by lia; reflexivity.
Qed.
(** C63: select gives the largest fraction of the second color that fits under the first. *)
Theorem C63_select : forall top a o, 0 <= top -> is16 a -> is16 o ->
  let v := select top a o in
  0 <= v <= top /\ each2 (fun a o => o * v <= a * top) a o /\
  (v < top -> ~ each2 (fun a o => o * (v + 1) <= a * top) a o).
Proof. exact select_scan. Qed.
Example C63_ex : select 255 (Color 100 50 0) (Color 200 90 0) = 127 /\ dither_xy (Color 300 65535 10) 0 1 = Color 1 255 0 /\
  dither (Color 300 65535 10) (-76) = Color 0 255 0.
Proof. vm_compute. auto. Qed.

(** C64: rotating the hue by any angle keeps the brightest and darkest channel values. *)
Theorem C64_rotate : forall c angle, is16 c -> 0 <= angle ->
  let d := rotate c angle in
  is16 d /\ Z.max (r d) (Z.max (g d) (b d)) = Z.max (r c) (Z.max (g c) (b c)) /\
  Z.min (r d) (Z.min (g d) (b d)) = Z.min (r c) (Z.min (g c) (b c)).
Proof. exact rotate_ok. Qed.
Example C64_ex : rotate (Color 65535 1000 0) 32768 = Color 0 65535 1000 /\ rotate (Color 5 5 5) 777 = Color 5 5 5.
Proof. vm_compute. auto. Qed.

Print Assumptions C23_mix16.
Print Assumptions C24_combine.
Print Assumptions C25_flatten.
Print Assumptions C25_opaque_hides.
Print Assumptions C63_tile_average.
Print Assumptions C64_rotate.
Print Assumptions C23_mix8.
Print Assumptions C23_mixcolors.
Print Assumptions C23_mix_clamped_refuted.
Print Assumptions C24_bytes_sent.
Print Assumptions C24_invert.
Print Assumptions C24_eco.
Print Assumptions C24_rgbw_refuted.
Print Assumptions C25_in_range.
Print Assumptions C25_ops_in_range.
Print Assumptions C25_transparent_neutral.
Print Assumptions C25_between.
Print Assumptions C25_conversion_refuted.
Print Assumptions C63_dither.
Print Assumptions C63_undithered_exact.
Print Assumptions C63_tile.
Print Assumptions C63_select.
Print Assumptions C23_scale_union.
Print Assumptions C25_fade.
