(** C75 pulses, C76 the double buffer, C77 the color ring, C78 clocked strips. *)
From Coq Require Import ZArith List Bool PeanoNat Lia.
From Verif Require Import ArithModel ColorModel ColorSpec ColorProps WireModel WireSpec WireProofs.
Import ListNotations.
Open Scope Z_scope.

(** C75: a pixel becomes the bits of its (dithered) channels in the order the pin was declared with,
    highest bit first, each bit as the pulse for one or for zero, whatever these two are. *)
Theorem C75_pulses : forall o ls frame pos zero one c,
  In (o, ls) spelled -> is16 c -> 0 <= zero < 256 -> 0 <= one < 256 ->
  read_pixel o frame pos zero one c = concat (map (pulse_bytes zero one) (map (amount (dither_xy c frame pos)) ls)).
Proof.
  intros o ls frame pos zero one c I C Z0 O1. apply read_pixel_ok; try assumption.
  - intros n N. apply (C63_dither c n C N).
  - apply C24_bytes_sent. exact I.
  - unfold spelled in I. cbn [In] in I. repeat (destruct I as [I|I]; [injection I as <- _; cbv; tauto|]). contradiction.
Qed.
Example C75_pulses_ex : pulse_bytes 3 7 0xA1 = [7; 3; 7; 3; 3; 3; 3; 7] /\
  read_pixel 0x213 0 0 3 7 (Color 0 0xffff 0) = repeat 7 8 ++ repeat 3 16.
Proof. split; reflexivity. Qed.

(** C76: a strip longer than the buffer, on a pin of the pixel timer: if every half-buffer interrupt
    is served before the next one, the bytes sent are the pixels in order without gap or repetition,
    then zeros; sending stops only after all pixels and one more byte, and then every pixel was
    fetched. The engine's memory may hold anything at the start. *)
Theorem C76_in_order : forall m0 pixels c ts,
  let cpi := chunks_per_interrupt (length m0) c (length pixels) in
  Forall (fun p => length p = c) pixels -> (0 < c)%nat -> (4 * c < length m0)%nat -> timely (cpi * c) 0 0 ts ->
  exists s w, show c cpi false m0 pixels = Some s /\ wire_run c cpi (length pixels * c) false (Wire s 0 [] 0 false) ts = Some w /\
    tx w = on_wire false pixels (length (tx w)) /\
    (finished w = true -> (length pixels * c + 1 < length (tx w))%nat /\ read_calls (eng w) = O) /\
    (finished w = false -> length (tx w) = (length ts - irqs ts)%nat /\ (irqs ts * (cpi * c) <= length pixels * c + 1)%nat).
Proof.
  intros m0 pixels c ts cpi PC C M4 TI. destruct (layout (length m0) c (length pixels) C M4) as (CP & RM & _). fold cpi in CP, RM.
  assert (R4 : (4 * c <= length m0)%nat) by lia.
  destruct (show_ok pixels c C PC cpi false m0 CP RM R4) as (s & R & E & RD & LV & DS & LS & IN & OUT).
  pose proof (start_running pixels c C cpi false m0 CP RM R4 s R RD LV DS LS IN) as RN.
  destruct (wire_ok pixels c C PC cpi false m0 CP RM R4 ts 0%nat 0%nat _ RN TI) as (w & EW & A & B & F & L & Q).
  exists s, w. split; [exact E|]. split; [exact EW|]. split.
  { apply list_nth_ext; [symmetry; apply on_wire_length|]. intros x X. rewrite on_wire_nth by exact X. apply A; [exact X|]. left. reflexivity. }
  split; [intros X; destruct (F X) as [_ F2]; split; [exact F2|apply B; lia]|].
  intros X. rewrite (L X). split; [lia|]. destruct Q as [Q|[Q|Q]]; [congruence|discriminate|]. lia.
Qed.
(** The layout of the real board meets the hypotheses: 800 bytes, 24 or 32 pulses per pixel. *)
Example C76_in_order_ex : chunks_per_interrupt 41 8 5 = 2%nat /\ circular 41 8 5 = true /\
  let pixels := [repeat 1 8; repeat 2 8; repeat 3 8; repeat 4 8; repeat 5 8] in
  let ts := repeat Tx 17 ++ Irq :: repeat Tx 15 ++ Irq :: repeat Tx 16 ++ [Irq] in
  timely 16 0 0 ts /\
  match show 8 2 false (repeat 99 41) pixels with
  | Some s => match wire_run 8 2 40 false (Wire s 0 [] 0 false) ts with Some w => tx w = concat pixels ++ repeat 0 8 /\ finished w = true | None => False end
  | None => False
  end.
Proof.
  split; [reflexivity|]. split; [reflexivity|]. cbv zeta. split; [cbn [repeat app timely]; repeat (split; [lia|]); exact I|].
  vm_compute. split; reflexivity.
Qed.

(** C76: a strip that fits in the buffer is sent in one go: right if it is shorter than the buffer. *)
Theorem C76_linear : forall m0 pixels c proxy,
  let cpi := chunks_per_interrupt (length m0) c (length pixels) in
  Forall (fun p => length p = c) pixels -> (0 < c)%nat -> (4 * c < length m0)%nat -> (length pixels * c + 1 <= cpi * c + cpi * c)%nat ->
  exists s, show c cpi proxy m0 pixels = Some s /\ linear_tx c (length pixels * c) s = on_wire proxy pixels (length pixels * c + 1) /\ read_calls s = O.
Proof.
  intros m0 pixels c proxy cpi PC C M4 B. destruct (layout (length m0) c (length pixels) C M4) as (CP & RM & _). fold cpi in CP, RM.
  destruct (linear_ok pixels c cpi proxy m0 C PC CP RM ltac:(lia)) as (s & E & L & IN & OUT & RC). exists s. split; [exact E|]. split; [|apply RC; exact B].
  apply list_nth_ext; [rewrite on_wire_length, L; lia|]. intros x X. rewrite L in X. rewrite IN by lia. rewrite on_wire_nth by lia. reflexivity.
Qed.
Example C76_linear_ex : chunks_per_interrupt 41 8 3 = 2%nat /\ circular 41 8 3 = false /\ (3 * 8 + 1 <= 2 * 8 + 2 * 8)%nat /\
  match show 8 2 true (repeat 99 41) [repeat 1 8; repeat 2 8; repeat 3 8] with
  | Some s => linear_tx 8 24 s = 0 :: repeat 1 8 ++ repeat 2 8 ++ repeat 3 8
  | None => False
  end.
Proof. split; [reflexivity|]. split; [reflexivity|]. split; [lia|]. vm_compute. reflexivity. Qed.
(** C76: but "fits" is decided with the odd total number of pixels while the buffer has an even
    number: the last pixel of a strip of 23 four-byte pixels is whatever was in memory. *)
Theorem C76_last_pixel_refuted : forall m0 pixels, length m0 = 800%nat -> length pixels = 23%nat -> Forall (fun p => length p = 32%nat) pixels ->
  let cpi := chunks_per_interrupt 800 32 23 in
  circular 800 32 23 = false /\
  exists s, show 32 cpi false m0 pixels = Some s /\ linear_tx 32 (23 * 32) s = firstn 704 (concat pixels) ++ firstn 33 (skipn 736 m0).
Proof.
  intros m0 pixels LM LP PC cpi. split; [reflexivity|]. change cpi with 11%nat. clear cpi.
  destruct (linear_ok pixels 32 11 false m0 ltac:(lia) PC ltac:(lia) ltac:(rewrite LM; lia) ltac:(rewrite LM; lia)) as (s & E & L & IN & OUT & _).
  exists s. split; [exact E|]. rewrite LP, LM in *. change (Nat.min (23 * 32 + 1) (800 - 32)) with 737%nat in L.
  assert (L1 : length (firstn 704 (concat pixels)) = 704%nat). { apply firstn_length_le. rewrite (length_pixels pixels 32 ltac:(lia) PC), LP. lia. }
  assert (L2 : length (firstn 33 (skipn 736 m0)) = 33%nat). { apply firstn_length_le. rewrite skipn_length, LM. lia. }
  apply list_nth_ext; [rewrite app_length, L1, L2, L; reflexivity|]. intros x X. rewrite L in X. destruct (Nat.ltb_spec x 704) as [Q|Q].
  - rewrite app_nth1 by lia. rewrite IN by lia. unfold S_. cbn [app]. symmetry. apply nth_firstn. exact Q.
  - rewrite app_nth2 by lia. rewrite L1, OUT by lia. rewrite nth_firstn by lia. rewrite nth_skipn. f_equal. lia.
Qed.
(** C76: and on a pin driven by proxy, a strip of 32 three-byte pixels has its last bit taken from
    memory that was never filled. *)
Theorem C76_last_bit_refuted : forall m0 pixels, length m0 = 800%nat -> length pixels = 32%nat -> Forall (fun p => length p = 24%nat) pixels ->
  let cpi := chunks_per_interrupt 800 24 32 in
  circular 800 24 32 = false /\
  exists s, show 24 cpi true m0 pixels = Some s /\ linear_tx 24 (32 * 24) s = 0 :: firstn 767 (concat pixels) ++ [nth 792 m0 0].
Proof.
  intros m0 pixels LM LP PC cpi. split; [reflexivity|]. change cpi with 16%nat. clear cpi.
  destruct (linear_ok pixels 24 16 true m0 ltac:(lia) PC ltac:(lia) ltac:(rewrite LM; lia) ltac:(rewrite LM; lia)) as (s & E & L & IN & OUT & _).
  exists s. split; [exact E|]. rewrite LP, LM in *. change (Nat.min (32 * 24 + 1) (800 - 24)) with 769%nat in L.
  assert (L1 : length (firstn 767 (concat pixels)) = 767%nat). { apply firstn_length_le. rewrite (length_pixels pixels 24 ltac:(lia) PC), LP. lia. }
  apply list_nth_ext; [cbn [length]; rewrite app_length, L1, L; reflexivity|]. intros x X. rewrite L in X. destruct (Nat.ltb_spec x 768) as [Q|Q].
  - rewrite IN by lia. unfold S_. cbn [app]. destruct x as [|x]; [reflexivity|]. cbn [nth]. rewrite app_nth1 by lia. symmetry. apply nth_firstn. lia.
  - rewrite OUT by lia. replace x with 768%nat by lia. cbn [nth]. rewrite app_nth2 by lia. rewrite L1. reflexivity.
Qed.
(** C76: a long strip on such a pin: every byte is right except possibly the first of each half
    buffer after the first whole one. *)
Theorem C76_proxy : forall m0 pixels c ts,
  let cpi := chunks_per_interrupt (length m0) c (length pixels) in
  Forall (fun p => length p = c) pixels -> (0 < c)%nat -> (4 * c < length m0)%nat -> timely (cpi * c) 0 0 ts ->
  exists s w, show c cpi true m0 pixels = Some s /\ wire_run c cpi (length pixels * c) true (Wire s 0 [] 0 false) ts = Some w /\
    length (tx w) = (length ts - irqs ts)%nat /\
    (forall x, (x < length (tx w))%nat -> (x < cpi * c + cpi * c)%nat \/ (x mod (cpi * c) <> 0)%nat ->
       nth x (tx w) 0 = nth x (on_wire true pixels (length (tx w))) 0) /\
    ((length pixels * c + 1 <= length (tx w))%nat -> read_calls (eng w) = O).
Proof.
  intros m0 pixels c ts cpi PC C M4 TI. destruct (layout (length m0) c (length pixels) C M4) as (CP & RM & _). fold cpi in CP, RM.
  assert (R4 : (4 * c <= length m0)%nat) by lia.
  destruct (show_ok pixels c C PC cpi true m0 CP RM R4) as (s & R & E & RD & LV & DS & LS & IN & OUT).
  pose proof (start_running pixels c C cpi true m0 CP RM R4 s R RD LV DS LS IN) as RN.
  destruct (wire_ok pixels c C PC cpi true m0 CP RM R4 ts 0%nat 0%nat _ RN TI) as (w & EW & A & B & F & L & Q).
  exists s, w. split; [exact E|]. split; [exact EW|].
  assert (FN : finished w = false). { destruct (finished w); [destruct (F eq_refl); discriminate|reflexivity]. }
  split; [rewrite (L FN); lia|]. split; [|exact B].
  intros x X G. rewrite on_wire_nth by exact X. apply A; [exact X|]. right. exact G.
Qed.
Example C76_proxy_ex : chunks_per_interrupt 41 8 5 = 2%nat /\
  let pixels := [repeat 1 8; repeat 2 8; repeat 3 8; repeat 4 8; repeat 5 8] in
  let ts := repeat Tx 20 ++ Irq :: repeat Tx 20 in
  timely 16 0 0 ts /\
  match show 8 2 true (repeat 99 41) pixels with
  | Some s => match wire_run 8 2 40 true (Wire s 0 [] 0 false) ts with Some w => tx w = 0 :: firstn 31 (concat pixels) ++ 3 :: repeat 5 7 | None => False end
  | None => False
  end.
Proof.
  split; [reflexivity|]. cbv zeta. split; [cbn [repeat app timely]; repeat (split; [lia|]); exact I|]. vm_compute. reflexivity.
Qed.
(** C76: and that byte is wrong: an array of words is indexed as if it were bytes, so the last bit of
    one pixel is replaced by a bit of the third pixel of the frame. *)
Theorem C76_proxy_refuted : forall m0 pixels c,
  let cpi := chunks_per_interrupt (length m0) c (length pixels) in
  Forall (fun p => length p = c) pixels -> (1 < c)%nat -> (4 * c < length m0)%nat -> (3 * c - 4 < cpi * c + cpi * c)%nat ->
  exists ts s w, timely (cpi * c) 0 0 ts /\ show c cpi true m0 pixels = Some s /\
    wire_run c cpi (length pixels * c) true (Wire s 0 [] 0 false) ts = Some w /\
    length (tx w) = (cpi * c + cpi * c + 1)%nat /\
    nth (cpi * c + cpi * c) (tx w) 0 = nth (3 * c - 5) (concat pixels) 0 /\
    nth (cpi * c + cpi * c) (on_wire true pixels (length (tx w))) 0 = nth (cpi * c + cpi * c - 1) (concat pixels) 0.
Proof.
  intros m0 pixels c cpi PC C M4 CN. destruct (layout (length m0) c (length pixels) ltac:(lia) M4) as (CP & RM & _). fold cpi in CP, RM.
  destruct (proxy_wrong pixels c ltac:(lia) PC cpi true m0 CP RM ltac:(lia) eq_refl C CN) as (TI & s & w & E & EW & L & N).
  eexists _, s, w. split; [exact TI|]. split; [exact E|]. split; [exact EW|]. split; [exact L|]. split; [exact N|].
  rewrite on_wire_nth by lia. unfold S_. cbn [app]. destruct (cpi * c + cpi * c)%nat eqn:Q; [nia|]. cbn [nth]. f_equal. lia.
Qed.
Example C76_proxy_refuted_ex : chunks_per_interrupt 800 24 33 = 16%nat /\ circular 800 24 33 = true /\ (3 * 24 - 4 < 16 * 24 + 16 * 24)%nat.
Proof. split; [vm_compute; reflexivity|]. split; [vm_compute; reflexivity|]. lia. Qed.

(** C77: blades share one ring of colors. Whatever the interleaving of drawing, queueing, fetching
    and interrupts, as long as the blades keep to their turns and waits: the pixels fetched are those
    of the frames announced, in that order, each frame as it was when announced and each pixel for
    the blade that drew it; a frame that is over was fetched completely. *)
Theorem C77_frames : forall leds size b os s d out,
  (0 < size)%nat -> length b = size -> play leds size (ring0 b) draft0 os = Some (s, d, out) ->
  exists part, out = flat_map tagged (firstn (dones os) (frames d)) ++ part /\
  (if dma_done s then part = []
   else exists f, nth_error (frames d) (dones os) = Some f /\ hd_error (queue s) = Some (fst f) /\
                  part = firstn (leds (fst f) - calls s) (tagged f) /\ (length part + calls s = leds (fst f))%nat).
Proof.
  intros leds size b os s d out SP L P. apply (inv_out leds size). pose proof (play_inv leds size SP os _ _ _ _ _ _ _ (inv0 leds size SP b L) P) as I. exact I.
Qed.
(** C77: no blade is queued twice, the ring never overflows, and once nothing is queued every frame
    announced has been sent and the whole ring is free. *)
Theorem C77_drained : forall leds size b os s d out,
  (0 < size)%nat -> length b = size -> play leds size (ring0 b) draft0 os = Some (s, d, out) ->
  NoDup (queue s) /\ (used s <= size)%nat /\ (length out + used s = length (flat_map tagged (frames d)))%nat /\
  (queue s = [] -> pending d = None -> out = flat_map tagged (frames d) /\ used s = O).
Proof.
  intros leds size b os s d out SP L P. apply (inv_room leds size s d (dones os)). pose proof (play_inv leds size SP os _ _ _ _ _ _ _ (inv0 leds size SP b L) P) as I. exact I.
Qed.
Definition three (i : nat) : nat := match i with O => 2%nat | _ => 3%nat end.
Definition col (n : Z) : color := Color n 0 0.
Example C77_ex :
  let os := [Begin 0; Set_ 0 1 (col 2); Set_ 0 0 (col 1); EndAdd 0; EndQueue 0; Kick; Read; Begin 1; Read; Set_ 1 0 (col 3); Set_ 1 1 (col 4); Done; Set_ 1 2 (col 5); EndAdd 1; EndQueue 1; Kick; Read; Read; Read; Done] in
  match play three 4 (ring0 (repeat (col 0) 4)) draft0 os with
  | Some (s, d, out) => out = [(0%nat, col 1); (0%nat, col 2); (1%nat, col 3); (1%nat, col 4); (1%nat, col 5)] /\ queue s = [] /\ ptr s = 1%nat
  | None => False
  end.
Proof. vm_compute. repeat split. Qed.

(** C78: a clocked strip: each byte highest bit first; a frame is zeros, then for every pixel a
    byte with three ones and a level of at most 31 and the channels in the declared order, then ones. *)
Theorem C78_bits : forall n, 0 <= n < 256 -> out_byte n = bits_of n.
Proof. exact out_byte_ok. Qed.
Theorem C78_pixel : forall o ls c, In (o, ls) spelled -> is16 c ->
  exists level bytes, out_color o c = 224 + level :: bytes /\ 0 <= level <= 31 /\ length bytes = length ls /\ Forall (fun x => 0 <= x < 256) bytes /\
  (level = 0 <-> spi_max c < 4) /\
  (spi_max c * 7930 < 2 ^ 24 * level -> forall i, (i < length ls)%nat -> let x := nth i bytes 0 in
     x * level * 65536 <= nth i (map (amount c) ls) 0 * 7930 < (x + 2) * level * 65536).
Proof.
  intros o ls c I C. destruct (level_range c C) as [LR MR]. pose proof (C24_bytes_sent o ls c I) as SE.
  exists (output_level c). eexists. unfold out_color. cbv zeta. split; [rewrite lor_E0 by exact LR; reflexivity|]. split; [exact LR|].
  assert (LL : length ls = Z.to_nat (num_bytes o)). { rewrite <- (map_length (amount c) ls), <- SE. unfold sent. rewrite map_length, seq_length. reflexivity. }
  split; [rewrite map_length, seq_length; symmetry; exact LL|].
  split. { apply Forall_forall. intros x X. apply in_map_iff in X. destruct X as (k & <- & _). unfold u8. apply Z.mod_pos_bound. lia. }
  split. { unfold output_level. split; intros H.
    - assert (spi_max c + 2113 < 2117); [|lia]. pose proof (Z.div_mod (spi_max c + 2113) 2117 ltac:(lia)). pose proof (Z.mod_pos_bound (spi_max c + 2113) 2117 ltac:(lia)). lia.
    - apply Z.div_small. lia. }
  intros W i Q. cbv zeta.
  assert (L1 : 1 <= output_level c) by lia. destruct (Z.eqb_spec (output_level c) 0); [lia|].
  set (f := fun k => getByte c o (num_bytes o - 1 - Z.of_nat k)).
  assert (V : nth i (map (amount c) ls) 0 = f i).
  { rewrite <- SE. unfold sent. fold f. rewrite (nth_indep _ 0 (f 0%nat)) by (rewrite map_length, seq_length; lia). rewrite map_nth, seq_nth by lia. reflexivity. }
  rewrite V. set (h := fun k => u8 (Z.shiftr (getByte c o (num_bytes o - 1 - Z.of_nat k) * (7930 / output_level c)) 16)).
  replace (nth i (map h (seq 0 (Z.to_nat (num_bytes o)))) 0) with (h i).
  2:{ rewrite (nth_indep _ 0 (h 0%nat)) by (rewrite map_length, seq_length; lia). rewrite map_nth, seq_nth by lia. reflexivity. }
  pose proof (getByte_max c o (num_bytes o - 1 - Z.of_nat i) C) as GB. unfold h, f.
  apply (bright (getByte c o (num_bytes o - 1 - Z.of_nat i)) (output_level c)); [lia|lia|].
  assert (M : output_level c * (7930 / output_level c) <= 7930) by (apply Z.mul_div_le; lia).
  set (v := getByte c o (num_bytes o - 1 - Z.of_nat i)) in *. set (m := 7930 / output_level c) in *. set (L := output_level c) in *.
  assert (A1 : v * (L * m) <= spi_max c * 7930). { assert (0 <= L * m) by (apply Z.mul_nonneg_nonneg; [lia|apply Z.div_pos; lia]). apply Z.mul_le_mono_nonneg; lia. }
  apply (Z.mul_lt_mono_pos_l L); lia.
Qed.
Example C78_pixel_ex : out_color 0x321 (Color 65535 32768 2115) = [255; 8; 127; 254] /\ spi_max (Color 65535 32768 2115) * 7930 < 2 ^ 24 * 31.
Proof. split; reflexivity. Qed.
Theorem C78_frame : forall o ls cs, In (o, ls) spelled ->
  spi_frame o cs = repeat 0 (length ls + 1) ++ flat_map (out_color o) cs ++ repeat 255 (length ls + 1) /\
  length (spi_frame o cs) = ((length ls + 1) * (length cs + 2))%nat.
Proof.
  intros o ls cs I. assert (LL : Z.to_nat (num_bytes o + 1) = (length ls + 1)%nat).
  { unfold spelled in I. cbn [In] in I. repeat (destruct I as [I|I]; [injection I as <- <-; reflexivity|]). contradiction. }
  unfold spi_frame. rewrite LL, flat_map_concat_map. split; [reflexivity|].
  rewrite !app_length, !repeat_length. assert (X : length (concat (map (out_color o) cs)) = ((length ls + 1) * length cs)%nat).
  { induction cs as [|c cs IH]; cbn [map concat length]; [lia|]. rewrite app_length, IH. unfold out_color. cbv zeta. cbn [length]. rewrite map_length, seq_length.
    assert (Z.to_nat (num_bytes o) = length ls) by (assert (0 <= num_bytes o) by (unfold num_bytes; destruct (o <=? 15); [|destruct (o <=? 4095)]; lia); lia). lia. }
  lia.
Qed.
Example C78_frame_ex : spi_frame 0x321 [Color 0 0 65535] = [0; 0; 0; 0; 255; 254; 0; 0; 255; 255; 255; 255].
Proof. reflexivity. Qed.
(** C78: at the top of a brightness band the byte is cut to 8 bits: a grey of 2115 is shown at full
    level-1 brightness, the slightly brighter 2120 is black. *)
Theorem C78_dark_refuted :
  out_color 0x321 (Color 2115 2115 2115) = [225; 255; 255; 255] /\ out_color 0x321 (Color 2120 2120 2120) = [225; 0; 0; 0].
Proof. split; reflexivity. Qed.

Print Assumptions C75_pulses.
Print Assumptions C76_in_order.
Print Assumptions C76_linear.
Print Assumptions C76_last_pixel_refuted.
Print Assumptions C76_last_bit_refuted.
Print Assumptions C76_proxy.
Print Assumptions C76_proxy_refuted.
Print Assumptions C77_frames.
Print Assumptions C77_drained.
Print Assumptions C78_bits.
Print Assumptions C78_pixel.
Print Assumptions C78_frame.
Print Assumptions C78_dark_refuted.
