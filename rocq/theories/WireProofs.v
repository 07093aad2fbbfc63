(** Proofs about WireModel. *)
From Coq Require Import ZArith List Bool PeanoNat Lia ZifyBool ZifyNat.
From Verif Require Import ArithModel ColorModel ColorSpec WireModel WireSpec.
Import ListNotations.
Open Scope Z_scope.

(** ** One pixel *)
Lemma byte_lxor u v k : 0 <= k -> Z.lxor u v / 2 ^ k mod 2 ^ 8 = Z.lxor (u / 2 ^ k mod 2 ^ 8) (v / 2 ^ k mod 2 ^ 8).
Proof.
  intros K. apply Z.bits_inj'. intros n N. rewrite Z.lxor_spec. destruct (Z.ltb_spec n 8) as [L|L].
  - rewrite !Z.mod_pow2_bits_low by lia. rewrite !Z.div_pow2_bits by lia. apply Z.lxor_spec.
  - rewrite !Z.mod_pow2_bits_high by lia. reflexivity.
Qed.
Lemma byte_lxor0 u v : Z.lxor u v mod 256 = Z.lxor (u mod 256) (v mod 256).
Proof. pose proof (byte_lxor u v 0 ltac:(lia)) as H. change (2 ^ 0) with 1 in H. rewrite !Z.div_1_r in H. exact H. Qed.
Lemma bytes4_lxor u v : bytes4 (Z.lxor u v) = map (fun p => Z.lxor (fst p) (snd p)) (combine (bytes4 u) (bytes4 v)).
Proof.
  unfold bytes4. cbn [combine map fst snd]. rewrite byte_lxor0.
  pose proof (byte_lxor u v 8 ltac:(lia)) as A. pose proof (byte_lxor u v 16 ltac:(lia)) as B. pose proof (byte_lxor u v 24 ltac:(lia)) as C.
  change (2 ^ 8) with 256 in *. change (2 ^ 16) with 65536 in *. change (2 ^ 24) with 16777216 in *.
  rewrite A, B, C. reflexivity.
Qed.
Lemma bytes4_make a0 a1 a2 a3 : 0 <= a0 < 256 -> 0 <= a1 < 256 -> 0 <= a2 < 256 -> 0 <= a3 < 256 ->
  bytes4 (u32 (a0 + 256 * a1 + 65536 * a2 + 16777216 * a3)) = [a0; a1; a2; a3].
Proof.
  intros H0 H1 H2 H3. unfold bytes4, u32. rewrite (Z.mod_small _ 4294967296) by lia.
  assert (D : forall a q, 0 <= a < 256 -> (a + 256 * q) mod 256 = a /\ (a + 256 * q) / 256 = q).
  { intros a q A. split; symmetry; [apply Z.mod_unique with q | apply Z.div_unique with a]; lia. }
  replace 65536 with (256 * 256) by lia. replace 16777216 with (256 * 256 * 256) by lia. rewrite <- !Z.div_div by lia.
  replace (a0 + 256 * a1 + 256 * 256 * a2 + 256 * 256 * 256 * a3) with (a0 + 256 * (a1 + 256 * (a2 + 256 * a3))) by lia.
  destruct (D a0 (a1 + 256 * (a2 + 256 * a3)) H0) as [-> ->]. destruct (D a1 (a2 + 256 * a3) H1) as [-> ->].
  destruct (D a2 a3 H2) as [-> ->]. rewrite Z.mod_small by lia. reflexivity.
Qed.
Definition spread (b0 b1 b2 b3 : bool) : Z := Z.b2z b0 + 256 * Z.b2z b1 + 65536 * Z.b2z b2 + 16777216 * Z.b2z b3.
Lemma spread_table : forallb (fun b =>
   (Z.land (Z.shiftr (u32 (b * 0x8040201)) 7) 0x01010101 =? spread (Z.testbit b 7) (Z.testbit b 6) (Z.testbit b 5) (Z.testbit b 4))
   && (Z.land (Z.shiftr (u32 (b * 0x8040201)) 3) 0x01010101 =? spread (Z.testbit b 3) (Z.testbit b 2) (Z.testbit b 1) (Z.testbit b 0)))
   (map Z.of_nat (seq 0 256)) = true.
Proof. vm_compute. reflexivity. Qed.
Lemma spread_ok b : 0 <= b < 256 ->
  Z.land (Z.shiftr (u32 (b * 0x8040201)) 7) 0x01010101 = spread (Z.testbit b 7) (Z.testbit b 6) (Z.testbit b 5) (Z.testbit b 4) /\
  Z.land (Z.shiftr (u32 (b * 0x8040201)) 3) 0x01010101 = spread (Z.testbit b 3) (Z.testbit b 2) (Z.testbit b 1) (Z.testbit b 0).
Proof.
  intros B. pose proof (proj1 (forallb_forall _ _) spread_table b) as H.
  assert (I : In b (map Z.of_nat (seq 0 256))). { apply in_map_iff. exists (Z.to_nat b). rewrite in_seq. lia. }
  specialize (H I). cbv beta in H. apply andb_true_iff in H. rewrite !Z.eqb_eq in H. exact H.
Qed.
Lemma lxor_byte a b : 0 <= a < 256 -> 0 <= b < 256 -> 0 <= Z.lxor a b < 256.
Proof.
  intros A B. assert (E : Z.lxor a b = Z.lxor a b mod 2 ^ 8).
  { pose proof (byte_lxor0 a b) as H. change (2 ^ 8) with 256. rewrite H. rewrite (Z.mod_small a), (Z.mod_small b) by lia. reflexivity. }
  rewrite E. apply Z.mod_pos_bound. lia.
Qed.
Lemma four zero one b0 b1 b2 b3 : 0 <= zero < 256 -> 0 <= one < 256 ->
  bytes4 (Z.lxor (zero4X zero) (u32 (spread b0 b1 b2 b3 * Z.lxor one zero)))
  = map (fun b : bool => if b then one else zero) [b0; b1; b2; b3].
Proof.
  intros Z0 O1. pose proof (lxor_byte one zero O1 Z0) as X. set (x := Z.lxor one zero) in *.
  rewrite bytes4_lxor. unfold zero4X.
  replace (zero * 0x01010101) with (zero + 256 * zero + 65536 * zero + 16777216 * zero) by lia.
  rewrite bytes4_make by lia.
  replace (spread b0 b1 b2 b3 * x) with (Z.b2z b0 * x + 256 * (Z.b2z b1 * x) + 65536 * (Z.b2z b2 * x) + 16777216 * (Z.b2z b3 * x)) by (unfold spread; lia).
  rewrite bytes4_make by (try destruct b0; try destruct b1; try destruct b2; try destruct b3; cbn [Z.b2z]; lia).
  cbn [combine map fst snd].
  assert (E : forall b : bool, Z.lxor zero (Z.b2z b * x) = if b then one else zero).
  { intros []; cbn [Z.b2z].
    - rewrite Z.mul_1_l. unfold x. rewrite (Z.lxor_comm one zero), <- Z.lxor_assoc, Z.lxor_nilpotent. apply Z.lxor_0_l.
    - rewrite Z.mul_0_l. apply Z.lxor_0_r. }
  rewrite !E. reflexivity.
Qed.
Lemma pulses_ok zero one b : 0 <= zero < 256 -> 0 <= one < 256 -> 0 <= b < 256 -> pulses zero one b = pulse_bytes zero one b.
Proof.
  intros H1 H2 B. unfold pulses, word, pulse_bytes, bits_of. destruct (spread_ok b B) as [-> ->].
  rewrite !four by assumption. reflexivity.
Qed.
Lemma matrix_range x y : -255 <= nth (Z.to_nat (Z.land y 3)) (nth (Z.to_nat (Z.land x 3)) dither_matrix []) 0 <= 255.
Proof.
  assert (A : Forall (fun l => Forall (fun n => -255 <= n <= 255) l) dither_matrix).
  { unfold dither_matrix. repeat (apply Forall_cons; [repeat (apply Forall_cons; [lia|]); constructor|]). constructor. }
  assert (B : Forall (fun n => -255 <= n <= 255) (nth (Z.to_nat (Z.land x 3)) dither_matrix [])).
  { destruct (Nat.ltb_spec (Z.to_nat (Z.land x 3)) (length dither_matrix)) as [L|L].
    - rewrite Forall_forall in A. apply A. apply nth_In. exact L.
    - rewrite nth_overflow by exact L. constructor. }
  revert B. generalize (nth (Z.to_nat (Z.land x 3)) dither_matrix []). intros l B.
  destruct (Nat.ltb_spec (Z.to_nat (Z.land y 3)) (length l)) as [L|L].
  - rewrite Forall_forall in B. apply B. apply nth_In. exact L.
  - rewrite nth_overflow by exact L. lia.
Qed.
Lemma read_pixel_ok o ls frame pos zero one c :
  (forall n, -255 <= n <= 255 -> is8 (dither c n)) ->
  sent (dither_xy c frame pos) o = map (amount (dither_xy c frame pos)) ls ->
  0 <= zero < 256 -> 0 <= one < 256 -> (num_bytes o = 3 \/ num_bytes o = 4) ->
  read_pixel o frame pos zero one c = concat (map (pulse_bytes zero one) (map (amount (dither_xy c frame pos)) ls)).
Proof.
  intros D S0 Z0 O1 N. assert (I8 : is8 (dither_xy c frame pos)) by (unfold dither_xy; apply D; apply matrix_range).
  rewrite <- S0. unfold read_pixel, sent. set (c8 := dither_xy c frame pos) in *.
  assert (R : forall i, 0 <= getByte c8 o i < 256).
  { intros i. destruct I8 as (A & B & C). cbv beta in *. unfold getByte, white. cbv zeta. destruct c8 as [x y z]. cbn [r g b] in *.
    repeat match goal with |- context [if ?q then _ else _] => destruct q end; lia. }
  destruct N as [N|N]; rewrite N.
  - change (3 =? 4) with false. change (seq 0 (Z.to_nat 3)) with [0; 1; 2]%nat. cbn [map concat]. rewrite !pulses_ok by auto. reflexivity.
  - change (4 =? 4) with true. change (seq 0 (Z.to_nat 4)) with [0; 1; 2; 3]%nat. cbn [map concat]. rewrite !pulses_ok by auto. reflexivity.
Qed.

(** ** Filling the buffer *)
Open Scope nat_scope.
Lemma nth_skipn {A} (l : list A) n i d : nth i (skipn n l) d = nth (n + i) l d.
Proof. revert l. induction n as [|n IH]; intros l; [reflexivity|]. destruct l as [|x l]; [destruct i; reflexivity|]. cbn. apply IH. Qed.
Lemma nth_firstn {A} (l : list A) n i d : i < n -> nth i (firstn n l) d = nth i l d.
Proof. revert n i. induction l as [|x l IH]; intros n i L; [destruct n, i; reflexivity|]. destruct n; [lia|]. destruct i; [reflexivity|]. cbn. apply IH. lia. Qed.
Lemma blit_ok m d bs : d + length bs <= length m -> exists m', blit m d bs = Some m' /\ length m' = length m /\
  (forall j, j < length bs -> nth (d + j) m' 0%Z = nth j bs 0%Z) /\ (forall j, j < d \/ d + length bs <= j -> nth j m' 0%Z = nth j m 0%Z).
Proof.
  intros L. unfold blit. destruct (Nat.leb_spec (d + length bs) (length m)); [|lia].
  exists (firstn d m ++ bs ++ skipn (d + length bs) m). split; [reflexivity|].
  assert (F : length (firstn d m) = d) by (apply firstn_length_le; lia). repeat split.
  - rewrite !app_length, F, skipn_length. lia.
  - intros j J. rewrite app_nth2 by lia. rewrite F. replace (d + j - d) with j by lia. apply app_nth1. exact J.
  - intros j [J|J].
    + rewrite app_nth1 by lia. apply nth_firstn. exact J.
    + rewrite app_nth2 by lia. rewrite F, app_nth2 by lia. rewrite nth_skipn. f_equal. lia.
Qed.

Section Fill.
Variable pixels : list (list Z).
Variable c : nat.
Hypothesis cpos : 0 < c.
Hypothesis pixels_c : Forall (fun p => length p = c) pixels.
(** The stream of pulse bytes. *)
Definition sb (i : nat) : Z := nth i (concat pixels) 0%Z.
Definition chunk (k : nat) : list Z := nth k pixels (repeat 0%Z c).
Lemma chunk_length k : length (chunk k) = c.
Proof.
  unfold chunk. destruct (Nat.ltb_spec k (length pixels)) as [L|L].
  - rewrite Forall_forall in pixels_c. apply pixels_c. apply nth_In. exact L.
  - rewrite nth_overflow by exact L. apply repeat_length.
Qed.
Lemma chunk_sb k j : j < c -> nth j (chunk k) 0%Z = sb (k * c + j).
Proof.
  intros J. unfold chunk, sb. clear cpos. revert k. induction pixels_c as [|p ps P PS IH]; intros k.
  - cbn. destruct k; rewrite nth_repeat; destruct (_ + j); reflexivity.
  - destruct k as [|k]; cbn [nth concat].
    + rewrite app_nth1 by (cbn; lia). reflexivity.
    + rewrite app_nth2 by (rewrite P; lia). rewrite P. replace (S k * c + j - c) with (k * c + j) by lia. apply IH. exact PS.
Qed.
Lemma length_pixels : length (concat pixels) = length pixels * c.
Proof. induction pixels_c as [|p ps P PS IH]; [reflexivity|]. cbn [concat length]. rewrite app_length, IH, P by exact PS. lia. Qed.

(** R pixels were read. *)
Definition reads (s : engine) (R : nat) : Prop := read_calls s = length pixels - R /\ chunks s = skipn R pixels.
Lemma do_read_ok s R d : reads s R -> d + c <= length (mem s) -> exists s', do_read c s d = Some s' /\
  reads s' (S R) /\ dest s' = dest s /\ chunk_bits s' = chunk_bits s /\ length (mem s') = length (mem s) /\
  (forall j, j < c -> nth (d + j) (mem s') 0%Z = sb (R * c + j)) /\ (forall j, j < d \/ d + c <= j -> nth j (mem s') 0%Z = nth j (mem s) 0%Z).
Proof.
  intros [RC CH] L. pose proof (chunk_length R) as CL.
  assert (X : do_read c s d = option_map (fun m => Eng m (dest s) (chunk_bits s) (length pixels - S R) (skipn (S R) pixels)) (blit (mem s) d (chunk R))).
  { unfold do_read. rewrite RC, CH. destruct (Nat.ltb_spec R (length pixels)) as [Q|Q].
    - replace (length pixels - R) with (S (length pixels - S R)) by lia.
      unfold chunk. clear - Q. generalize (length pixels - S R). revert Q. revert R. generalize pixels as ps. clear. induction ps as [|p ps IH]; intros R Q n; cbn [length] in Q; [lia|].
      destruct R as [|R]; [reflexivity|]. cbn [skipn nth]. apply IH. lia.
    - replace (length pixels - R) with 0 by lia. replace (length pixels - S R) with 0 by lia. unfold chunk. rewrite nth_overflow by exact Q.
      rewrite (skipn_all2 pixels) by lia. rewrite (skipn_all2 (n := S R) pixels) by lia. reflexivity. }
  destruct (blit_ok (mem s) d (chunk R) ltac:(lia)) as (m & B & LM & IN & OUT). rewrite X, B. cbn [option_map].
  eexists. split; [reflexivity|]. cbn [mem dest chunk_bits]. rewrite CL in *. repeat split; auto.
  intros j J. rewrite IN by exact J. apply chunk_sb. exact J.
Qed.
Lemma direct_ok : forall fuel e s R, reads s R -> dest s <= e -> e <= length (mem s) -> (e - dest s) / c <= fuel ->
  let m := (e - dest s) / c in
  exists s', direct fuel c e s = Some s' /\ reads s' (R + m) /\ dest s' = dest s + m * c /\ chunk_bits s' = chunk_bits s /\ length (mem s') = length (mem s) /\
  (forall j, j < m * c -> nth (dest s + j) (mem s') 0%Z = sb (R * c + j)) /\
  (forall j, j < dest s \/ dest s + m * c <= j -> nth j (mem s') 0%Z = nth j (mem s) 0%Z).
Proof.
  induction fuel as [|fuel IH]; intros e s R RD D L F; cbv zeta in *; cbn [direct]; destruct (Nat.leb_spec (dest s + c) e) as [Q|Q].
  - exfalso. assert (1 <= (e - dest s) / c). { apply Nat.div_le_lower_bound; lia. } lia.
  - rewrite Nat.div_small by lia. exists s. rewrite !Nat.add_0_r. repeat split; auto; try apply RD. intros j J; lia.
  - destruct (do_read_ok s R (dest s) RD ltac:(lia)) as (s1 & E1 & R1 & D1 & B1 & L1 & IN1 & OUT1). rewrite E1.
    assert (DV : (e - dest s) / c = S ((e - (dest s + c)) / c)).
    { replace (e - dest s) with (e - (dest s + c) + 1 * c) by lia. rewrite Nat.div_add by lia. lia. }
    destruct (IH e (Eng (mem s1) (dest s1 + c) (chunk_bits s1) (read_calls s1) (chunks s1)) (S R)) as (s2 & E2 & R2 & D2 & B2 & L2 & IN2 & OUT2).
    { exact R1. } { cbn [dest]. lia. } { cbn [mem]. lia. } { cbn [dest]. rewrite D1. lia. }
    cbn [dest mem chunk_bits] in *. rewrite D1 in *. rewrite DV. set (m := (e - (dest s + c)) / c) in *.
    exists s2. replace (R + S m) with (S R + m) by lia. repeat split; auto; try apply R2; try lia.
    + intros j J. destruct (Nat.ltb_spec j c) as [JC|JC].
      * rewrite OUT2 by lia. apply IN1. exact JC.
      * replace (dest s + j) with (dest s + c + (j - c)) by lia. rewrite IN2 by lia. f_equal. lia.
    + intros j J. rewrite OUT2 by lia. apply OUT1. lia.
  - rewrite Nat.div_small by lia. exists s. rewrite !Nat.add_0_r. repeat split; auto; try apply RD. intros j J; lia.
Qed.

(** From an empty scratch area. *)
Lemma fill_empty fuel e s R : reads s R -> chunk_bits s = 0 -> c <= dest s -> dest s < e -> e <= length (mem s) -> 0 < fuel ->
  let L := e - dest s in
  exists s', fill_to (S fuel) c e s = Some s' /\ reads s' (S (R + L / c)) /\ dest s' = e /\ chunk_bits s' = c - L mod c /\ length (mem s') = length (mem s) /\
  (forall j, j < L -> nth (dest s + j) (mem s') 0%Z = sb (R * c + j)) /\
  (forall j, j < c -> nth j (mem s') 0%Z = sb ((R + L / c) * c + j)) /\
  (forall j, (c <= j < dest s) \/ e <= j -> nth j (mem s') 0%Z = nth j (mem s) 0%Z).
Proof.
  intros RD K D0 D L FU. cbv zeta. cbn [fill_to]. destruct (Nat.ltb_spec (dest s) e); [|lia]. rewrite K. change (0 =? 0) with true. cbv iota.
  assert (DM : e - dest s = c * ((e - dest s) / c) + (e - dest s) mod c) by (apply Nat.div_mod; lia).
  pose proof (Nat.mod_upper_bound (e - dest s) c ltac:(lia)) as MB.
  destruct (direct_ok e e s R RD ltac:(lia) L) as (s1 & E1 & R1 & D1 & B1 & L1 & IN1 & OUT1).
  { apply Nat.div_le_upper_bound; [lia|]. nia. }
  set (m := (e - dest s) / c) in *. set (q := (e - dest s) mod c) in *.
  rewrite E1. destruct (do_read_ok s1 (R + m) 0 R1 ltac:(nia)) as (s2 & E2 & R2 & D2 & B2 & L2 & IN2 & OUT2). rewrite E2. cbn [option_map].
  cbn [dest chunk_bits mem read_calls chunks]. rewrite D2, D1. replace (c - c) with 0 by lia. replace (4 * 0) with 0 by lia.
  assert (Q : Nat.min (e - (dest s + m * c)) c = q) by lia. rewrite Q. cbn [Nat.add].
  assert (ML : m * c <= length (mem s)) by lia.
  destruct (Nat.leb_spec q (length (mem s2))); [|lia]. cbn [skipn].
  assert (FL : length (firstn q (mem s2)) = q) by (apply firstn_length_le; lia).
  destruct (blit_ok (mem s2) (dest s + m * c) (firstn q (mem s2)) ltac:(lia)) as (m3 & E3 & L3 & IN3 & OUT3). rewrite E3.
  destruct fuel as [|fuel]; [lia|]. cbn [fill_to dest]. replace (dest s + m * c + q) with e by lia. rewrite Nat.ltb_irrefl.
  rewrite FL in *. eexists. split; [reflexivity|]. cbn [dest chunk_bits mem read_calls chunks]. split; [exact R2|]. repeat split; auto; try lia.
  - intros j J. destruct (Nat.ltb_spec j (m * c)) as [JM|JM].
    + rewrite OUT3 by lia. rewrite OUT2 by lia. apply IN1. exact JM.
    + replace (dest s + j) with (dest s + m * c + (j - m * c)) by lia. rewrite IN3 by lia. rewrite nth_firstn by lia.
      rewrite <- (Nat.add_0_l (j - m * c)). rewrite IN2 by lia. f_equal. lia.
  - intros j J. rewrite OUT3 by lia. rewrite <- (IN2 j J). reflexivity.
  - intros j J. rewrite OUT3 by lia. rewrite OUT2 by lia. apply OUT1. lia.
Qed.
(** In general: [w] stream bytes were written, chunk_bits of the last pixel read are left; [exact]:
    the bytes copied from the scratch area are the right ones. *)
Definition level (s : engine) (R w : nat) : Prop := R * c = w + chunk_bits s /\ chunk_bits s <= c /\
  (chunk_bits s = c -> forall j, j < c -> nth j (mem s) 0%Z = sb ((R - 1) * c + j)).
Lemma fill_ok e s R w fuel : reads s R -> level s R w -> c <= dest s -> dest s < e -> e <= length (mem s) -> 4 * c <= length (mem s) ->
  chunk_bits s <= e - dest s -> 2 <= fuel ->
  let L := e - dest s in
  exists s' R', fill_to (S fuel) c e s = Some s' /\ reads s' R' /\ level s' R' (w + L) /\ dest s' = e /\ length (mem s') = length (mem s) /\
  (forall j, j < L -> (chunk_bits s = c \/ chunk_bits s <= j) -> nth (dest s + j) (mem s') 0%Z = sb (w + j)) /\
  (forall j, j < chunk_bits s -> nth (dest s + j) (mem s') 0%Z = nth (4 * (c - chunk_bits s) + j) (mem s) 0%Z) /\
  (forall j, (c <= j < dest s) \/ e <= j -> nth j (mem s') 0%Z = nth j (mem s) 0%Z).
Proof.
  intros RD (LV & KC & SC) D0 D L M4 KL FU. cbv zeta. destruct (Nat.eqb_spec (chunk_bits s) 0) as [K|K].
  - destruct (fill_empty fuel e s R RD K D0 D L ltac:(lia)) as (s' & E & R' & D' & B' & L' & IN & SCR & OUT).
    exists s', (S (R + (e - dest s) / c)). rewrite E. split; [reflexivity|]. split; [exact R'|].
    pose proof (Nat.div_mod (e - dest s) c ltac:(lia)) as DM. pose proof (Nat.mod_upper_bound (e - dest s) c ltac:(lia)) as MB.
    split; [|repeat split; auto].
    + split; [nia|]. split; [lia|]. intros _ j J. rewrite SCR by exact J. rewrite Nat.sub_succ, Nat.sub_0_r. reflexivity.
    + intros j J _. rewrite IN by exact J. f_equal. nia.
    + intros j J. lia.
  - (* copy what is left, then as above *)
    cbn [fill_to]. destruct (Nat.ltb_spec (dest s) e); [|lia]. apply Nat.eqb_neq in K. rewrite K. apply Nat.eqb_neq in K. cbv iota.
    set (k := chunk_bits s) in *. replace (Nat.min (e - dest s) k) with k by lia.
    destruct (Nat.leb_spec (4 * (c - k) + k) (length (mem s))); [|lia].
    assert (FL : length (firstn k (skipn (4 * (c - k)) (mem s))) = k) by (apply firstn_length_le; rewrite skipn_length; lia).
    destruct (blit_ok (mem s) (dest s) (firstn k (skipn (4 * (c - k)) (mem s))) ltac:(lia)) as (m1 & E1 & L1 & IN1 & OUT1). rewrite E1. rewrite FL in *.
    replace (k - k) with 0 by lia. set (s1 := Eng m1 (dest s + k) 0 (read_calls s) (chunks s)).
    assert (RD1 : reads s1 R) by exact RD.
    assert (FIRST : k = c -> forall j, j < k -> nth (dest s + j) m1 0%Z = sb (w + j)).
    { intros KE j J. rewrite IN1 by exact J. rewrite nth_firstn by exact J. rewrite nth_skipn. replace (4 * (c - k) + j) with j by lia.
      rewrite SC by lia. f_equal. nia. }
    assert (COPY : forall j, j < k -> nth (dest s + j) m1 0%Z = nth (4 * (c - k) + j) (mem s) 0%Z).
    { intros j J. rewrite IN1 by exact J. rewrite nth_firstn by exact J. apply nth_skipn. }
    destruct (Nat.eqb_spec (dest s + k) e) as [Q|Q].
    + exists s1, R. destruct fuel as [|fuel]; [lia|]. cbn [fill_to]. change (dest s1) with (dest s + k). rewrite Q, Nat.ltb_irrefl. split; [reflexivity|]. split; [exact RD1|].
      split; [|split; [reflexivity|split; [exact L1|split; [|split; [exact COPY|]]]]].
      * unfold level, s1. cbn [chunk_bits]. split; [lia|]. split; [lia|]. intros X; lia.
      * intros j J [X|X]; [|lia]. apply FIRST; [exact X|lia].
      * intros j J. apply OUT1. lia.
    + destruct fuel as [|fuel]; [lia|].
      destruct (fill_empty fuel e s1 R RD1 eq_refl ltac:(cbn [s1 dest]; lia) ltac:(cbn [s1 dest]; lia) ltac:(cbn [s1 mem]; lia) ltac:(lia)) as (s' & E & R' & D' & B' & L' & IN & SCR & OUT).
      cbn [s1 dest mem] in *. exists s', (S (R + (e - (dest s + k)) / c)). rewrite E. split; [reflexivity|]. split; [exact R'|].
      pose proof (Nat.div_mod (e - (dest s + k)) c ltac:(lia)) as DM. pose proof (Nat.mod_upper_bound (e - (dest s + k)) c ltac:(lia)) as MB.
      split; [|repeat split; auto].
      * split; [nia|]. split; [lia|]. intros _ j J. rewrite SCR by exact J. rewrite Nat.sub_succ, Nat.sub_0_r. reflexivity.
      * lia.
      * intros j J X. destruct (Nat.ltb_spec j k) as [JK|JK].
        { rewrite OUT by lia. apply FIRST; [|exact JK]. destruct X; [assumption|lia]. }
        replace (dest s + j) with (dest s + k + (j - k)) by lia. rewrite IN by lia. f_equal. lia.
      * intros j J. rewrite OUT by lia. apply COPY. exact J.
      * intros j J. rewrite OUT by lia. apply OUT1. lia.
Qed.

(** ** The DMA at work *)
Variable cpi : nat.
Variable proxy : bool.
Variable m0 : list Z.
Hypothesis cpi_pos : 0 < cpi.
Hypothesis room : c + cpi * c + cpi * c <= length m0.
Hypothesis room4 : 4 * c <= length m0.
Let h := cpi * c.
Let N := h + h.
Let p := if proxy then 1 else 0.
Lemma h_pos : 0 < h.
Proof. unfold h. nia. Qed.
(** What goes over the wire. *)
Definition S_ (x : nat) : Z := nth x ((if proxy then [0%Z] else []) ++ concat pixels) 0%Z.
Lemma S_sb x : p <= x -> S_ x = sb (x - p).
Proof.
  unfold S_, sb, p. destruct proxy; intros X; cbn [app].
  - destruct x as [|x]; [lia|]. cbn [nth]. f_equal. lia.
  - f_equal. lia.
Qed.
Definition good (x : nat) : Prop := proxy = false \/ x < N \/ x mod h <> 0.

Lemma show_ok : exists s R, show c cpi proxy m0 pixels = Some s /\ reads s R /\ level s R (N - p) /\ dest s = end_ c cpi /\ length (mem s) = length m0 /\
  (forall x, x < N -> nth (c + x) (mem s) 0%Z = S_ x) /\ (forall j, end_ c cpi <= j -> nth j (mem s) 0%Z = nth j m0 0%Z).
Proof.
  pose proof h_pos as HP. assert (EE : end_ c cpi = c + N) by (unfold end_, N, h; lia).
  unfold show. cbv zeta. unfold begin_.
  assert (F : forall m d, length m = length m0 -> d = c + p ->
     exists s R, fill c cpi false (Eng m d 0 (length pixels) pixels) = Some s /\ reads s R /\ level s R (N - p) /\ dest s = end_ c cpi /\ length (mem s) = length m0 /\
     (forall j, j < N - p -> nth (c + p + j) (mem s) 0%Z = sb j) /\ (forall j, (c <= j < c + p) \/ end_ c cpi <= j -> nth j (mem s) 0%Z = nth j m 0%Z)).
  { intros m d LM D. subst d. unfold fill. cbn [dest]. assert (P1 : p <= 1) by (unfold p; destruct proxy; lia).
    assert (HN : 1 < N) by (unfold N; lia).
    replace (c + p =? end_ c cpi) with false by (symmetry; apply Nat.eqb_neq; lia). cbv iota.
    set (s0 := Eng m (c + p) 0 (length pixels) pixels).
    destruct (fill_ok (end_ c cpi) s0 0 0 (end_ c cpi)) as (s & R & E & RD & LV & DS & LS & IN & _ & OUT).
    { unfold reads, s0. cbn [read_calls chunks skipn]. split; [lia|reflexivity]. }
    { unfold level, s0. cbn [chunk_bits]. split; [lia|]. split; [lia|]. intros X; lia. }
    all: try (unfold s0; cbn [dest mem chunk_bits]; unfold N in *; unfold h in *; lia).
    exists s, R. split; [exact E|]. split; [exact RD|].
    replace (N - p) with (0 + (end_ c cpi - dest s0)) by (unfold s0; cbn [dest]; lia). split; [exact LV|]. split; [exact DS|]. split; [unfold s0 in LS; cbn [mem] in LS; lia|].
    split.
    - intros j J. change (c + p) with (dest s0). rewrite IN; [f_equal| |right]; unfold s0 in *; cbn [dest chunk_bits] in *; lia.
    - intros j J. apply OUT. unfold s0. cbn [dest]. lia. }
  assert (PXC : proxy = true /\ p = 1 \/ proxy = false /\ p = 0) by (unfold p; destruct proxy; auto).
  destruct PXC as [[PX PV]|[PX PV]]; rewrite PX.
  - destruct (blit_ok m0 c [0%Z] ltac:(cbn [length]; lia)) as (m1 & B & L1 & IN1 & OUT1). rewrite B.
    destruct (F m1 (c + 1) L1 ltac:(lia)) as (s & R & E & RD & LV & DS & LS & IN & OUT). exists s, R. repeat split; auto; try apply RD; try apply LV.
    + intros x X. destruct x as [|x].
      * rewrite OUT by (lia). rewrite IN1 by (cbn; lia). unfold S_. rewrite PX. reflexivity.
      * rewrite S_sb by (lia). replace (c + S x) with (c + p + (S x - p)) by (lia). apply IN. lia.
    + intros j J. rewrite OUT by lia. apply OUT1. cbn [length]. unfold N in *. lia.
  - destruct (F m0 c eq_refl) as (s & R & E & RD & LV & DS & LS & IN & OUT); [lia|]. exists s, R. repeat split; auto; try apply RD; try apply LV.
    intros x X. rewrite S_sb by (lia). replace (c + x) with (c + p + (x - p)) by (lia). apply IN. lia.
Qed.

Definition filled (i : nat) (s : engine) : Prop := exists R, reads s R /\ level s R (N + i * h - p) /\
  dest s = (if Nat.even i then end_ c cpi else half_ c cpi) /\ length (mem s) = length m0 /\
  forall x, i * h <= x < (i + 2) * h -> good x -> nth (c + x mod N) (mem s) 0%Z = S_ x.

Lemma mod_N q x : x < N -> (q * N + x) mod N = x.
Proof. intros X. rewrite Nat.add_comm, Nat.mod_add by lia. apply Nat.mod_small. exact X. Qed.
Lemma refill i s t : filled i s -> (i + 1) * h <= t < (i + 2) * h ->
  exists s', fill c cpi (half_ c cpi - begin_ c <=? t mod N) s = Some s' /\ filled (S i) s'.
Proof.
  intros (R & RD & LV & DS & LS & IN) T. pose proof h_pos as HP.
  assert (EE : end_ c cpi = c + N) by (unfold end_, N, h; lia). assert (HH : half_ c cpi = c + h) by (unfold half_, h; lia).
  assert (LW : forall j, (i + 2) * h <= j < (i + 3) * h -> good j -> (chunk_bits s = c \/ chunk_bits s <= j - (i + 2) * h)).
  { intros j J G. destruct LV as (LV & KC & _). unfold p in LV. destruct proxy eqn:PX.
    - assert (K1 : chunk_bits s <= 1).
      { set (M := cpi + cpi + i * cpi) in *. assert (X : R * c + 1 = M * c + chunk_bits s) by (unfold N, h in LV; unfold M; nia).
        destruct (Nat.lt_trichotomy R M) as [Q|[Q|Q]].
        - pose proof (Nat.mul_le_mono_r (R + 1) M c ltac:(lia)). nia.
        - rewrite Q in X. lia.
        - pose proof (Nat.mul_le_mono_r (M + 1) R c ltac:(lia)). nia. }
      right. assert (j <> (i + 2) * h); [|lia]. intros ->. destruct G as [G|[G|G]].
      + congruence.
      + unfold N in G. nia.
      + apply G. apply Nat.mod_mul. lia.
    - set (M := cpi + cpi + i * cpi) in *. assert (X : R * c = M * c + chunk_bits s) by (unfold N, h in LV; unfold M; nia).
      destruct (Nat.lt_trichotomy R M) as [Q|[Q|Q]].
      + pose proof (Nat.mul_le_mono_r (R + 1) M c ltac:(lia)). nia.
      + rewrite Q in X. right. lia.
      + left. pose proof (Nat.mul_le_mono_r (M + 1) R c ltac:(lia)). nia. }
  assert (KL : chunk_bits s <= h) by (destruct LV as (_ & KC & _); unfold h; nia).
  destruct (Nat.even i) eqn:EV.
  - (* the upper half is filled *)
    apply Nat.even_spec in EV. destruct EV as [q EV]. assert (QN : i * h = q * N) by lia.
    assert (TP : h <= t mod N). { replace t with (q * N + (t - i * h)) by lia. rewrite mod_N; lia. }
    replace (half_ c cpi - begin_ c <=? t mod N) with true by (symmetry; apply Nat.leb_le; unfold begin_; lia).
    unfold fill. rewrite DS, Nat.eqb_refl. cbv zeta iota.
    set (s0 := Eng (mem s) (begin_ c) (chunk_bits s) (read_calls s) (chunks s)).
    destruct (fill_ok (half_ c cpi) s0 R (N + i * h - p) (half_ c cpi)) as (s' & R' & E & RD' & LV' & DS' & LS' & IN' & _ & OUT').
    { exact RD. } { exact LV. }
    all: try (unfold s0, begin_; cbn [dest mem chunk_bits]; unfold N in *; unfold h in *; lia).
    exists s'. split; [exact E|]. exists R'. split; [exact RD'|].
    assert (L : half_ c cpi - dest s0 = h) by (unfold s0, begin_; cbn [dest]; lia). rewrite L in *.
    assert (P1 : p <= N) by (unfold p, N; destruct proxy; lia). assert (NH : N = h + h) by reflexivity. clearbody N.
    replace (N + S i * h - p) with (N + i * h - p + h) by lia. split; [exact LV'|].
    split. { rewrite DS'. destruct (Nat.even (S i)) eqn:X; [|reflexivity]. exfalso. apply Nat.even_spec in X. destruct X. lia. }
    split; [unfold s0 in LS'; cbn [mem] in LS'; lia|].
    intros x X G. destruct (Nat.ltb_spec x ((i + 2) * h)) as [XL|XL].
    + rewrite OUT'. { apply IN; [lia|exact G]. } right. rewrite HH. replace x with (q * N + (x - i * h)) by lia. rewrite mod_N; lia.
    + replace (x mod N) with (x - (i + 2) * h).
      2:{ replace x with (S q * N + (x - (i + 2) * h)) at 2 by lia. symmetry. apply mod_N. lia. }
      change c with (dest s0) at 1. rewrite IN'; [|lia|]. 2:{ apply (LW x); [lia|exact G]. }
      rewrite S_sb by lia. f_equal. lia.
  - (* the lower half is filled *)
    assert (OD : exists q, i = 2 * q + 1). { apply Nat.odd_spec. rewrite <- Nat.negb_even, EV. reflexivity. } destruct OD as [q OD].
    assert (QN : (i + 1) * h = S q * N) by lia.
    assert (TP : t mod N < h). { replace t with (S q * N + (t - (i + 1) * h)) by lia. rewrite mod_N; lia. }
    replace (half_ c cpi - begin_ c <=? t mod N) with false by (symmetry; apply Nat.leb_gt; unfold begin_; lia).
    unfold fill. rewrite DS. replace (half_ c cpi =? end_ c cpi) with false by (symmetry; apply Nat.eqb_neq; unfold N in *; lia). cbv zeta iota.
    destruct (fill_ok (end_ c cpi) s R (N + i * h - p) (end_ c cpi)) as (s' & R' & E & RD' & LV' & DS' & LS' & IN' & _ & OUT').
    { exact RD. } { exact LV. }
    all: try (rewrite ?DS; unfold N in *; unfold h in *; lia).
    exists s'. split; [exact E|]. exists R'. split; [exact RD'|].
    assert (L : end_ c cpi - dest s = h) by (rewrite DS; unfold N in *; lia). rewrite L in *.
    assert (P1 : p <= N) by (unfold p, N; destruct proxy; lia). assert (NH : N = h + h) by reflexivity. clearbody N.
    replace (N + S i * h - p) with (N + i * h - p + h) by lia. split; [exact LV'|].
    split. { rewrite DS'. replace (Nat.even (S i)) with true; [reflexivity|]. symmetry. apply Nat.even_spec. exists (S q). lia. }
    split; [lia|].
    intros x X G. destruct (Nat.ltb_spec x ((i + 2) * h)) as [XL|XL].
    + rewrite OUT'. { apply IN; [lia|exact G]. } left. rewrite DS, HH. replace x with (S q * N + (x - (i + 1) * h)) by lia. rewrite mod_N; lia.
    + replace (x mod N) with (h + (x - (i + 2) * h)).
      2:{ replace x with (S q * N + (h + (x - (i + 2) * h))) at 2 by lia. symmetry. apply mod_N. lia. }
      replace (c + (h + (x - (i + 2) * h))) with (dest s + (x - (i + 2) * h)) by (rewrite DS; lia). rewrite IN'; [|lia|]. 2:{ apply (LW x); [lia|exact G]. }
      rewrite S_sb by lia. f_equal. lia.
Qed.


Definition running (i t : nat) (w : wire) : Prop :=
  finished w = false /\ filled i (eng w) /\ pos w = t mod N /\ length (tx w) = t /\ i * h <= t <= (i + 2) * h /\
  (proxy = false -> sent_ w = i * h) /\ (forall x, x < t -> good x -> nth x (tx w) 0%Z = S_ x).
Lemma filled_reads i s : filled i s -> length pixels * c + 1 <= (i + 2) * h -> read_calls s = 0.
Proof.
  intros (R & (RC & _) & (LV & _) & _) B. rewrite RC. destruct (Nat.ltb_spec R (length pixels)) as [Q|Q]; [|lia].
  exfalso. pose proof (Nat.mul_le_mono_r (R + 1) (length pixels) c ltac:(lia)). unfold N in LV. assert (p <= 1) by (unfold p; destruct proxy; lia). lia.
Qed.
Lemma tx_step i t w : running i t w -> t < (i + 2) * h -> exists w', wire_step c cpi (length pixels * c) proxy w Tx = Some w' /\ running i (S t) w'.
Proof.
  intros (F & FI & P & L & T & SE & G) TB. unfold wire_step. rewrite F. eexists. split; [reflexivity|].
  pose proof h_pos as HP. unfold running. cbn [finished eng pos tx sent_]. split; [reflexivity|]. split; [exact FI|].
  assert (NH : N = h + h) by reflexivity. split.
  - fold h. fold N. rewrite P. pose proof (Nat.mod_upper_bound t N ltac:(lia)) as MB. pose proof (Nat.div_mod t N ltac:(lia)) as DM.
    destruct (Nat.eqb_spec (S (t mod N)) N) as [E|E].
    + replace (S t) with ((t / N + 1) * N) by lia. symmetry. apply Nat.mod_mul. lia.
    + replace (S t) with (t / N * N + S (t mod N)) by lia. symmetry. apply mod_N. lia.
  - rewrite app_length, L. cbn [length]. split; [lia|]. split; [lia|]. split; [exact SE|].
    intros x X GX. destruct (Nat.eqb_spec x t) as [E|E].
    + rewrite app_nth2 by lia. rewrite E, L, Nat.sub_diag. cbn [nth]. destruct FI as (R & _ & _ & _ & _ & IN). rewrite P. apply IN; [lia|]. rewrite <- E. exact GX.
    + rewrite app_nth1 by lia. apply G; [lia|exact GX].
Qed.
Lemma irq_step i t w : running i t w -> (i + 1) * h <= t < (i + 2) * h -> exists w', wire_step c cpi (length pixels * c) proxy w Irq = Some w' /\
  ((proxy = false /\ length pixels * c + 1 < (i + 1) * h /\ finished w' = true /\ tx w' = tx w /\ eng w' = eng w) \/
   ((proxy = true \/ (i + 1) * h <= length pixels * c + 1) /\ running (S i) t w')).
Proof.
  intros (F & FI & P & L & T & SE & G) TB. unfold wire_step. rewrite F. cbv zeta. fold h.
  assert (RF : (proxy = true \/ (i + 1) * h <= length pixels * c + 1) -> exists w',
     match fill c cpi (half_ c cpi - begin_ c <=? pos w) (eng w) with None => None | Some e => Some (Wire e (pos w) (tx w) (if proxy then sent_ w else sent_ w + h) false) end = Some w' /\ running (S i) t w').
  { intros _. destruct (refill i (eng w) t FI TB) as (s' & E & FI'). rewrite P, E. eexists. split; [reflexivity|].
    unfold running. cbn [finished eng pos tx sent_]. split; [reflexivity|]. split; [exact FI'|]. split; [reflexivity|]. split; [exact L|]. split; [lia|].
    split; [|exact G]. intros PF. rewrite PF. rewrite SE by exact PF. lia. }
  assert (PXC : proxy = true \/ proxy = false) by (clear; generalize proxy; intros []; auto). destruct PXC as [PX|PX]; rewrite PX in RF, SE |- *.
  - cbn [negb andb]. destruct (RF (or_introl eq_refl)) as (w' & E & RN). exists w'. split; [exact E|]. right. split; [left; reflexivity|exact RN].
  - cbn [negb andb]. rewrite (SE eq_refl) in RF |- *. destruct (Nat.ltb_spec (length pixels * c + 1) (i * h + h)) as [Q|Q].
    + eexists. split; [reflexivity|]. left. cbn [finished tx eng]. repeat split; auto. lia.
    + assert (QQ : (i + 1) * h <= length pixels * c + 1) by lia. destruct (RF (or_intror QQ)) as (w' & E & RN). exists w'. split; [exact E|]. right. split; [right; lia|exact RN].
Qed.
Lemma finished_run w ts : finished w = true -> wire_run c cpi (length pixels * c) proxy w ts = Some w.
Proof. intros F. induction ts as [|x ts IH]; [reflexivity|]. cbn [wire_run]. unfold wire_step at 1. rewrite F. exact IH. Qed.
Lemma wire_ok : forall ts i t w, running i t w -> timely h t i ts ->
  exists w', wire_run c cpi (length pixels * c) proxy w ts = Some w' /\
   (forall x, x < length (tx w') -> good x -> nth x (tx w') 0%Z = S_ x) /\
   (length pixels * c + 1 <= length (tx w') -> read_calls (eng w') = 0) /\
   (finished w' = true -> proxy = false /\ length pixels * c + 1 < length (tx w')) /\
   (finished w' = false -> length (tx w') = t + (length ts - irqs ts)) /\
   (finished w' = true \/ proxy = true \/ (i + irqs ts) * h <= Nat.max (i * h) (length pixels * c + 1)).
Proof.
  induction ts as [|x ts IH]; intros i t w RN TI.
  - exists w. split; [reflexivity|]. destruct RN as (F & FI & P & L & T & SE & G). rewrite L. split; [exact G|]. split.
    { intros B. apply filled_reads with i; [exact FI|lia]. }
    split; [congruence|]. split; [cbn; lia|]. right. right. cbn. lia.
  - cbn [wire_run]. destruct x; cbn [timely] in TI; destruct TI as [TB TI].
    + destruct (tx_step i t w RN TB) as (w1 & E & RN1). rewrite E. destruct (IH i (S t) w1 RN1 TI) as (w' & E' & A & B & C & D & F). exists w'. split; [exact E'|].
      split; [exact A|]. split; [exact B|]. split; [exact C|]. split; [|exact F]. intros X. rewrite (D X). change (irqs (Tx :: ts)) with (irqs ts). cbn [length].
      assert (irqs ts <= length ts) by (unfold irqs; clear; induction ts as [|[] ts IH]; cbn; lia). lia.
    + destruct (irq_step i t w RN TB) as (w1 & E & [(PF & Q & FN & TX & EN)|(Q & RN1)]); rewrite E.
      * rewrite finished_run by exact FN. exists w1. split; [reflexivity|]. rewrite TX, EN. destruct RN as (F & FI & P & L & T & SE & G). rewrite L.
        split; [exact G|]. split; [intros B; apply filled_reads with i; [exact FI|lia]|]. split; [intros _; split; [exact PF|lia]|]. split; [congruence|]. left. exact FN.
      * destruct (IH (S i) t w1 RN1 TI) as (w' & E' & A & B & C & D & F). exists w'. split; [exact E'|].
        split; [exact A|]. split; [exact B|]. split; [exact C|].
        split.
        { intros X. rewrite (D X). change (irqs (Irq :: ts)) with (S (irqs ts)). cbn [length]. lia. }
        change (irqs (Irq :: ts)) with (S (irqs ts)). destruct F as [F|[F|F]]; [left; exact F|right; left; exact F|]. right.
        destruct Q as [Q|Q]; [left; exact Q|]. right. lia.
Qed.


Lemma start_running s R : reads s R -> level s R (N - p) -> dest s = end_ c cpi -> length (mem s) = length m0 ->
  (forall x, x < N -> nth (c + x) (mem s) 0%Z = S_ x) -> running 0 0 (Wire s 0 [] 0 false).
Proof.
  intros RD LV DS LS IN. pose proof h_pos as HP. assert (NH : N = h + h) by reflexivity. unfold running. cbn [finished eng pos tx sent_ length].
  split; [reflexivity|]. split.
  { exists R. split; [exact RD|]. rewrite Nat.mul_0_l, Nat.add_0_r. split; [exact LV|]. split; [exact DS|]. split; [exact LS|].
    intros x X _. rewrite Nat.mod_small by lia. apply IN. lia. }
  split; [symmetry; apply Nat.mod_0_l; lia|]. split; [reflexivity|]. split; [lia|]. split; [intros _; lia|]. intros x X; lia.
Qed.
Lemma txs_run : forall n i t w, running i t w -> t + n <= (i + 2) * h -> exists w', wire_run c cpi (length pixels * c) proxy w (repeat Tx n) = Some w' /\
  running i (t + n) w' /\ eng w' = eng w.
Proof.
  induction n as [|n IH]; intros i t w RN B.
  - exists w. rewrite Nat.add_0_r. auto.
  - cbn [repeat wire_run]. destruct (tx_step i t w RN ltac:(lia)) as (w1 & E & RN1). rewrite E. assert (EG : eng w1 = eng w).
    { unfold wire_step in E. destruct RN as (F & _). rewrite F in E. injection E as <-. reflexivity. }
    destruct (IH i (S t) w1 RN1 ltac:(lia)) as (w' & E' & RN' & EG'). exists w'. rewrite E'. rewrite <- EG. replace (t + S n) with (S t + n) by lia. auto.
Qed.
Lemma wire_run_app w a b : wire_run c cpi (length pixels * c) proxy w (a ++ b) =
  match wire_run c cpi (length pixels * c) proxy w a with None => None | Some w => wire_run c cpi (length pixels * c) proxy w b end.
Proof. revert w. induction a as [|x a IH]; intros w; [reflexivity|]. cbn [app wire_run]. destruct (wire_step c cpi (length pixels * c) proxy w x); [apply IH|reflexivity]. Qed.
Lemma timely_txs n : forall t i ts, t + n <= (i + 2) * h -> timely h (t + n) i ts -> timely h t i (repeat Tx n ++ ts).
Proof.
  induction n as [|n IH]; intros t i ts B T; cbn [repeat app].
  - rewrite Nat.add_0_r in T. exact T.
  - cbn [timely]. split; [lia|]. apply IH; [lia|]. replace (S t + n) with (t + S n) by lia. exact T.
Qed.
(** On a proxy pin the byte after the first whole buffer is another byte of the frame. *)
Lemma proxy_wrong : proxy = true -> 1 < c -> 3 * c - 4 < N ->
  let ts := repeat Tx h ++ Irq :: repeat Tx (h + 1) in
  timely h 0 0 ts /\
  exists s w, show c cpi proxy m0 pixels = Some s /\ wire_run c cpi (length pixels * c) proxy (Wire s 0 [] 0 false) ts = Some w /\
    length (tx w) = N + 1 /\ nth N (tx w) 0%Z = sb (3 * c - 5).
Proof.
  intros PX C1 CN. cbv zeta. pose proof h_pos as HP. assert (NH : N = h + h) by reflexivity. split.
  { apply timely_txs; [lia|]. cbn [timely]. split; [lia|]. rewrite <- (app_nil_r (repeat Tx (h + 1))). apply timely_txs; [lia|exact Logic.I]. }
  destruct show_ok as (s & R & E & RD & LV & DS & LS & IN & OUT). pose proof (start_running s R RD LV DS LS IN) as RN.
  destruct (txs_run h 0 0 _ RN ltac:(lia)) as (w1 & E1 & RN1 & EG1). cbn [eng] in EG1.
  destruct (irq_step 0 h w1) as (w2 & E2 & [(PF & _)|(_ & RN2)]); [exact RN1|lia|congruence|].
  assert (M2 : nth c (mem (eng w2)) 0%Z = sb (3 * c - 5)).
  { unfold wire_step in E2. destruct RN1 as (F1 & _ & P1 & _). rewrite F1 in E2. rewrite PX in E2. cbn [negb andb] in E2. cbv zeta in E2.
    rewrite P1, EG1 in E2. assert (HH : half_ c cpi = c + h) by (unfold half_, h; lia).
    assert (EE : end_ c cpi = c + N) by (unfold end_, N, h; lia).
    assert (TOP : (half_ c cpi - begin_ c <=? (0 + h) mod N) = true) by (apply Nat.leb_le; rewrite Nat.mod_small by lia; unfold begin_; lia).
    rewrite TOP in E2.
    unfold fill in E2. rewrite DS, Nat.eqb_refl in E2. cbv zeta iota in E2.
    set (s0 := Eng (mem s) (begin_ c) (chunk_bits s) (read_calls s) (chunks s)) in *.
    assert (K1 : chunk_bits s = 1).
    { destruct LV as (LV & KC & _). unfold p in LV. rewrite PX in LV. set (M := cpi + cpi).
      assert (X : R * c + 1 = M * c + chunk_bits s) by (unfold N, h in LV; unfold M; unfold h in HP; lia).
      destruct (Nat.lt_trichotomy R M) as [Q|[Q|Q]].
      - pose proof (Nat.mul_le_mono_r (R + 1) M c ltac:(lia)). lia.
      - rewrite Q in X. lia.
      - pose proof (Nat.mul_le_mono_r (M + 1) R c ltac:(lia)). lia. }
    destruct (fill_ok (half_ c cpi) s0 R (N - p) (half_ c cpi)) as (s' & R' & E' & RD' & LV' & DS' & LS' & IN' & CP & OUT').
    { exact RD. } { exact LV. }
    all: try (unfold s0, begin_; cbn [dest mem chunk_bits]; unfold N in *; unfold h in *; lia).
    rewrite E' in E2. injection E2 as <-. cbn [eng]. specialize (CP 0). unfold s0, begin_ in CP. cbn [dest chunk_bits mem] in CP. rewrite K1 in CP.
    rewrite Nat.add_0_r in CP. rewrite CP by lia. replace (4 * (c - 1) + 0) with (c + (3 * c - 4)) by lia. rewrite IN by exact CN.
    assert (PV : p = 1) by (unfold p; rewrite PX; reflexivity). rewrite S_sb by lia. f_equal. lia. }
  destruct (txs_run h 1 h w2 RN2 ltac:(lia)) as (w3 & E3 & RN3 & EG3).
  destruct (tx_step 1 (h + h) w3 RN3 ltac:(lia)) as (w4 & E4 & RN4).
  exists s, w4. split; [exact E|]. split.
  { rewrite wire_run_app, E1. cbn [wire_run]. rewrite E2. rewrite repeat_app, wire_run_app, E3. cbn [repeat wire_run]. rewrite E4. reflexivity. }
  pose proof RN4 as (_ & _ & _ & L4 & _). split; [rewrite L4; lia|].
  unfold wire_step in E4. destruct RN3 as (F3 & _ & P3 & L3 & _). rewrite F3 in E4. injection E4 as <-. cbn [tx].
  rewrite app_nth2 by lia. rewrite L3. replace (N - (h + h)) with 0 by lia. cbn [nth]. rewrite P3. rewrite <- NH, Nat.mod_same by lia.
  unfold begin_. rewrite Nat.add_0_r, EG3. exact M2.
Qed.

End Fill.

Lemma list_nth_ext (a b : list Z) : length a = length b -> (forall x, x < length a -> nth x a 0%Z = nth x b 0%Z) -> a = b.
Proof. intros L H. apply (nth_ext a b 0%Z 0%Z L H). Qed.
Lemma on_wire_length proxy pixels n : length (on_wire proxy pixels n) = n.
Proof. unfold on_wire. apply firstn_length_le. rewrite !app_length, repeat_length. lia. Qed.
Lemma on_wire_nth proxy pixels n x : x < n -> nth x (on_wire proxy pixels n) 0%Z = S_ pixels proxy x.
Proof.
  intros X. unfold on_wire, S_. rewrite nth_firstn by exact X. rewrite app_assoc. set (l := (if proxy then [0%Z] else []) ++ concat pixels).
  destruct (Nat.ltb_spec x (length l)) as [L|L].
  - apply app_nth1. exact L.
  - rewrite app_nth2 by exact L. rewrite nth_repeat. symmetry. apply nth_overflow. exact L.
Qed.
Lemma layout size c leds : 0 < c -> 4 * c < size -> let cpi := chunks_per_interrupt size c leds in
  0 < cpi /\ c + cpi * c + cpi * c <= size /\ (total_chunks size c < leds -> 2 * cpi < leds + 0).
Proof.
  intros C S4. cbv zeta. unfold chunks_per_interrupt, total_chunks. cbv zeta.
  pose proof (Nat.div_mod (size - 1) c ltac:(lia)) as D. pose proof (Nat.mod_upper_bound (size - 1) c ltac:(lia)) as M.
  set (q := (size - 1) / c) in *. assert (Q4 : 4 <= q) by nia.
  pose proof (Nat.div_mod (q - 1) 2 ltac:(lia)) as D2. pose proof (Nat.mod_upper_bound (q - 1) 2 ltac:(lia)) as M2. set (n := (q - 1) / 2) in *.
  destruct ((32 <? n) && circular size c leds) eqn:E.
  - apply andb_prop in E. destruct E as [E _]. apply Nat.ltb_lt in E. repeat split; nia.
  - repeat split; nia.
Qed.
Lemma linear_ok pixels c cpi proxy m0 : 0 < c -> Forall (fun q => length q = c) pixels -> 0 < cpi -> c + cpi * c + cpi * c <= length m0 -> 4 * c <= length m0 ->
  exists s, show c cpi proxy m0 pixels = Some s /\ length (linear_tx c (length pixels * c) s) = Nat.min (length pixels * c + 1) (length m0 - c) /\
  (forall x, x < length pixels * c + 1 -> x < cpi * c + cpi * c -> nth x (linear_tx c (length pixels * c) s) 0%Z = S_ pixels proxy x) /\
  (forall x, x < length pixels * c + 1 -> cpi * c + cpi * c <= x -> nth x (linear_tx c (length pixels * c) s) 0%Z = nth (c + x) m0 0%Z) /\
  (length pixels * c + 1 <= cpi * c + cpi * c -> read_calls s = 0).
Proof.
  intros C PC CP RM R4. destruct (show_ok pixels c C PC cpi proxy m0 CP RM R4) as (s & R & E & RD & LV & DS & LS & IN & OUT).
  exists s. split; [exact E|]. unfold linear_tx, begin_. split; [rewrite firstn_length, skipn_length, LS; reflexivity|]. repeat split.
  - intros x X XN. rewrite nth_firstn by exact X. rewrite nth_skipn. apply IN. exact XN.
  - intros x X XN. rewrite nth_firstn by exact X. rewrite nth_skipn. apply OUT. unfold end_. lia.
  - intros B. destruct RD as [RC _]. rewrite RC. destruct LV as (LV & _). destruct (Nat.ltb_spec R (length pixels)) as [Q|Q]; [|lia].
    exfalso. pose proof (Nat.mul_le_mono_r (R + 1) (length pixels) c ltac:(lia)). destruct proxy; lia.
Qed.

Lemma NoDup_app_one {A} (l : list A) x : NoDup l -> ~ In x l -> NoDup (l ++ [x]).
Proof.
  intros ND NI. induction ND as [|y l NY ND IH]; cbn [app]; [constructor; [intros []|constructor]|].
  constructor; [rewrite in_app_iff; intros [H|[H|[]]]; [contradiction|]; subst; apply NI; left; reflexivity|]. apply IH. intros H. apply NI. right. exact H.
Qed.
(** ** The color ring *)
Section RingProofs.
Variable leds : nat -> nat.
Variable size : nat.
Hypothesis size_pos : 0 < size.
Lemma wrap_mod x : x < size + size -> wrap size x = x mod size.
Proof.
  intros X. unfold wrap. destruct (Nat.leb_spec size x) as [L|L].
  - replace x with (x - size + 1 * size) at 2 by lia. rewrite Nat.mod_add by lia. symmetry. apply Nat.mod_small. lia.
  - symmetry. apply Nat.mod_small. exact L.
Qed.
Lemma put_length l n c : length (put l n c) = length l.
Proof. revert n. induction l as [|x l IH]; intros n; [reflexivity|]. destruct n; cbn; [reflexivity|f_equal; apply IH]. Qed.
Lemma put_same l n c d : n < length l -> nth n (put l n c) d = c.
Proof. revert n. induction l as [|x l IH]; intros n L; cbn in *; [lia|]. destruct n; [reflexivity|]. cbn. apply IH. lia. Qed.
Lemma put_other l n m c d : n <> m -> nth m (put l n c) d = nth m l d.
Proof. revert n m. induction l as [|x l IH]; intros n m N; [reflexivity|]. destruct n, m; cbn; try reflexivity; [congruence|]. apply IH. congruence. Qed.
Lemma mod_inj a x y : x < size -> y < size -> (a + x) mod size = (a + y) mod size -> x = y.
Proof.
  intros X Y E. pose proof (Nat.div_mod (a + x) size ltac:(lia)) as D1. pose proof (Nat.div_mod (a + y) size ltac:(lia)) as D2. rewrite E in D1.
  set (q1 := (a + x) / size) in *. set (q2 := (a + y) / size) in *. destruct (Nat.lt_trichotomy q1 q2) as [Q|[Q|Q]].
  - pose proof (Nat.mul_le_mono_l (q1 + 1) q2 size ltac:(lia)). lia.
  - rewrite Q in D1. lia.
  - pose proof (Nat.mul_le_mono_l (q2 + 1) q1 size ltac:(lia)). lia.
Qed.
Lemma mod_succ a : a < size -> (if S a =? size then 0 else S a) = S a mod size.
Proof. intros A. destruct (Nat.eqb_spec (S a) size) as [E|E]; [rewrite E; symmetry; apply Nat.mod_same; lia|symmetry; apply Nat.mod_small; lia]. Qed.

Definition black := Color 0 0 0.
Definition cur (s : ring) (unread : list (nat * color)) (qf pf : list (nat * list color)) : Prop :=
  if dma_done s then unread = flat_map tagged (qf ++ pf)
  else match qf with
       | [] => False
       | f :: qf => calls s <= leds (fst f) /\ unread = skipn (leds (fst f) - calls s) (tagged f) ++ flat_map tagged (qf ++ pf)
       end.
Definition pend (d : draft) (pf : list (nat * list color)) : Prop :=
  match pending d with None => pf = [] | Some i => exists cs, pf = [(i, cs)] end.
Definition drawn (s : ring) (d : draft) : Prop :=
  match drawer d with
  | None => True
  | Some (i, canvas) => pending d = None /\ leds i <= size - used s /\ colors s i = (ptr s + used s) mod size /\
      forall k c, k < leds i -> canvas k = Some c -> nth ((ptr s + used s + k) mod size) (buf s) black = c
  end.
Definition inv (s : ring) (d : draft) (n : nat) (out : list (nat * color)) : Prop :=
  length (buf s) = size /\ ptr s < size /\ used s <= size /\
  exists unread df qf pf,
    frames d = df ++ qf ++ pf /\ length df = n /\ map fst qf = queue s /\ pend d pf /\
    Forall (fun f => length (snd f) = leds (fst f)) (frames d) /\
    out ++ unread = flat_map tagged (frames d) /\ cur s unread qf pf /\
    length unread = used s /\ (forall j, j < used s -> nth ((ptr s + j) mod size) (buf s) black = snd (nth j unread (0, black))) /\
    (forall i, In i (queue s) <-> done_ s i = false) /\ NoDup (queue s) /\
    drawn s d.

Lemma inv0 b : length b = size -> inv (ring0 b) draft0 0 [].
Proof.
  intros L. unfold inv, ring0, draft0. cbn [buf ptr used queue frames dma_done calls done_ drawer pending]. split; [exact L|]. split; [lia|]. split; [lia|].
  exists [], [], [], []. repeat split; try constructor; try (intros j J; lia); try contradiction; try discriminate.
Qed.
Lemma tagged_length f : length (tagged f) = length (snd f).
Proof. unfold tagged. apply map_length. Qed.

Lemma step_inv s d n out o d' s' x : inv s d n out -> ready leds size s o = true -> draft_step leds d o = Some d' -> ring_step leds size s o = (s', x) ->
  inv s' d' (match o with Done => S n | _ => n end) (out ++ x).
Proof.
  intros (LB & PT & US & unread & df & qf & pf & FR & DN & QU & PE & FL & OU & CU & UL & UN & DQ & ND & DR) RDY DS RS.
  destruct o as [i|i k c|i|i| | |]; cbn [ready draft_step ring_step] in *.
  - (* Begin *)
    destruct (pending d) eqn:PD; [discriminate|]. injection DS as <-. injection RS as <- <-. rewrite app_nil_r.
    unfold inv. cbn [buf ptr used queue frames dma_done calls done_ colors drawer pending]. repeat (split; [assumption|]).
    exists unread, df, qf, pf. repeat (split; [assumption|]). split; [unfold pend in *; cbn [pending]; rewrite PD in PE; exact PE|]. repeat (split; [assumption|]).
    unfold drawn. cbn [drawer pending used ptr colors buf]. split; [reflexivity|]. split; [apply Nat.leb_le; exact RDY|].
    split; [unfold upd; rewrite Nat.eqb_refl; apply wrap_mod; lia|]. intros k c _ X. discriminate.
  - (* Set_ *)
    unfold drawn in DR. destruct (drawer d) as [[j canvas]|] eqn:DW; [|discriminate]. destruct (Nat.eqb_spec i j) as [E|E]; [|discriminate]. subst j.
    destruct (Nat.ltb_spec k (leds i)) as [KL|KL]; [|discriminate]. cbn [andb] in DS. injection DS as <-. injection RS as <- <-. rewrite app_nil_r.
    destruct DR as (PD & LE & CO & CA).
    assert (MB : (ptr s + used s) mod size < size) by (apply Nat.mod_upper_bound; lia).
    assert (W : wrap size (colors s i + k) = (ptr s + used s + k) mod size).
    { rewrite wrap_mod by lia. rewrite CO. apply Nat.add_mod_idemp_l. lia. }
    rewrite W. assert (WB : (ptr s + used s + k) mod size < size) by (apply Nat.mod_upper_bound; lia).
    unfold inv. cbn [buf ptr used queue frames dma_done calls done_ colors drawer pending]. split; [rewrite put_length; exact LB|]. repeat (split; [assumption|]).
    exists unread, df, qf, pf. repeat (split; [assumption|]).
    split. { intros j J. rewrite put_other; [apply UN; exact J|]. intros X. rewrite <- Nat.add_assoc in X. apply mod_inj in X; lia. }
    repeat (split; [assumption|]). unfold drawn. cbn [drawer pending used ptr colors buf]. repeat (split; [assumption|]).
    intros k' c' K' X. unfold upd in X. destruct (Nat.eqb_spec k' k) as [E|E].
    + injection X as <-. subst k'. apply put_same. lia.
    + rewrite put_other; [apply CA; assumption|]. intros Y. apply E. rewrite <- !Nat.add_assoc in Y. apply mod_inj in Y; lia.
  - (* EndAdd *)
    unfold drawn in DR. destruct (drawer d) as [[j canvas]|] eqn:DW; [|discriminate]. destruct (Nat.eqb_spec i j) as [E|E]; [|discriminate]. subst j.
    cbn [andb] in DS. destruct (forallb _ _) eqn:FB; [|discriminate]. injection DS as <-. injection RS as <- <-. rewrite app_nil_r.
    destruct DR as (PD & LE & CO & CA). set (cs := map _ (seq 0 (leds i))). assert (CL : length cs = leds i) by (unfold cs; rewrite map_length, seq_length; reflexivity).
    unfold pend in PE. rewrite PD in PE. subst pf. rewrite app_nil_r in *.
    unfold inv. cbn [buf ptr used queue frames dma_done calls done_ colors drawer pending]. repeat (split; [assumption|]). split; [lia|].
    exists (unread ++ tagged (i, cs)), df, qf, [(i, cs)]. split; [rewrite FR, <- app_assoc; reflexivity|]. repeat (split; [assumption|]).
    split; [exists cs; reflexivity|]. split; [apply Forall_app; split; [assumption|apply Forall_cons; [exact CL|constructor]]|].
    split; [rewrite flat_map_app; cbn [flat_map]; rewrite app_nil_r, app_assoc, OU; reflexivity|].
    split. { unfold cur in *. cbn [dma_done calls] in *. destruct (dma_done s).
      - rewrite flat_map_app in *. cbn [flat_map] in *. rewrite !app_nil_r in *. rewrite CU. reflexivity.
      - destruct qf as [|f qf]; [contradiction|]. destruct CU as [C1 C2]. split; [exact C1|]. rewrite C2, !flat_map_app. cbn [flat_map]. rewrite !app_nil_r. rewrite <- app_assoc. reflexivity. }
    split; [rewrite app_length, tagged_length; cbn [snd]; lia|].
    split. { intros j J. destruct (Nat.ltb_spec j (used s)) as [JU|JU].
      - rewrite app_nth1 by lia. apply UN. exact JU.
      - rewrite app_nth2 by lia. rewrite UL. assert (K : j - used s < leds i) by lia.
        unfold tagged. cbn [fst snd]. rewrite (nth_indep _ (0, black) (i, black)) by (rewrite map_length; lia).
        change (i, black) with ((fun c => (i, c)) black). rewrite (map_nth (fun c => (i, c))). cbn [snd].
        assert (CN : nth (j - used s) cs black = match canvas (j - used s) with Some c => c | None => Color 0 0 0 end).
        { unfold cs. set (g := fun k => match canvas k with Some c => c | None => Color 0 0 0 end).
          rewrite (nth_indep _ black (g 0)) by (rewrite map_length, seq_length; lia). rewrite (map_nth g), seq_nth by exact K. reflexivity. }
        rewrite CN.
        pose proof (proj1 (forallb_forall _ _) FB (j - used s)) as F. cbv beta in F. destruct (canvas (j - used s)) as [c|] eqn:CV.
        + replace (ptr s + j) with (ptr s + used s + (j - used s)) by lia. apply CA; [exact K|exact CV].
        + exfalso. assert (X : false = true); [apply F; apply in_seq; lia|discriminate]. }
    repeat (split; [assumption|]). exact Logic.I.
  - (* EndQueue *)
    destruct (pending d) as [j|] eqn:PD; [|discriminate]. destruct (Nat.eqb_spec i j) as [E|E]; [|discriminate]. subst j. injection DS as <-. injection RS as <- <-. rewrite app_nil_r.
    unfold pend in PE. rewrite PD in PE. destruct PE as [cs PE]. subst pf.
    unfold inv. cbn [buf ptr used queue frames dma_done calls done_ colors drawer pending]. repeat (split; [assumption|]).
    exists unread, df, (qf ++ [(i, cs)]), []. split; [rewrite app_nil_r; assumption|]. split; [assumption|]. split; [rewrite map_app, QU; reflexivity|].
    split; [reflexivity|]. repeat (split; [assumption|]).
    split. { unfold cur in *. cbn [dma_done calls] in *. rewrite app_nil_r. destruct (dma_done s); [exact CU|]. destruct qf as [|f qf]; [contradiction|]. cbn [app]. rewrite app_nil_r. exact CU. }
    repeat (split; [assumption|]).
    split. { intros i'. rewrite in_app_iff. unfold upd. destruct (Nat.eqb_spec i' i) as [E|E].
      - subst. split; [reflexivity|]. intros _. right. left. reflexivity.
      - rewrite <- DQ. split; [|auto]. intros [H|[H|[]]]; [exact H|congruence]. }
    split. { apply NoDup_app_one; [exact ND|]. rewrite DQ. congruence. }
    unfold drawn in *. cbn [drawer pending]. destruct (drawer d) as [[j canvas]|]; [|exact Logic.I]. destruct DR as [X _]. congruence.
  - (* Kick *)
    injection DS as <-. destruct qf as [|[i f] qf].
    + cbn [map] in QU. rewrite <- QU in RS. injection RS as <- <-. rewrite app_nil_r. repeat (split; [assumption|]). exists unread, df, [], pf. repeat (split; [assumption|]). assumption.
    + cbn [map fst] in QU. rewrite <- QU in RS. destruct (dma_done s) eqn:DD.
      * injection RS as <- <-. rewrite app_nil_r. unfold inv. cbn [buf ptr used queue frames dma_done calls done_ colors]. repeat (split; [assumption|]).
        exists unread, df, ((i, f) :: qf), pf. repeat (split; [assumption|]). split; [cbn [map fst]; reflexivity|]. repeat (split; [assumption|]).
        split. { unfold cur in *. cbn [dma_done calls fst]. rewrite DD in CU. split; [lia|]. rewrite Nat.sub_diag. cbn [skipn]. rewrite CU. reflexivity. }
        rewrite <- QU in *. repeat (split; [assumption|]). exact DR.
      * injection RS as <- <-. rewrite app_nil_r. repeat (split; [assumption|]). exists unread, df, ((i, f) :: qf), pf. repeat (split; [assumption|]). assumption.
  - (* Read *)
    apply andb_prop in RDY. destruct RDY as [DD CC]. apply negb_true_iff in DD. apply Nat.ltb_lt in CC. injection DS as <-. rewrite mod_succ in RS by exact PT.
    injection RS as <- <-.
    unfold cur in CU. rewrite DD in CU. destruct qf as [|[i f] qf]; [contradiction|]. cbn [fst] in CU. destruct CU as [C1 C2].
    assert (LF : length f = leds i).
    { rewrite Forall_forall in FL. apply (FL (i, f)). rewrite FR. apply in_or_app. right. left. reflexivity. }
    assert (SK : exists c l, skipn (leds i - calls s) f = c :: l /\ skipn (leds i - (calls s - 1)) f = l).
    { replace (leds i - (calls s - 1)) with (S (leds i - calls s)) by lia.
      assert (B : leds i - calls s < length f) by lia. revert B. generalize (leds i - calls s). clear. induction f as [|c f IH]; intros n B; cbn [length] in B; [lia|].
      destruct n as [|n]; [exists c, f; split; reflexivity|]. destruct (IH n ltac:(lia)) as (c' & l & A1 & A2). exists c', l. split; [exact A1|exact A2]. }
    destruct SK as (c & l & SK & SK'). unfold tagged in C2 at 1. cbn [fst snd] in C2. rewrite skipn_map, SK in C2. cbn [map app] in C2.
    set (rest := map (fun c : color => (i, c)) l ++ flat_map tagged (qf ++ pf)) in *.
    assert (U1 : 0 < used s) by (rewrite <- UL, C2; cbn; lia).
    assert (HC : nth (ptr s) (buf s) (Color 0 0 0) = c).
    { pose proof (UN 0 U1) as X. rewrite Nat.add_0_r, Nat.mod_small, C2 in X by exact PT. cbn [nth snd] in X. exact X. }
    rewrite HC. cbn [map fst] in QU. rewrite <- QU. cbn [hd].
    assert (MS : forall j, (S (ptr s) mod size + j) mod size = (ptr s + S j) mod size).
    { intros j. rewrite Nat.add_mod_idemp_l by lia. f_equal. lia. }
    unfold inv. cbn [buf ptr used queue frames dma_done calls done_ colors]. split; [exact LB|]. split; [apply Nat.mod_upper_bound; lia|]. split; [lia|].
    exists rest, df, ((i, f) :: qf), pf. repeat (split; [assumption|]). split; [cbn [map fst]; reflexivity|]. repeat (split; [assumption|]).
    split; [rewrite <- OU, C2, <- app_assoc; reflexivity|].
    split. { unfold cur. cbn [dma_done calls fst]. rewrite DD. split; [lia|]. unfold tagged at 1. cbn [fst snd]. rewrite skipn_map, SK'. reflexivity. }
    split; [rewrite <- UL, C2; cbn [length]; lia|].
    split. { intros j J. rewrite MS. rewrite UN by lia. rewrite C2. reflexivity. }
    rewrite QU. repeat (split; [assumption|]).
    unfold drawn in *. destruct (drawer d) as [[j canvas]|]; [|exact Logic.I]. destruct DR as (PD & LE & CO & CA). cbn [used ptr colors buf].
    split; [exact PD|]. split; [lia|]. rewrite MS. replace (S (used s - 1)) with (used s) by lia. split; [exact CO|].
    intros k c' K X. rewrite <- Nat.add_assoc, MS. replace (ptr s + S (used s - 1 + k)) with (ptr s + used s + k) by lia. apply CA; assumption.
  - (* Done *)
    apply andb_prop in RDY. destruct RDY as [DD CC]. apply negb_true_iff in DD. apply Nat.eqb_eq in CC. injection DS as <-. injection RS as <- <-. rewrite app_nil_r.
    unfold cur in CU. rewrite DD in CU. destruct qf as [|[i f] qf]; [contradiction|]. cbn [fst] in CU. destruct CU as [C1 C2].
    assert (LF : length f = leds i).
    { rewrite Forall_forall in FL. apply (FL (i, f)). rewrite FR. apply in_or_app. right. left. reflexivity. }
    rewrite CC, Nat.sub_0_r, skipn_all2 in C2 by (rewrite tagged_length; cbn [snd]; lia). cbn [app] in C2.
    cbn [map fst] in QU. rewrite <- QU in *. cbn [hd tl].
    unfold inv. cbn [buf ptr used queue frames dma_done calls done_ colors]. repeat (split; [assumption|]).
    exists unread, (df ++ [(i, f)]), qf, pf. split; [rewrite FR, <- app_assoc; reflexivity|]. split; [rewrite app_length, DN; cbn; lia|]. split; [reflexivity|]. repeat (split; [assumption|]).
    inversion ND as [|? ? N1 N2]; subst. split.
    { intros i'. unfold upd. destruct (Nat.eqb_spec i' i) as [E|E].
      - subst. split; [contradiction|discriminate].
      - rewrite <- DQ. cbn [In]. split; [auto|]. intros [X|X]; [congruence|exact X]. }
    split; [exact N2|]. exact DR.
Qed.
End RingProofs.

Lemma play_inv leds size : 0 < size -> forall os s d n out s' d' xs, inv leds size s d n out -> play leds size s d os = Some (s', d', xs) ->
  inv leds size s' d' (n + dones os) (out ++ xs).
Proof.
  intros SP. induction os as [|o os IH]; intros s d n out s' d' xs I P; cbn [play] in P.
  - injection P as <- <- <-. rewrite app_nil_r. unfold dones. cbn. rewrite Nat.add_0_r. exact I.
  - destruct (ready leds size s o) eqn:R; [|discriminate]. destruct (draft_step leds d o) as [d1|] eqn:D; [|discriminate].
    destruct (ring_step leds size s o) as [s1 x] eqn:RS. destruct (play leds size s1 d1 os) as [[[s2 d2] ys]|] eqn:P2; [|discriminate]. injection P as <- <- <-.
    pose proof (step_inv leds size SP s d n out o d1 s1 x I R D RS) as I1. pose proof (IH _ _ _ _ _ _ _ I1 P2) as I2. rewrite <- app_assoc in I2.
    replace (n + dones (o :: os)) with (match o with Done => S n | _ => n end + dones os); [exact I2|]. unfold dones. cbn [filter]. destruct o; cbn [length]; lia.
Qed.
Lemma inv_out leds size s d n out : inv leds size s d n out -> exists part, out = flat_map tagged (firstn n (frames d)) ++ part /\
  (if dma_done s then part = [] else exists f, nth_error (frames d) n = Some f /\ hd_error (queue s) = Some (fst f) /\ part = firstn (leds (fst f) - calls s) (tagged f) /\ length part + calls s = leds (fst f)).
Proof.
  intros (LB & PT & US & unread & df & qf & pf & FR & DN & QU & PE & FL & OU & CU & UL & UN & DQ & ND & DR).
  assert (FN : firstn n (frames d) = df). { rewrite FR, <- DN. rewrite firstn_app, Nat.sub_diag, firstn_all. cbn [firstn]. apply app_nil_r. }
  rewrite FN. unfold cur in CU. destruct (dma_done s).
  - exists []. split; [|reflexivity]. rewrite app_nil_r. rewrite FR, flat_map_app, CU in OU. apply app_inv_tail in OU. exact OU.
  - destruct qf as [|f qf]; [contradiction|]. destruct CU as [C1 C2]. exists (firstn (leds (fst f) - calls s) (tagged f)).
    assert (LF : length (snd f) = leds (fst f)). { rewrite Forall_forall in FL. apply FL. rewrite FR. apply in_or_app. right. left. reflexivity. }
    split.
    + rewrite FR, flat_map_app, C2 in OU. cbn [app flat_map] in OU. rewrite <- (firstn_skipn (leds (fst f) - calls s) (tagged f)) in OU at 2.
      rewrite <- app_assoc in OU. rewrite app_assoc in OU. rewrite (app_assoc (flat_map tagged df)) in OU. rewrite (app_assoc (_ ++ _)) in OU.
      rewrite flat_map_app in OU. apply app_inv_tail in OU. apply app_inv_tail in OU. exact OU.
    + exists f. split; [rewrite FR, <- DN; rewrite nth_error_app2, Nat.sub_diag by lia; reflexivity|]. split; [rewrite <- QU; reflexivity|]. split; [reflexivity|].
      rewrite firstn_length_le; [lia|]. rewrite tagged_length. lia.
Qed.
Lemma inv_room leds size s d n out : inv leds size s d n out ->
  NoDup (queue s) /\ used s <= size /\ length out + used s = length (flat_map tagged (frames d)) /\
  (queue s = [] -> pending d = None -> out = flat_map tagged (frames d) /\ used s = 0).
Proof.
  intros (LB & PT & US & unread & df & qf & pf & FR & DN & QU & PE & FL & OU & CU & UL & UN & DQ & ND & DR).
  split; [exact ND|]. split; [exact US|]. split; [rewrite <- OU, app_length; lia|]. intros Q P. unfold pend in PE. rewrite P in PE. subst pf.
  rewrite Q in QU. destruct qf; [|discriminate]. unfold cur in CU. destruct (dma_done s); [|contradiction]. cbn in CU. subst unread.
  rewrite app_nil_r in OU. split; [exact OU|]. rewrite <- UL. reflexivity.
Qed.

(** ** Clocked strips *)
Open Scope Z_scope.
Lemma out_byte_table : forallb (fun n => forallb (fun p => Bool.eqb (fst p) (snd p)) (combine (out_byte n) (bits_of n))) (map Z.of_nat (seq 0 256)) = true.
Proof. vm_compute. reflexivity. Qed.
Lemma out_byte_ok n : 0 <= n < 256 -> out_byte n = bits_of n.
Proof.
  intros B. pose proof (proj1 (forallb_forall _ _) out_byte_table n) as H.
  assert (I : In n (map Z.of_nat (seq 0 256))). { apply in_map_iff. exists (Z.to_nat n). rewrite in_seq. lia. }
  specialize (H I). cbv beta in H. revert H. unfold out_byte, bits_of. cbn [out_bits map combine forallb fst snd]. rewrite !andb_true_iff, !Bool.eqb_true_iff.
  intros (A1 & A2 & A3 & A4 & A5 & A6 & A7 & A8 & _). rewrite A1, A2, A3, A4, A5, A6, A7, A8. reflexivity.
Qed.
Lemma level_range c : is16 c -> 0 <= output_level c <= 31 /\ 0 <= spi_max c <= 65535.
Proof.
  intros (R & G & B). cbv beta in *. unfold output_level, spi_max. set (M := Z.max (r c) (Z.max (g c) (b c))). assert (0 <= M <= 65535) by lia.
  split; [|assumption]. split; [apply Z.div_pos; lia|]. assert ((M + 2113) / 2117 < 32); [|lia]. apply Z.div_lt_upper_bound; lia.
Qed.
Lemma lor_E0 n : 0 <= n <= 31 -> Z.lor 0xE0 n = 224 + n.
Proof.
  intros H. assert (T : forallb (fun n => Z.lor 0xE0 n =? 224 + n) (map Z.of_nat (seq 0 32)) = true) by (vm_compute; reflexivity).
  pose proof (proj1 (forallb_forall _ _) T n) as K. apply Z.eqb_eq. apply K. apply in_map_iff. exists (Z.to_nat n). rewrite in_seq. lia.
Qed.
Lemma getByte_max c o i : is16 c -> 0 <= getByte c o i <= spi_max c.
Proof.
  intros (R & G & B). cbv beta in *. unfold getByte, spi_max, white. cbv zeta. repeat match goal with |- context [if ?q then _ else _] => destruct q end; lia.
Qed.
Lemma bright v L : 1 <= L <= 31 -> 0 <= v <= 65535 -> v * (7930 / L) < 2 ^ 24 ->
  let x := u8 (Z.shiftr (v * (7930 / L)) 16) in 0 <= x <= 255 /\ x * L * 65536 <= v * 7930 < (x + 2) * L * 65536.
Proof.
  intros HL V W. cbv zeta. rewrite Z.shiftr_div_pow2 by lia. change (2 ^ 16) with 65536.
  assert (M : L * (7930 / L) <= 7930 < L * (7930 / L) + L) by (pose proof (Z.div_mod 7930 L ltac:(lia)); pose proof (Z.mod_pos_bound 7930 L ltac:(lia)); lia).
  set (m := 7930 / L) in *. assert (0 <= m) by (apply Z.div_pos; lia).
  assert (P : 0 <= v * m) by (apply Z.mul_nonneg_nonneg; lia).
  pose proof (Z.div_mod (v * m) 65536 ltac:(lia)) as D. pose proof (Z.mod_pos_bound (v * m) 65536 ltac:(lia)) as Q. set (x := v * m / 65536) in *.
  assert (X : 0 <= x < 256). { split; [apply Z.div_pos; lia|]. apply Z.div_lt_upper_bound; [lia|]. change (65536 * 256) with (2 ^ 24). exact W. }
  unfold u8. rewrite Z.mod_small by lia. split; [lia|].
  assert (A1 : x * 65536 * L <= v * m * L) by (apply Z.mul_le_mono_nonneg_r; lia).
  assert (A2 : v * (L * m) <= v * 7930) by (apply Z.mul_le_mono_nonneg_l; lia).
  assert (A3 : v * 7930 <= v * (L * m + L)) by (apply Z.mul_le_mono_nonneg_l; lia).
  assert (A4 : v * m * L < (x * 65536 + 65536) * L) by (apply Z.mul_lt_mono_pos_r; lia).
  assert (A5 : v * L <= 65535 * L) by (apply Z.mul_le_mono_nonneg_r; lia).
  split; lia.
Qed.
