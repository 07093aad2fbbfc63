(** Lemmas about images with transparency and image files. *)
From Coq Require Import ZArith List Bool Lia ZifyBool ZifyNat.
From Verif Require Import Machine PqoiModel PqoiSpec PqoiProofs.
Import ListNotations.
Open Scope Z_scope.

(** * Blending *)
Lemma lor_add a b s : 0 <= s -> 0 <= a < 2 ^ s -> Z.lor a (b * 2 ^ s) = a + b * 2 ^ s.
Proof.
  intros S A. assert (N : Z.land a (b * 2 ^ s) = 0).
  { apply Z.bits_inj'. intros n N. rewrite Z.land_spec, Z.bits_0. destruct (Z.lt_ge_cases n s); [rewrite Z.mul_pow2_bits_low by lia; apply andb_false_r|].
    replace (Z.testbit a n) with false; [reflexivity|]. symmetry. destruct (Z.eq_dec a 0) as [->|]; [apply Z.bits_0|]. apply Z.bits_above_log2; [lia|].
    apply Z.lt_le_trans with s; [apply Z.log2_lt_pow2; lia|lia]. }
  rewrite <- Z.lxor_lor by exact N. rewrite <- Z.add_nocarry_lxor by exact N. reflexivity.
Qed.
Lemma land_field x k s : 0 <= k -> 0 <= s -> Z.land x (Z.ones k * 2 ^ s) = (x / 2 ^ s mod 2 ^ k) * 2 ^ s.
Proof.
  intros K S. rewrite <- (Z.land_ones (x / 2 ^ s)) by exact K. rewrite <- Z.shiftr_div_pow2 by exact S. rewrite <- !Z.shiftl_mul_pow2 by exact S.
  apply Z.bits_inj'. intros n N. rewrite Z.land_spec. destruct (Z.lt_ge_cases n s).
  - rewrite !Z.shiftl_spec_low by lia. apply andb_false_r.
  - rewrite !Z.shiftl_spec by lia. rewrite Z.land_spec, Z.shiftr_spec by lia. replace (n - s + s) with n by lia. reflexivity.
Qed.
Lemma land_mask x : Z.land x 0x7E0F81F = x mod 32 + x / 2 ^ 11 mod 32 * 2 ^ 11 + x / 2 ^ 21 mod 64 * 2 ^ 21.
Proof.
  change 0x7E0F81F with (Z.lor (Z.lor (Z.ones 5) (Z.ones 5 * 2 ^ 11)) (Z.ones 6 * 2 ^ 21)). rewrite !Z.land_lor_distr_r, !land_field by lia. rewrite Z.land_ones by lia.
  change (2 ^ 5) with 32. change (2 ^ 6) with 64.
  assert (A : 0 <= x mod 32 < 32) by (apply Z.mod_pos_bound; lia). assert (B : 0 <= x / 2 ^ 11 mod 32 < 32) by (apply Z.mod_pos_bound; lia).
  set (y := x / 2 ^ 11 mod 32) in *. set (z := x / 2 ^ 21 mod 64). set (b := x mod 32) in *. clearbody y z b.
  rewrite (lor_add b y 11) by lia. rewrite (lor_add _ z 21); lia.
Qed.
Lemma land_31 x : Z.land x 31 = x mod 32.
Proof. change 31 with (Z.ones 5). rewrite Z.land_ones by lia. reflexivity. Qed.
Lemma land_63 x : Z.land x 63 = x mod 64.
Proof. change 63 with (Z.ones 6). rewrite Z.land_ones by lia. reflexivity. Qed.
Lemma rgb_split p : is_pixel p -> p = red p * 2048 + green p * 32 + blue p /\ 0 <= red p < 32 /\ 0 <= green p < 64 /\ 0 <= blue p < 32.
Proof. unfold is_pixel, red, green, blue. intros P. Z.div_mod_to_equations. lia. Qed.
Lemma blend_exact below p a : is_pixel below -> is_pixel p -> 0 <= a <= 32 -> premultiplied p a -> alphaBlend below p a = blended below p a.
Proof.
  intros B P A (M1 & M2 & M3). destruct (rgb_split below B) as (EB & R & G & BL). destruct (rgb_split p P) as (EP & R' & G' & BL').
  unfold alphaBlend, blended, rgb. set (r := red below) in *. set (g := green below) in *. set (b := blue below) in *. set (r' := red p) in *. set (g' := green p) in *. set (b' := blue p) in *.
  clearbody r g b r' g' b'. unfold is_pixel in *.
  assert (X : u32 (below * 65537) = below + below * 65536) by (unfold u32; rewrite Z.mod_small; lia). rewrite X.
  assert (T1 : Z.land (below + below * 65536) 0x7E0F81F = b + r * 2 ^ 11 + g * 2 ^ 21).
  { rewrite land_mask. change (2 ^ 11) with 2048. change (2 ^ 21) with 2097152. subst below. clear - R G BL.
    f_equal; [f_equal|]; [|f_equal|f_equal]; Z.div_mod_to_equations; lia. }
  rewrite T1.
  assert (RA : 0 <= r * a <= 31 * 32) by nia. assert (GA : 0 <= g * a <= 63 * 32) by nia. assert (BA : 0 <= b * a <= 31 * 32) by nia.
  assert (MR : r * a <= 31 * a) by nia. assert (MG : g * a <= 63 * a) by nia. assert (MB : b * a <= 31 * a) by nia.
  assert (Y : u32 ((b + r * 2 ^ 11 + g * 2 ^ 21) * a) = b * a + (r * a) * 2048 + (g * a) * 2097152).
  { unfold u32. change (2 ^ 11) with 2048. change (2 ^ 21) with 2097152. change (2 ^ 32) with 4294967296. rewrite Z.mod_small; nia. }
  rewrite Y. set (ra := r * a) in *. set (ga := g * a) in *. set (ba := b * a) in *. clearbody ra ga ba.
  assert (T2 : Z.land (Z.shiftr (ba + ra * 2048 + ga * 2097152) 5) 0x7E0F81F = ba / 32 + ra / 32 * 2 ^ 11 + ga / 32 * 2 ^ 21).
  { rewrite land_mask, Z.shiftr_div_pow2 by lia. change (2 ^ 5) with 32. change (2 ^ 11) with 2048. change (2 ^ 21) with 2097152. clear - RA GA BA.
    f_equal; [f_equal|]; [|f_equal|f_equal]; Z.div_mod_to_equations; lia. }
  rewrite T2. rewrite Z.shiftr_div_pow2 by lia. change (2 ^ 11) with 2048. change (2 ^ 21) with 2097152. change (2 ^ 16) with 65536.
  assert (QR : 0 <= ra / 32 <= 31 * a / 32) by (split; [apply Z.div_pos; lia|apply Z.div_le_mono; lia]).
  assert (QG : 0 <= ga / 32 <= 63 * a / 32) by (split; [apply Z.div_pos; lia|apply Z.div_le_mono; lia]).
  assert (QB : 0 <= ba / 32 <= 31 * a / 32) by (split; [apply Z.div_pos; lia|apply Z.div_le_mono; lia]).
  assert (A31 : 31 * a / 32 <= 31) by (apply Z.div_le_upper_bound; lia). assert (A63 : 63 * a / 32 <= 63) by (apply Z.div_le_upper_bound; lia).
  set (x := ra / 32) in *. set (y := ga / 32) in *. set (z := ba / 32) in *. set (a31 := 31 * a / 32) in *. set (a63 := 63 * a / 32) in *. clearbody x y z a31 a63.
  unfold u16. change (2 ^ 16) with 65536. subst p.
  replace ((z + x * 2048 + y * 2097152) / 65536) with (y * 32) by (clear - QR QG QB A31 A63; Z.div_mod_to_equations; lia).
  replace (z + x * 2048 + y * 2097152 + y * 32 + (r' * 2048 + g' * 32 + b')) with (((x + r') * 2048 + (y + g') * 32 + (z + b')) + y * 32 * 65536) by lia.
  rewrite Z.mod_add by lia. rewrite Z.mod_small; lia.
Qed.
Lemma premultiply_ok p a : is_pixel p -> 0 <= a <= 32 -> is_pixel (premultiply p a) /\ premultiplied (premultiply p a) a.
Proof.
  intros P A. unfold premultiply.
  assert (X : alphaBlend 0xFFFF 0 a = blended 0xFFFF 0 a).
  { apply blend_exact; try (unfold is_pixel; lia). unfold premultiplied. change (red 0) with 0. change (green 0) with 0. change (blue 0) with 0. Z.div_mod_to_equations. lia. }
  rewrite X. unfold blended. change (red 0xFFFF) with 31. change (green 0xFFFF) with 63. change (blue 0xFFFF) with 31. change (red 0) with 0. change (green 0) with 0. change (blue 0) with 0.
  rewrite !Z.add_0_r. unfold premultiplied. set (f := 31 * a / 32). set (g := 63 * a / 32).
  assert (F : 0 <= f <= 31) by (unfold f; Z.div_mod_to_equations; lia). assert (G : 0 <= g <= 63) by (unfold g; Z.div_mod_to_equations; lia). clearbody f g.
  unfold rgb. rewrite !Z.shiftr_div_pow2 by lia. rewrite !land_31, !land_63. change (2 ^ 5) with 32. change (2 ^ 11) with 2048.
  replace ((f * 2048 + g * 32 + f) / 2048) with f by (Z.div_mod_to_equations; lia). replace ((f * 2048 + g * 32 + f) / 32 mod 64) with g by (Z.div_mod_to_equations; lia).
  replace ((f * 2048 + g * 32 + f) mod 32) with f by (Z.div_mod_to_equations; lia).
  destruct (rgb_split p P) as (_ & R & GG & B). fold (red p). fold (blue p). fold (green p). 
  assert (QR : 0 <= Z.quot ((32 - f) * red p) 32 <= 31 - f).
  { rewrite Z.quot_div_nonneg by nia. split; [apply Z.div_pos; nia|]. apply Z.lt_succ_r. apply Z.div_lt_upper_bound; nia. }
  assert (QG : 0 <= Z.quot ((64 - g) * green p) 64 <= 63 - g).
  { rewrite Z.quot_div_nonneg by nia. split; [apply Z.div_pos; nia|]. apply Z.lt_succ_r. apply Z.div_lt_upper_bound; nia. }
  assert (QB : 0 <= Z.quot ((32 - f) * blue p) 32 <= 31 - f).
  { rewrite Z.quot_div_nonneg by nia. split; [apply Z.div_pos; nia|]. apply Z.lt_succ_r. apply Z.div_lt_upper_bound; nia. }
  set (x := Z.quot ((32 - f) * red p) 32) in *. set (y := Z.quot ((64 - g) * green p) 64) in *. set (z := Z.quot ((32 - f) * blue p) 32) in *. clearbody x y z.
  unfold u16, is_pixel. change (2 ^ 16) with 65536. rewrite Z.mod_small by lia. unfold red, green, blue.
  replace ((x * 2048 + y * 32 + z) / 2048) with x by (Z.div_mod_to_equations; lia). replace ((x * 2048 + y * 32 + z) / 32 mod 64) with y by (Z.div_mod_to_equations; lia).
  replace ((x * 2048 + y * 32 + z) mod 32) with z by (Z.div_mod_to_equations; lia). lia.
Qed.

(** * Segments *)
Lemma same_run_spec limit a l : firstn (same_run limit a l) l = repeat a (same_run limit a l) /\ (same_run limit a l <= limit)%nat /\ (same_run limit a l <= length l)%nat.
Proof.
  revert l. induction limit as [|limit IH]; intros l; [cbn; auto with arith|]. destruct l as [|x l]; [cbn; auto with arith|]. cbn [same_run]. destruct (Z.eqb_spec x a) as [->|].
  - destruct (IH l) as (A & B & C). cbn. rewrite A. split; [reflexivity|]. lia.
  - cbn. split; [reflexivity|lia].
Qed.
Lemma raw_run_spec rounds run l past : (1 <= run <= 64)%nat -> (run <= length l)%nat -> (1 <= raw_run rounds run l past <= 64)%nat /\ (raw_run rounds run l past <= length l)%nat.
Proof.
  revert run. induction rounds as [|rounds IH]; intros run R L; [cbn; auto|]. cbn [raw_run].
  destruct (run <? 64)%nat eqn:A; [|auto]. destruct (run + 1 <? length l)%nat eqn:B; [|auto]. cbn [andb]. destruct (_ && _); [auto|]. apply IH; lia.
Qed.
Lemma segment_spec a al past : let '(run, raw) := segment (a :: al) past in
  (1 <= run <= 64)%nat /\ (run <= length (a :: al))%nat /\ (raw = false -> firstn run (a :: al) = repeat a run /\ (2 <= run)%nat).
Proof.
  unfold segment. destruct (S (same_run 63 a al) <? 2)%nat eqn:E.
  - destruct (raw_run_spec 64 1 (a :: al) past) as (A & B); [lia|cbn; lia|]. split; [exact A|]. split; [exact B|discriminate].
  - destruct (same_run_spec 63 a al) as (A & B & C). cbn [length firstn repeat]. rewrite A. split; [lia|]. split; [lia|]. intros _. split; [reflexivity|lia].
Qed.
Lemma header k n : 0 <= k < 4 -> 0 <= n < 64 -> Z.shiftr (k * 64 + n) 6 = k /\ Z.land (k * 64 + n) 0x3F = n.
Proof.
  intros K N. rewrite Z.shiftr_div_pow2 by lia. change 0x3F with (Z.ones 6). rewrite Z.land_ones by lia. change (2 ^ 6) with 64. split; Z.div_mod_to_equations; lia.
Qed.

Lemma sees_all_app d1 p1 a1 d2 p2 a2 : sees_all d1 p1 a1 -> sees_all d2 p2 a2 -> sees_all (d1 ++ d2) (p1 ++ p2) (a1 ++ a2).
Proof. induction 1; intros; [assumption|]. cbn. constructor; auto. Qed.
Lemma sees_all_refl ps al : length ps = length al -> sees_all ps ps al.
Proof. revert al. induction ps as [|p ps IH]; intros [|a al] L; cbn in L; try lia; constructor; [left; reflexivity|apply IH; lia]. Qed.
Lemma sees_all_hidden ps n : length ps = n -> sees_all (repeat 0 n) ps (repeat 32 n).
Proof. intros <-. induction ps; cbn; constructor; [right; auto|assumption]. Qed.
Lemma sees_all_length ds ps al : sees_all ds ps al -> length ds = length ps /\ length al = length ps.
Proof. induction 1; cbn; lia. Qed.

(** One segment of the encoder *)
Definition enc_segment (c : codec) (a : Z) (run : nat) (raw : bool) (ps al : list Z) : codec * list Z :=
  let head := Z.of_nat run - 1 in
  if raw then let '(c1, out) := encodePixels c ps in (c1, [0x40 + head] ++ out ++ al)
  else if a =? 32 then (c, [head])
  else if a =? 0 then let '(c1, out) := encodePixels c ps in (c1, [0xC0 + head] ++ out)
  else let '(c1, out) := encodePixels c ps in (c1, [0x80 + head] ++ out ++ [a]).
Lemma alpha_segment_ok c hist a run raw ps al rest : codec_ok c -> Forall is_pixel ps -> (1 <= run <= 64)%nat -> length ps = run -> length al = run ->
  (raw = false -> al = repeat a run /\ (2 <= run)%nat) ->
  let '(c1, bytes) := enc_segment c a run raw ps al in
  exists ds, alpha_segment c hist (bytes ++ rest) = Some (c1, ds, al, rest) /\ sees_all ds ps al /\ codec_ok c1 /\ (length bytes <= 5 * run)%nat.
Proof.
  intros C P R LP LA SAME. unfold enc_segment.
  assert (HN : S (Z.to_nat (Z.of_nat run - 1)) = run) by lia.
  pose proof (encodePixels_ok c hist ps rest C P) as (_ & OK & _ & SZ).
  assert (BL : forall more, DecodeBlock c hist (snd (encodePixels c ps) ++ more) run = Some (fst (encodePixels c ps), ps, more)) by (intros more; rewrite <- LP; apply block_ok; assumption).
  destruct (encodePixels c ps) as (c1, out) eqn:E. cbn [fst snd] in *.
  destruct raw.
  - exists ps. destruct (header 1 (Z.of_nat run - 1)) as (H1 & H2); [lia|lia|]. change (1 * 64) with 64 in *. unfold alpha_segment. cbn [app].
    rewrite H1, H2, HN. cbn [Z.eqb]. rewrite <- app_assoc, BL. cbn [Pos.eqb]. rewrite app_length, LA. replace (run <=? run + length rest)%nat with true by lia.
    split; [|split; [apply sees_all_refl; lia|split; [exact OK|cbn [length]; rewrite app_length; lia]]]. rewrite (firstn_all2 ps) by lia.
    rewrite firstn_app, skipn_app, LA, Nat.sub_diag, <- LA, firstn_all, skipn_all. cbn. rewrite app_nil_r. reflexivity.
  - destruct (SAME eq_refl) as (AL & R2). destruct (Z.eqb_spec a 32) as [->|A32].
    + exists (repeat 0 run). destruct (header 0 (Z.of_nat run - 1)) as (H1 & H2); [lia|lia|]. change (0 * 64 + (Z.of_nat run - 1)) with (Z.of_nat run - 1) in *. unfold alpha_segment. cbn [app].
      rewrite H1, H2, HN. cbn [Z.eqb]. rewrite AL. split; [reflexivity|]. split; [apply sees_all_hidden; exact LP|]. split; [exact C|]. cbn. lia.
    + destruct (Z.eqb_spec a 0) as [->|A0].
      * exists ps. destruct (header 3 (Z.of_nat run - 1)) as (H1 & H2); [lia|lia|]. change (3 * 64) with 192 in *. unfold alpha_segment. cbn [app].
        rewrite H1, H2, HN. cbn [Z.eqb]. rewrite BL. cbn [Pos.eqb]. rewrite (firstn_all2 ps) by lia. rewrite AL. split; [reflexivity|].
        split; [apply sees_all_refl; rewrite repeat_length; lia|]. split; [exact OK|]. cbn [length]. lia.
      * exists ps. destruct (header 2 (Z.of_nat run - 1)) as (H1 & H2); [lia|lia|]. change (2 * 64) with 128 in *. unfold alpha_segment. cbn [app].
        rewrite H1, H2, HN. cbn [Z.eqb]. rewrite <- app_assoc, BL. cbn [app Pos.eqb]. rewrite (firstn_all2 ps) by lia. rewrite AL. split; [reflexivity|].
        split; [apply sees_all_refl; rewrite repeat_length; lia|]. split; [exact OK|]. cbn [length]. rewrite app_length. cbn. lia.
Qed.

(** * Rows *)
Inductive adecodes : codec -> list Z -> list Z -> list Z -> list Z -> codec -> list Z -> Prop :=
| AD_nil c hist bytes : adecodes c hist bytes [] [] c bytes
| AD_seg c hist bytes c1 ps al bytes1 qs be c2 bytes2 : alpha_segment c hist bytes = Some (c1, ps, al, bytes1) -> (1 <= length ps)%nat ->
    adecodes c1 (rev ps ++ hist) bytes1 qs be c2 bytes2 -> adecodes c hist bytes (ps ++ qs) (al ++ be) c2 bytes2.
Lemma adecodes_app c hist bytes ps al c1 bytes1 qs be c2 bytes2 : adecodes c hist bytes ps al c1 bytes1 -> adecodes c1 (rev ps ++ hist) bytes1 qs be c2 bytes2 ->
  adecodes c hist bytes (ps ++ qs) (al ++ be) c2 bytes2.
Proof.
  induction 1 as [|c hist bytes c3 ps al bytes3 qs' be' c4 bytes4 E L D IH]; intros H; [exact H|]. rewrite <- !app_assoc. econstructor; [exact E|exact L|]. apply IH.
  rewrite rev_app_distr, <- app_assoc in H. exact H.
Qed.
Lemma adecodes_run c hist bytes ps al c2 bytes2 : adecodes c hist bytes ps al c2 bytes2 -> forall rounds, (length ps <= rounds)%nat ->
  decode_alphas rounds c hist bytes (length ps) = Some (c2, ps, al, bytes2).
Proof.
  induction 1 as [|c hist bytes c1 ps al bytes1 qs be c2 bytes2 E L D IH]; intros rounds R; [destruct rounds; reflexivity|].
  rewrite app_length in *. destruct rounds as [|rounds]; [lia|]. destruct (length ps + length qs)%nat as [|n] eqn:N; [lia|]. cbn [decode_alphas]. rewrite E.
  replace (S n - length ps)%nat with (length qs) by lia. rewrite IH by lia. reflexivity.
Qed.
Lemma encode_alphas_eq rounds c ps a al past : encode_alphas (S rounds) c ps (a :: al) past =
  let '(run, raw) := segment (a :: al) past in
  let '(c1, bytes) := enc_segment c a run raw (firstn run ps) (firstn run (a :: al)) in
  let '(c2, more) := encode_alphas rounds c1 (skipn run ps) (skipn run (a :: al)) past in (c2, bytes ++ more).
Proof. reflexivity. Qed.
Lemma encode_alphas_ok rounds : forall c hist ps al past rest, codec_ok c -> Forall is_pixel ps -> length ps = length al -> (length al <= rounds)%nat ->
  let '(c2, out) := encode_alphas rounds c ps al past in
  exists ds, adecodes c hist (out ++ rest) ds al c2 rest /\ sees_all ds ps al /\ codec_ok c2 /\ (length out <= 5 * length ps)%nat.
Proof.
  induction rounds as [|rounds IH]; intros c hist ps al past rest C P L R.
  - destruct al; [|cbn in R; lia]. destruct ps; [|discriminate]. cbn. exists []. split; [constructor|]. split; [constructor|]. auto.
  - destruct al as [|a al]; [destruct ps; [|discriminate]; cbn; exists []; split; [constructor|]; split; [constructor|]; auto|].
    rewrite encode_alphas_eq. pose proof (segment_spec a al past) as SG. destruct (segment (a :: al) past) as (run, raw). destruct SG as (S1 & S2 & S3).
    assert (P1 : Forall is_pixel (firstn run ps) /\ Forall is_pixel (skipn run ps)). { apply Forall_app. rewrite firstn_skipn. exact P. } destruct P1 as (P1 & P2).
    assert (L1 : length (firstn run ps) = run) by (apply firstn_length_le; lia). assert (L2 : length (firstn run (a :: al)) = run) by (apply firstn_length_le; lia).
    pose proof (fun more => alpha_segment_ok c hist a run raw (firstn run ps) (firstn run (a :: al)) more C P1 S1 L1 L2 S3) as AS.
    destruct (enc_segment c a run raw (firstn run ps) (firstn run (a :: al))) as (c1, bytes).
    assert (C1 : codec_ok c1) by (destruct (AS []) as (? & _ & _ & X & _); exact X).
    assert (LL : length (skipn run ps) = length (skipn run (a :: al))) by (rewrite !skipn_length; lia).
    assert (LR : (length (skipn run (a :: al)) <= rounds)%nat) by (rewrite skipn_length; lia).
    pose proof (fun hist => IH c1 hist (skipn run ps) (skipn run (a :: al)) past rest C1 P2 LL LR) as I. destruct (encode_alphas rounds c1 _ _ past) as (c2, more).
    destruct (AS (more ++ rest)) as (ds & A1 & A2 & _ & A4). destruct (I (rev ds ++ hist)) as (es & B1 & B2 & B3 & B4).
    exists (ds ++ es). destruct (sees_all_length _ _ _ A2) as (X & _). split; [|split; [|split; [exact B3|rewrite app_length, skipn_length in *; lia]]].
    + rewrite <- (firstn_skipn run (a :: al)). rewrite <- app_assoc. econstructor; [exact A1|lia|exact B1].
    + rewrite <- (firstn_skipn run (a :: al)), <- (firstn_skipn run ps). apply sees_all_app; assumption.
Qed.
Lemma encode_rows_ok n width : forall c hist ps al past rest, codec_ok c -> Forall is_pixel ps -> length ps = length al -> length ps = (n * width)%nat ->
  let '(c2, out) := encode_rows n width c ps al past in
  exists ds, adecodes c hist (out ++ rest) ds al c2 rest /\ sees_all ds ps al /\ codec_ok c2 /\ (length out <= 5 * length ps)%nat.
Proof.
  induction n as [|n IH]; intros c hist ps al past rest C P L N.
  - destruct ps; [|discriminate]. destruct al; [|discriminate]. cbn. exists []. split; [constructor|]. split; [constructor|]. auto.
  - cbn [encode_rows]. unfold encodePixelsWithAlpha. 
    assert (P1 : Forall is_pixel (firstn width ps) /\ Forall is_pixel (skipn width ps)). { apply Forall_app. rewrite firstn_skipn. exact P. } destruct P1 as (P1 & P2).
    assert (L1 : length (firstn width ps) = length (firstn width al)) by (rewrite !firstn_length_le; lia).
    pose proof (fun more => encode_alphas_ok (length (firstn width al)) c hist (firstn width ps) (firstn width al) (past n) more C P1 L1 (le_n _)) as AS.
    destruct (encode_alphas _ c (firstn width ps) _ _) as (c1, out).
    assert (C1 : codec_ok c1) by (destruct (AS []) as (? & _ & _ & X & _); exact X).
    assert (LL : length (skipn width ps) = length (skipn width al)) by (rewrite !skipn_length; lia).
    assert (LN : length (skipn width ps) = (n * width)%nat) by (rewrite skipn_length; lia).
    pose proof (fun hist => IH c1 hist (skipn width ps) (skipn width al) past rest C1 P2 LL LN) as I. destruct (encode_rows n width c1 _ _ past) as (c2, more).
    destruct (AS (more ++ rest)) as (ds & A1 & A2 & _ & A4). destruct (I (rev ds ++ hist)) as (es & B1 & B2 & B3 & B4).
    exists (ds ++ es). split; [|split; [|split; [exact B3|rewrite app_length]]].
    + rewrite <- (firstn_skipn width al), <- app_assoc. eapply adecodes_app; [exact A1|exact B1].
    + rewrite <- (firstn_skipn width al), <- (firstn_skipn width ps). apply sees_all_app; assumption.
    + rewrite firstn_length_le in A4 by lia. rewrite skipn_length in B4. lia.
Qed.

(** * Showing a layer *)
Lemma blended_0 b p : is_pixel p -> blended b p 0 = p.
Proof.
  intros P. destruct (rgb_split p P) as (E & _). unfold blended, rgb. rewrite !Z.mul_0_r. change (0 / 32) with 0. lia.
Qed.
Lemma blended_32 b p : is_pixel b -> is_pixel p -> premultiplied p 32 -> blended b p 32 = b.
Proof.
  intros B P (M1 & M2 & M3). change (31 - 31 * 32 / 32) with 0 in *. change (63 - 63 * 32 / 32) with 0 in *. destruct (rgb_split p P) as (_ & X & Y & Z0). destruct (rgb_split b B) as (E & _).
  unfold blended, rgb. rewrite !Z.div_mul by lia. lia.
Qed.
Lemma blend_all_app b1 p1 a1 b2 p2 a2 : length b1 = length p1 -> length a1 = length p1 -> blend_all (b1 ++ b2) (p1 ++ p2) (a1 ++ a2) = blend_all b1 p1 a1 ++ blend_all b2 p2 a2.
Proof.
  revert p1 a1. induction b1 as [|b b1 IH]; intros [|p p1] [|a a1] L M; cbn in L, M; try lia; [reflexivity|]. cbn. f_equal. apply IH; lia.
Qed.
Lemma blend_raw below ps al : Forall is_pixel below -> layer_ok ps al -> length below = length ps -> length al = length ps ->
  map (fun x => alphaBlend (fst x) (fst (snd x)) (snd (snd x))) (combine below (combine ps al)) = blend_all below ps al.
Proof.
  intros B. revert ps al. induction B as [|b below B BS IH]; intros [|p ps] [|a al] LO L M; cbn in L, M; try lia; [reflexivity|]. cbn. inversion LO as [|? ? (X1 & X2 & X3) LO']. subst. cbn [fst snd] in *.
  f_equal; [apply blend_exact; assumption|]. apply IH; [exact LO'|lia|lia].
Qed.
Lemma blend_same below ps a n : Forall is_pixel below -> layer_ok ps (repeat a n) -> length below = n -> length ps = n ->
  map (fun x => alphaBlend (fst x) (snd x) a) (combine below ps) = blend_all below ps (repeat a n).
Proof.
  intros B. revert ps n. induction B as [|b below B BS IH]; intros [|p ps] n LO L M; cbn in L, M; subst n; try (cbn in *; lia); [reflexivity|]. cbn in M. cbn [repeat length combine map blend_all] in *.
  inversion LO as [|? ? (X1 & X2 & X3) LO']. subst. cbn [fst snd] in *. f_equal; [apply blend_exact; assumption|]. apply IH; [exact LO'|lia|lia].
Qed.
Lemma blend_opaque below ps n : layer_ok ps (repeat 0 n) -> length below = n -> length ps = n -> blend_all below ps (repeat 0 n) = ps.
Proof.
  revert ps n. induction below as [|b below IH]; intros [|p ps] n LO L M; cbn in L, M; subst n; try (cbn in *; lia); [reflexivity|]. cbn in M. cbn [repeat length combine map blend_all] in *.
  inversion LO as [|? ? (X1 & X2 & X3) LO']. subst. cbn [fst snd] in *. f_equal; [apply blended_0; assumption|]. apply IH; [exact LO'|lia|lia].
Qed.
Lemma blend_hidden below ps n : Forall is_pixel below -> layer_ok ps (repeat 32 n) -> length below = n -> length ps = n -> blend_all below ps (repeat 32 n) = below.
Proof.
  intros B. revert ps n. induction B as [|b below B BS IH]; intros [|p ps] n LO L M; cbn in L, M; subst n; try (cbn in *; lia); [reflexivity|]. cbn in M. cbn [repeat length combine map blend_all] in *.
  inversion LO as [|? ? (X1 & X2 & X3) LO']. subst. cbn [fst snd] in *. f_equal; [apply blended_32; assumption|]. apply IH; [exact LO'|lia|lia].
Qed.
Lemma blend_all_length below ps al : length below = length ps -> length al = length ps -> length (blend_all below ps al) = length ps.
Proof. revert ps al. induction below as [|b below IH]; intros [|p ps] [|a al] L M; cbn in *; try lia. rewrite IH; lia. Qed.
Lemma layer_pixels ps al : length al = length ps -> layer_ok ps al -> Forall is_pixel ps.
Proof. revert al. induction ps as [|p ps IH]; intros [|a al] L LO; cbn in L; try lia; [constructor|]. inversion LO as [|? ? (X1 & _) LO']; subst. constructor; [exact X1|]. apply (IH al); [lia|exact LO']. Qed.
Lemma layer_split n ps al : layer_ok ps al -> layer_ok (firstn n ps) (firstn n al) /\ layer_ok (skipn n ps) (skipn n al).
Proof.
  revert ps al. induction n as [|n IH]; intros ps al LO; [cbn; split; [constructor|exact LO]|]. destruct ps as [|p ps]; [cbn; split; constructor|]. destruct al as [|a al]; [cbn; split; [constructor|]; destruct (skipn n ps); constructor|].
  inversion LO; subst. destruct (IH ps al) as (A & B); [assumption|]. cbn. split; [constructor; assumption|exact B].
Qed.
Lemma apply_segment_ok c hist a run raw ps al below rest : codec_ok c -> layer_ok ps al -> Forall is_pixel below -> (1 <= run <= 64)%nat -> length ps = run -> length al = run -> (run <= length below)%nat ->
  (raw = false -> al = repeat a run /\ (2 <= run)%nat) ->
  let '(c1, bytes) := enc_segment c a run raw ps al in
  apply_segment c hist (bytes ++ rest) below = Some (c1, blend_all (firstn run below) ps al, rest) /\ codec_ok c1.
Proof.
  intros C LO B R LP LA LB SAME. unfold enc_segment. assert (P : Forall is_pixel ps) by (apply (layer_pixels ps al); [lia|exact LO]).
  assert (HN : S (Z.to_nat (Z.of_nat run - 1)) = run) by lia.
  pose proof (encodePixels_ok c hist ps rest C P) as (_ & OK & _).
  assert (BL : forall h more, DecodeBlock c h (snd (encodePixels c ps) ++ more) run = Some (fst (encodePixels c ps), ps, more)) by (intros h more; rewrite <- LP; apply block_ok; assumption).
  assert (FB : Forall is_pixel (firstn run below)). { rewrite <- (firstn_skipn run below) in B. apply Forall_app in B. apply B. }
  assert (LF : length (firstn run below) = run) by (apply firstn_length_le; exact LB).
  destruct (encodePixels c ps) as (c1, out) eqn:E. cbn [fst snd] in *.
  destruct raw.
  - destruct (header 1 (Z.of_nat run - 1)) as (H1 & H2); [lia|lia|]. change (1 * 64) with 64 in *. unfold apply_segment. cbn [app].
    rewrite H1, H2, HN. cbn [Z.eqb Pos.eqb]. rewrite <- app_assoc, BL. rewrite app_length, LA. replace (run <=? run + length rest)%nat with true by lia.
    split; [|exact OK].
    rewrite firstn_app, skipn_app, LA, Nat.sub_diag. rewrite (firstn_all2 al), (skipn_all2 al) by lia. cbn [firstn skipn app]. rewrite app_nil_r. rewrite blend_raw; try assumption; try lia. reflexivity.
  - destruct (SAME eq_refl) as (AL & R2). destruct (Z.eqb_spec a 32) as [->|A32].
    + destruct (header 0 (Z.of_nat run - 1)) as (H1 & H2); [lia|lia|]. change (0 * 64 + (Z.of_nat run - 1)) with (Z.of_nat run - 1) in *. unfold apply_segment. cbn [app].
      rewrite H1, H2, HN. cbn [Z.eqb]. rewrite AL in *. rewrite blend_hidden; try assumption. auto.
    + destruct (Z.eqb_spec a 0) as [->|A0].
      * destruct (header 3 (Z.of_nat run - 1)) as (H1 & H2); [lia|lia|]. change (3 * 64) with 192 in *. unfold apply_segment. cbn [app].
        rewrite H1, H2, HN. cbn [Z.eqb Pos.eqb]. rewrite BL. rewrite (firstn_all2 ps) by lia. rewrite AL in *. rewrite blend_opaque; try assumption. auto.
      * destruct (header 2 (Z.of_nat run - 1)) as (H1 & H2); [lia|lia|]. change (2 * 64) with 128 in *. unfold apply_segment. cbn [app].
        rewrite H1, H2, HN. cbn [Z.eqb Pos.eqb]. rewrite <- app_assoc, BL. cbn [app]. rewrite AL in *. rewrite blend_same with (n := run); try assumption. auto.
Qed.
Lemma apply_ok rounds : forall rounds2 c hist ps al past below rest, codec_ok c -> layer_ok ps al -> Forall is_pixel below -> length ps = length al -> length below = length ps -> (length al <= rounds)%nat -> (length al <= rounds2)%nat ->
  let '(c2, out) := encode_alphas rounds c ps al past in
  apply_alphas rounds2 c hist (out ++ rest) below = Some (c2, blend_all below ps al, rest).
Proof.
  induction rounds as [|rounds IH]; intros rounds2 c hist ps al past below rest C LO B L LB R R2.
  - destruct al; [|cbn in R; lia]. destruct ps; [|discriminate]. destruct below; [|discriminate]. cbn. destruct rounds2; reflexivity.
  - destruct al as [|a al]; [destruct ps; [|discriminate]; destruct below; [|discriminate]; cbn; destruct rounds2; reflexivity|].
    rewrite encode_alphas_eq. pose proof (segment_spec a al past) as SG. destruct (segment (a :: al) past) as (run, raw). destruct SG as (S1 & S2 & S3).
    destruct (layer_split run ps (a :: al) LO) as (LO1 & LO2).
    assert (L1 : length (firstn run ps) = run) by (apply firstn_length_le; lia). assert (L2 : length (firstn run (a :: al)) = run) by (apply firstn_length_le; lia).
    assert (RB : (run <= length below)%nat) by lia.
    pose proof (fun more => apply_segment_ok c hist a run raw (firstn run ps) (firstn run (a :: al)) below more C LO1 B S1 L1 L2 RB S3) as AS.
    destruct (enc_segment c a run raw (firstn run ps) (firstn run (a :: al))) as (c1, bytes).
    assert (C1 : codec_ok c1) by (destruct (AS []) as (_ & X); exact X).
    assert (BB : Forall is_pixel (skipn run below)). { rewrite <- (firstn_skipn run below) in B. apply Forall_app in B. apply B. }
    assert (LF : length (firstn run below) = run) by (apply firstn_length_le; exact RB).
    destruct rounds2 as [|rounds2]; [cbn in R2; lia|].
    pose proof (fun hist => IH rounds2 c1 hist (skipn run ps) (skipn run (a :: al)) past (skipn run below) rest C1 LO2 BB ltac:(rewrite !skipn_length; lia) ltac:(rewrite !skipn_length; lia) ltac:(rewrite skipn_length; lia) ltac:(rewrite skipn_length; lia)) as I.
    destruct (encode_alphas rounds c1 _ _ past) as (c2, more). destruct (AS (more ++ rest)) as (A1 & _).
    rewrite <- app_assoc. destruct below as [|b below]; [cbn in RB; lia|]. cbn [apply_alphas]. rewrite A1.
    assert (LBA : length (blend_all (firstn run (b :: below)) (firstn run ps) (firstn run (a :: al))) = run) by (rewrite blend_all_length; lia).
    rewrite LBA, I. rewrite <- blend_all_app by lia. rewrite !firstn_skipn. reflexivity.
Qed.

(** * Files *)
Lemma number_ok n rest : 0 <= n < 2 ^ 32 -> get32 (AddNumber n ++ rest) = n.
Proof.
  intros N. unfold get32, AddNumber. cbn [app nth]. change 0xff with (Z.ones 8). rewrite !Z.land_ones by lia. rewrite !Z.shiftr_div_pow2, !Z.shiftl_mul_pow2 by lia.
  change (2 ^ 8) with 256. change (2 ^ 16) with 65536. change (2 ^ 24) with 16777216.
  assert (E : n mod 256 + n / 256 mod 256 * 256 + n / 65536 mod 256 * 65536 + n / 16777216 mod 256 * 16777216 = n) by (Z.div_mod_to_equations; lia).
  rewrite E. unfold u32. apply Z.mod_small. exact N.
Qed.
Lemma file_ok p past : picture_ok p ->
  exists ds, decode_file (encode_file p past) = Some (Picture (w p) (h p) ds (alphas p)) /\
  (alphas p = [] -> ds = pixels p) /\ (alphas p <> [] -> sees_all ds (pixels p) (alphas p)).
Proof.
  intros (W & H & WH & L & P & A). destruct p as [w0 h0 ps al]. cbn [w h pixels alphas] in *. unfold encode_file, decode_file. cbn [w h pixels alphas].
  assert (HD : forall magic (len body : list Z), length magic = 4%nat -> length len = 4%nat -> 
    get32 (skipn 8 (magic ++ len ++ AddNumber w0 ++ AddNumber h0 ++ body)) = w0 /\ get32 (skipn 12 (magic ++ len ++ AddNumber w0 ++ AddNumber h0 ++ body)) = h0 /\
    skipn 16 (magic ++ len ++ AddNumber w0 ++ AddNumber h0 ++ body) = body).
  { intros magic len body M N. destruct magic as [|m0 [|m1 [|m2 [|m3 [|]]]]]; try discriminate. destruct len as [|n0 [|n1 [|n2 [|n3 [|]]]]]; try discriminate. split; [|split].
    - apply (number_ok w0 (AddNumber h0 ++ body)). lia.
    - apply (number_ok h0 body). lia.
    - reflexivity. }
  assert (NN : Z.to_nat (w0 * h0) = length ps) by lia.
  destruct al as [|a al].
  - set (body := snd (encodePixels codec0 ps)). destruct (HD PQOI (AddNumber (Z.of_nat (length body) + 16 - 8)) body eq_refl eq_refl) as (E1 & E2 & E3).
    assert (G : get32 (PQOI ++ AddNumber (Z.of_nat (length body) + 16 - 8) ++ AddNumber w0 ++ AddNumber h0 ++ body) = get32 PQOI) by reflexivity.
    rewrite G, E1, E2, E3, Z.eqb_refl, NN. unfold body. rewrite <- (app_nil_r (snd (encodePixels codec0 ps))). rewrite block_ok by (try exact codec0_ok; exact P).
    rewrite firstn_all. exists ps. split; [reflexivity|]. split; [auto|congruence].
  - destruct A as [A|A]; [discriminate|]. set (AL := a :: al) in *.
    assert (NR : length ps = (Z.to_nat h0 * Z.to_nat w0)%nat) by (rewrite <- NN; rewrite Z2Nat.inj_mul by lia; lia).
    pose proof (encode_rows_ok (Z.to_nat h0) (Z.to_nat w0) codec0 [] ps AL past [] codec0_ok P (eq_sym A) NR) as ER. destruct (encode_rows _ _ codec0 ps AL past) as (c2, out). cbn [snd].
    destruct ER as (ds & D1 & D2 & _). rewrite app_nil_r in D1. destruct (sees_all_length _ _ _ D2) as (LD & LA).
    destruct (HD PQOA (AddNumber (Z.of_nat (length out) + 16 - 8)) out eq_refl eq_refl) as (E1 & E2 & E3).
    assert (G : get32 (PQOA ++ AddNumber (Z.of_nat (length out) + 16 - 8) ++ AddNumber w0 ++ AddNumber h0 ++ out) = get32 PQOA) by reflexivity.
    rewrite G, E1, E2, E3, NN. change (get32 PQOA =? get32 PQOI) with false. rewrite Z.eqb_refl. unfold DecodeBlockWithAlphas. rewrite <- LD.
    rewrite (adecodes_run _ _ _ _ _ _ _ D1) by lia. rewrite firstn_all. rewrite (firstn_all2 AL) by lia. exists ds. split; [reflexivity|]. split; [unfold AL; discriminate|auto].
Qed.
