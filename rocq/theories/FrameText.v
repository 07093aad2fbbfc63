From Coq Require Import ZArith List Bool Lia ZifyBool ZifyNat.
From Verif Require Import FrameModel FrameSpec FrameProofs FrameConv FramePerm.
Import ListNotations.
Open Scope Z_scope.

Lemma cut_bits H t v r : 0 <= t <= H -> 0 <= r -> Z.testbit ((v mod 2 ^ t) mod 2 ^ H) r = (r <? t) && Z.testbit v r.
Proof.
  intros T R. destruct (Z_lt_le_dec r H).
  - rewrite Z.mod_pow2_bits_low by lia. destruct (Z.ltb_spec r t); [rewrite Z.mod_pow2_bits_low by lia; reflexivity|rewrite Z.mod_pow2_bits_high by lia; reflexivity].
  - rewrite Z.mod_pow2_bits_high by lia. replace (r <? t) with false by lia. reflexivity.
Qed.
Lemma draw2_ok W H t d x shift : 0 <= t <= H -> - H < shift < H -> forall n f i, screen W H f -> 0 <= x + i -> x + i + Z.of_nat n <= W ->
  draws W H (draw2 W H t f x i shift d n) (fun x' y => pixel f x' y || (between i (x' - x) (i + Z.of_nat n) && between 0 (y - shift) t && Z.testbit (d (x' - x)) (y - shift))).
Proof.
  intros T SH. induction n as [|n IH]; intros f i SC X1 X2.
  - exists f. split; [reflexivity|]. split; [exact SC|]. intros x' y X Y. unfold between. replace ((i <=? x' - x) && (x' - x <? i + Z.of_nat 0)) with false by lia. rewrite orb_false_r. reflexivity.
  - cbn [draw2]. cbv zeta. set (v := (d i mod 2 ^ t) mod 2 ^ H). assert (V : 0 <= v < 2 ^ H) by (apply mod_word; lia).
    assert (S1 : exists w, (if 0 <? shift then shl H v shift else if shift <? 0 then shr H v (- shift) else Some v) = Some w /\ 0 <= w < 2 ^ H /\
      forall y, 0 <= y < H -> Z.testbit w y = between 0 (y - shift) t && Z.testbit (d i) (y - shift)).
    { destruct (Z.ltb_spec 0 shift).
      - eexists. split; [apply shl_some; lia|]. split; [apply mod_word; lia|]. intros y Y. rewrite shl_bits by lia. unfold between. destruct (Z.leb_spec shift y).
        + unfold v. rewrite cut_bits by lia. replace (y <? H) with true by lia. replace (0 <=? y - shift) with true by lia. reflexivity.
        + rewrite andb_false_r. replace (0 <=? y - shift) with false by lia. reflexivity.
      - destruct (Z.ltb_spec shift 0).
        + eexists. split; [unfold shr; replace ((0 <=? - shift) && (- shift <? H)) with true by lia; reflexivity|]. split; [apply shr_word; [lia|exact V]|].
          intros y Y. rewrite Z.shiftr_spec by lia. unfold v. rewrite cut_bits by lia. unfold between. replace (0 <=? y - shift) with true by lia. replace (y + - shift) with (y - shift) by lia. reflexivity.
        + exists v. split; [reflexivity|]. split; [exact V|]. intros y Y. unfold v. rewrite cut_bits by lia. unfold between. replace (y - shift) with y by lia. replace (0 <=? y) with true by lia. reflexivity. }
    destruct S1 as (w & -> & WW & WB). cbn [bind]. unfold modify, inside. replace ((0 <=? x + i) && (x + i <? W)) with true by lia. cbn [bind].
    assert (SC' : screen W H (put f (x + i) (Z.lor (f (x + i)) w))).
    { intros z Z. unfold put. destruct (Z.eqb_spec z (x + i)); [apply lor_word; [lia|apply SC; lia|exact WW]|apply SC; exact Z]. }
    eapply draws_ext; [|apply IH; [exact SC'|lia|lia]]. intros x' y X Y. cbn beta. unfold pixel, put. destruct (Z.eqb_spec x' (x + i)) as [E|E].
    + rewrite Z.lor_spec, WB by exact Y. unfold between. replace (x' - x) with i by lia. replace ((i + 1 <=? i) && (i <? i + 1 + Z.of_nat n)) with false by lia. replace ((i <=? i) && (i <? i + Z.of_nat (S n))) with true by lia.
      rewrite E. cbn [andb]. rewrite orb_false_r. reflexivity.
    + f_equal. f_equal. f_equal. unfold between. lia.
Qed.

(** A glyph that can be drawn on a screen of H rows. *)
Definition drawable (maxh H : Z) (g : glyph) : Prop :=
  (column_size g = 0 \/ (column_size g = 1 /\ 16 <= maxh) \/ (column_size g = 3 /\ 32 <= maxh)) /\ glyph_rows g <= H.
Theorem draw_ok maxh W H f g x y : 0 <= W -> screen W H f -> drawable maxh H g -> - H < y + yoffset g < H ->
  draws W H (draw maxh W H f g x y) (fun x' y' => pixel f x' y' || lit_by (g, x, y) x' y').
Proof.
  intros HW SC (CS & GR) Y. unfold draw. cbv zeta. unfold glyph_rows in GR.
  assert (Q : forall t, t = 8 * (column_size g + 1) ->
    draws W H (draw2 W H t f (x + xoffset g) (Z.max 0 (- (x + xoffset g))) (y + yoffset g) (data g) (Z.to_nat (Z.min (columns g) (W - (x + xoffset g)) - Z.max 0 (- (x + xoffset g)))))
      (fun x' y' => pixel f x' y' || lit_by (g, x, y) x' y')).
  { intros t T. assert (T8 : 0 <= t <= H) by (destruct CS as [CS|[CS|CS]]; lia).
    set (b := Z.max 0 (- (x + xoffset g))). set (e := Z.min (columns g) (W - (x + xoffset g))).
    destruct (Z_lt_le_dec b e) as [L|L].
    - eapply draws_ext; [|apply draw2_ok; try assumption; unfold b, e in *; lia]. intros x' y' X' Y'. cbn beta. unfold lit_by, glyph_pixel, glyph_rows. rewrite <- T. f_equal.
      replace (x' - (x + xoffset g)) with (x' - x - xoffset g) by lia. replace (y' - (y + yoffset g)) with (y' - y - yoffset g) by lia. f_equal. f_equal.
      unfold between, b, e in *. lia.
    - replace (Z.to_nat (e - b)) with O by lia. exists f. split; [reflexivity|]. split; [exact SC|]. intros x' y' X' Y'. unfold lit_by, glyph_pixel.
      replace (between 0 (x' - x - xoffset g) (columns g)) with false by (unfold between, b, e in *; lia). rewrite orb_false_r. reflexivity. }
  destruct CS as [CS|[(CS & M)|(CS & M)]]; rewrite CS.
  - apply Q. lia.
  - change (1 =? 0) with false. replace ((1 =? 1) && (16 <=? maxh)) with true by lia. apply Q. lia.
  - change (3 =? 0) with false. change (3 =? 1) with false. replace ((3 =? 3) && (32 <=? maxh)) with true by lia. apply Q. lia.
Qed.
Theorem draw_text_ok maxh W H font : 0 <= W -> forall str f x y, screen W H f -> ~ In 127 str ->
  (forall c, In c str -> 32 <= c <= 126 -> (Z.to_nat (c - 32) < length font)%nat) ->
  (forall g gx gy, In (g, gx, gy) (placed font x y str) -> drawable maxh H g /\ - H < gy + yoffset g < H) ->
  draws W H (draw_text maxh W H font f x y str) (fun x' y' => pixel f x' y' || existsb (fun p => lit_by p x' y') (placed font x y str)).
Proof.
  intros HW. induction str as [|c str IH]; intros f x y SC N F D.
  - exists f. split; [reflexivity|]. split; [exact SC|]. intros x' y' _ _. cbn. rewrite orb_false_r. reflexivity.
  - cbn [draw_text placed] in *. assert (N' : ~ In 127 str) by (intros I; apply N; right; exact I). assert (C : c <> 127) by (intros ->; apply N; left; reflexivity).
    assert (F' : forall c, In c str -> 32 <= c <= 126 -> (Z.to_nat (c - 32) < length font)%nat) by (intros; apply F; [right; assumption|assumption]).
    destruct (Z.eqb_spec c 10); [apply IH; assumption|].
    replace (c <=? 127) with (c <=? 126) by lia. destruct ((32 <=? c) && (c <=? 126)) eqn:R; [|apply IH; assumption].
    specialize (F c (or_introl eq_refl) ltac:(lia)). destruct (nth_error font (Z.to_nat (c - 32))) as [g|] eqn:G; [|apply nth_error_None in G; lia].
    cbn [bind]. destruct (D g x y (or_introl eq_refl)) as (D1 & D2). destruct (draw_ok maxh W H f g x y HW SC D1 D2) as (f' & -> & SC' & SH). cbn [bind].
    eapply draws_ext; [|apply (IH f'); [exact SC'|exact N'|exact F'|intros g0 gx gy I0; apply (D g0 gx gy); right; exact I0]]. intros x' y' X' Y'. cbn beta. rewrite SH by assumption. cbn [existsb]. symmetry. apply orb_assoc.
Qed.

Theorem native_landscape_ok W H iv xo bytes : height H -> 0 < W -> W mod H = 0 -> (forall i, 0 <= bytes i < 256) ->
  draws W H (convert_to_native W H LAYOUT_LANDSCAPE iv xo (load H bytes)) (fun x y => xorb xo (image W bytes x (if iv then H - 1 - y else y))).
Proof.
  intros HH W0 WM BY. assert (HP : 0 < H) by (destruct HH as [->|[->|[->| ->]]]; lia). unfold convert_to_native.
  destruct (landscape_ok W H iv bytes HH W0 WM BY) as (f' & E & SC & SH). rewrite E. cbn [bind]. cbv zeta. destruct xo.
  - eapply draws_ext; [|apply invert_ok; try lia; exact SC]. intros x y X Y. cbn beta. rewrite SH by assumption. reflexivity.
  - exists f'. split; [reflexivity|]. split; [exact SC|]. intros x y X Y. rewrite SH by assumption. symmetry. apply xorb_false_l.
Qed.
(** What a portrait image becomes in native layout (the one a cleared screen has): every group of
    eight pixels of a row is mirrored in place, instead of the whole row. *)
Theorem native_portrait W H bytes : height H -> (forall i, 0 <= bytes i < 256) ->
  draws W H (convert_to_native W H LAYOUT_NATIVE false false (load H bytes)) (fun x y => image H bytes (8 * (y / 8) + (7 - y mod 8)) x).
Proof.
  intros HH BY. exists (load H bytes). split; [reflexivity|]. split; [intros x _; apply load_ok; assumption|]. intros x y X Y. unfold pixel. destruct (load_ok H bytes HH BY x) as (_ & ->); [|exact Y].
  unfold image. pose proof (Z.mod_pos_bound y 8 ltac:(lia)) as M.
  assert (E1 : (8 * (y / 8) + (7 - y mod 8)) / 8 = y / 8) by (symmetry; apply (Z.div_unique _ 8 _ (7 - y mod 8)); lia).
  assert (E2 : (8 * (y / 8) + (7 - y mod 8)) mod 8 = 7 - y mod 8) by (rewrite Z.mod_eq, E1 by lia; lia). rewrite E1, E2. f_equal. lia.
Qed.
