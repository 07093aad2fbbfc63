From Coq Require Import ZArith List Bool Lia ZifyBool ZifyNat.
From Verif Require Import FrameModel FrameSpec.
Import ListNotations.
Open Scope Z_scope.

Lemma put_same f x v : put f x v x = v.
Proof. unfold put. rewrite Z.eqb_refl. reflexivity. Qed.
Lemma put_other f x v i : i <> x -> put f x v i = f i.
Proof. unfold put. intros. destruct (Z.eqb_spec i x); [contradiction|reflexivity]. Qed.
Lemma bind_some {A B} (o : option A) (k : A -> option B) a : o = Some a -> bind o k = k a.
Proof. intros ->. reflexivity. Qed.

(* words *)
Lemma word_bits H v : 0 <= H -> (0 <= v < 2 ^ H <-> 0 <= v /\ forall i, H <= i -> Z.testbit v i = false).
Proof.
  intros HH. split.
  - intros (A & B). split; [exact A|]. intros i I. destruct (Z.eq_dec v 0) as [->|N]; [apply Z.bits_0|].
    apply Z.bits_above_log2; [exact A|]. apply Z.log2_lt_pow2; [lia|]. eapply Z.lt_le_trans; [exact B|]. apply Z.pow_le_mono_r; lia.
  - intros (A & B). split; [exact A|]. destruct (Z_lt_le_dec v (2 ^ H)) as [C|C]; [exact C|]. exfalso.
    assert (P : 0 < v) by (assert (0 < 2 ^ H) by (apply Z.pow_pos_nonneg; lia); lia).
    assert (L : H <= Z.log2 v) by (apply Z.log2_le_pow2; assumption).
    specialize (B (Z.log2 v) L). rewrite Z.bit_log2 in B by lia. discriminate.
Qed.
Lemma shl_bits H v n i : 0 <= n < H -> 0 <= i -> Z.testbit (Z.shiftl v n mod 2 ^ H) i = (i <? H) && (n <=? i) && Z.testbit v (i - n).
Proof.
  intros N I. destruct (Z.ltb_spec i H).
  - rewrite Z.mod_pow2_bits_low by lia. rewrite Z.shiftl_spec by lia. destruct (Z.leb_spec n i); [reflexivity|]. rewrite Z.testbit_neg_r by lia. reflexivity.
  - rewrite Z.mod_pow2_bits_high by lia. reflexivity.
Qed.
Lemma ones_bits H i : 0 <= H -> 0 <= i -> Z.testbit (all_ones H) i = (i <? H).
Proof.
  intros A B. unfold all_ones. replace (2 ^ H - 1) with (Z.ones H) by (rewrite Z.ones_equiv; lia).
  destruct (Z.ltb_spec i H); [apply Z.ones_spec_low|apply Z.ones_spec_high]; lia.
Qed.
Lemma not_bits H v i : 0 <= H -> 0 <= v < 2 ^ H -> 0 <= i < H -> Z.testbit (bnot H v) i = negb (Z.testbit v i).
Proof.
  intros A B I. unfold bnot.
  assert (E : all_ones H - v = Z.lxor (all_ones H) v).
  { assert (L : Z.ldiff v (all_ones H) = 0).
    { apply Z.bits_inj'. intros j J. rewrite Z.ldiff_spec, Z.bits_0, ones_bits by lia. destruct (Z.ltb_spec j H); [destruct (Z.testbit v j); reflexivity|].
      apply word_bits in B; [|lia]. rewrite (proj2 B) by lia. reflexivity. }
    rewrite Z.sub_nocarry_ldiff by exact L. apply Z.bits_inj'. intros j J. rewrite Z.ldiff_spec, Z.lxor_spec, ones_bits by lia.
    destruct (Z.ltb_spec j H); [destruct (Z.testbit v j); reflexivity|].
    apply word_bits in B; [|lia]. rewrite (proj2 B) by lia. reflexivity. }
  rewrite E, Z.lxor_spec, ones_bits by lia. replace (i <? H) with true by lia. destruct (Z.testbit v i); reflexivity.
Qed.
Lemma bnot_word H v : 0 <= H -> 0 <= v < 2 ^ H -> 0 <= bnot H v < 2 ^ H.
Proof. unfold bnot, all_ones. lia. Qed.
Lemma lor_word H a b : 0 <= H -> 0 <= a < 2 ^ H -> 0 <= b < 2 ^ H -> 0 <= Z.lor a b < 2 ^ H.
Proof.
  intros HH A B. apply word_bits in A; [|lia]. apply word_bits in B; [|lia]. apply word_bits; [lia|]. split; [apply Z.lor_nonneg; lia|].
  intros i I. rewrite Z.lor_spec, (proj2 A), (proj2 B) by lia. reflexivity.
Qed.
Lemma land_word H a b : 0 <= H -> 0 <= a < 2 ^ H -> 0 <= b < 2 ^ H -> 0 <= Z.land a b < 2 ^ H.
Proof.
  intros HH A B. apply word_bits in A; [|lia]. apply word_bits; [lia|]. split; [apply Z.land_nonneg; lia|].
  intros i I. rewrite Z.land_spec, (proj2 A) by lia. reflexivity.
Qed.
Lemma lxor_word H a b : 0 <= H -> 0 <= a < 2 ^ H -> 0 <= b < 2 ^ H -> 0 <= Z.lxor a b < 2 ^ H.
Proof.
  intros HH A B. apply word_bits in A; [|lia]. apply word_bits in B; [|lia]. apply word_bits; [lia|]. split; [apply Z.lxor_nonneg; lia|].
  intros i I. rewrite Z.lxor_spec, (proj2 A), (proj2 B) by lia. reflexivity.
Qed.
Lemma mod_word H v : 0 <= H -> 0 <= v mod 2 ^ H < 2 ^ H.
Proof. intros. apply Z.mod_pos_bound. apply Z.pow_pos_nonneg; lia. Qed.
Lemma shr_word H v n : 0 <= n -> 0 <= v < 2 ^ H -> 0 <= Z.shiftr v n < 2 ^ H.
Proof.
  intros N V. rewrite Z.shiftr_div_pow2 by lia. assert (0 < 2 ^ n) by (apply Z.pow_pos_nonneg; lia). split; [apply Z.div_pos; lia|].
  apply Z.div_lt_upper_bound; [lia|]. nia.
Qed.

(* loops over columns *)
Lemma each_column_spec W g : forall n f x, 0 <= x -> x + Z.of_nat n <= W ->
  exists f', each_column W g f x n = Some f' /\ forall i, f' i = if between x i (x + Z.of_nat n) then g (f i) else f i.
Proof.
  induction n as [|n IH]; intros f x X B.
  - exists f. split; [reflexivity|]. intros i. unfold between. replace ((x <=? i) && (i <? x + Z.of_nat 0)) with false by lia. reflexivity.
  - cbn [each_column]. unfold modify, inside. replace ((0 <=? x) && (x <? W)) with true by lia. cbn [bind].
    destruct (IH (put f x (g (f x))) (x + 1)) as (f' & E & Q); [lia|lia|]. exists f'. split; [exact E|]. intros i. rewrite Q. unfold between.
    destruct (Z.eq_dec i x) as [->|N].
    + rewrite put_same. replace ((x + 1 <=? x) && (x <? x + 1 + Z.of_nat n)) with false by lia. replace ((x <=? x) && (x <? x + Z.of_nat (S n))) with true by lia. reflexivity.
    + rewrite put_other by exact N. replace ((x + 1 <=? i) && (i <? x + 1 + Z.of_nat n)) with ((x <=? i) && (i <? x + Z.of_nat (S n))) by lia. reflexivity.
Qed.
Lemma columns_draw W H g f x1 x2 (q : Z -> Z -> bool) : 0 <= H -> 0 <= x1 <= x2 -> x2 <= W -> screen W H f ->
  (forall x, x1 <= x < x2 -> 0 <= g (f x) < 2 ^ H) -> (forall x y, x1 <= x < x2 -> 0 <= y < H -> Z.testbit (g (f x)) y = q x y) ->
  draws W H (each_column W g f x1 (Z.to_nat (x2 - x1))) (fun x y => if between x1 x x2 then q x y else pixel f x y).
Proof.
  intros HH X1 X2 SC G Q. destruct (each_column_spec W g (Z.to_nat (x2 - x1)) f x1) as (f' & E & S); [lia|lia|].
  replace (x1 + Z.of_nat (Z.to_nat (x2 - x1))) with x2 in S by lia.
  exists f'. split; [exact E|]. split.
  - intros x X. rewrite S. unfold between. destruct ((x1 <=? x) && (x <? x2)) eqn:B; [apply G; lia|apply SC; exact X].
  - intros x y X Y. unfold pixel. rewrite S. destruct (between x1 x x2) eqn:B; [|reflexivity]. apply Q; [unfold between in B; lia|exact Y].
Qed.
Lemma modify_each W g f x : modify W g f x = each_column W g f x 1.
Proof. cbn [each_column]. destruct (modify W g f x); reflexivity. Qed.
Lemma draws_ext W H o p q : (forall x y, 0 <= x < W -> 0 <= y < H -> p x y = q x y) -> draws W H o p -> draws W H o q.
Proof. intros E (f & A & B & C). exists f. split; [exact A|]. split; [exact B|]. intros x y X Y. rewrite <- E by assumption. apply C; assumption. Qed.

Lemma mask_bits H y1 y2 : 0 <= y1 < y2 -> y2 <= H -> exists m, rows_mask H y1 y2 = Some m /\ 0 <= m < 2 ^ H /\ forall i, 0 <= i -> Z.testbit m i = (i <? y2 - y1).
Proof.
  intros Y1 Y2. unfold rows_mask, shr. replace ((0 <=? H - (y2 - y1)) && (H - (y2 - y1) <? H)) with true by lia. eexists. split; [reflexivity|]. split.
  - apply shr_word; [lia|]. unfold all_ones. assert (0 < 2 ^ H) by (apply Z.pow_pos_nonneg; lia). lia.
  - intros i I. rewrite Z.shiftr_spec by lia. rewrite ones_bits by lia. lia.
Qed.
Lemma shl_some H v n : 0 <= n < H -> shl H v n = Some (Z.shiftl v n mod 2 ^ H).
Proof. intros. unfold shl. replace ((0 <=? n) && (n <? H)) with true by lia. reflexivity. Qed.
Lemma one_bit H y i : 0 <= y < H -> 0 <= i < H -> Z.testbit (Z.shiftl 1 y mod 2 ^ H) i = (i =? y).
Proof.
  intros Y I. rewrite shl_bits by lia. destruct (Z.eqb_spec i y) as [->|N].
  - rewrite Z.sub_diag. replace ((y <? H) && (y <=? y)) with true by lia. reflexivity.
  - destruct (Z.leb_spec y i); [|rewrite andb_false_r; reflexivity]. replace (Z.testbit 1 (i - y)) with false; [apply andb_false_r|].
    symmetry. change 1 with (2 ^ 0). apply Z.pow2_bits_false. lia.
Qed.

Theorem set_pixel_ok W H f x y : screen W H f -> 0 <= x < W -> 0 <= y < H ->
  draws W H (set_pixel W H f x y) (fun x' y' => pixel f x' y' || ((x' =? x) && (y' =? y))).
Proof.
  intros SC X Y. unfold set_pixel. rewrite shl_some by lia. cbn [bind]. rewrite modify_each. replace 1%nat with (Z.to_nat (x + 1 - x)) by lia.
  eapply draws_ext; [|apply (columns_draw W H _ f x (x + 1) (fun x' y' => pixel f x' y' || (y' =? y))); try lia; try assumption].
  - intros x' y' X' Y'. cbn beta. unfold between. destruct (Z.eqb_spec x' x) as [->|N].
    + replace ((x <=? x) && (x <? x + 1)) with true by lia. reflexivity.
    + replace ((x <=? x') && (x' <? x + 1)) with false by lia. rewrite orb_false_r. reflexivity.
  - intros x' X'. apply lor_word; [lia|apply SC; lia|apply mod_word; lia].
  - intros x' y' X' Y'. cbn beta. rewrite Z.lor_spec, one_bit by lia. reflexivity.
Qed.
Theorem get_pixel_ok W H f x y : 0 <= x < W -> 0 <= y < H -> get_pixel W H f x y = Some (pixel f x y).
Proof.
  intros X Y. unfold get_pixel. rewrite shl_some by lia. cbn [bind]. unfold inside. replace ((0 <=? x) && (x <? W)) with true by lia. f_equal.
  unfold pixel. destruct (Z.testbit (f x) y) eqn:T.
  - destruct (Z.eqb_spec (Z.land (f x) (Z.shiftl 1 y mod 2 ^ H)) 0) as [E|E]; [|reflexivity].
    apply (f_equal (fun v => Z.testbit v y)) in E. rewrite Z.land_spec, T, one_bit, Z.eqb_refl, Z.bits_0 in E by lia. discriminate.
  - replace (Z.land (f x) (Z.shiftl 1 y mod 2 ^ H)) with 0; [reflexivity|]. symmetry. apply Z.bits_inj'. intros i I. rewrite Z.land_spec, Z.bits_0.
    destruct (Z_lt_le_dec i H).
    + rewrite one_bit by lia. destruct (Z.eqb_spec i y) as [->|N]; [rewrite T; reflexivity|apply andb_false_r].
    + rewrite shl_bits by lia. replace (i <? H) with false by lia. apply andb_false_r.
Qed.
Theorem draw_rect_ok W H f x1 x2 y1 y2 : screen W H f -> 0 <= x1 <= x2 -> x2 <= W -> 0 <= y1 < y2 -> y2 <= H ->
  draws W H (draw_rect W H f x1 x2 y1 y2) (fun x y => pixel f x y || (between x1 x x2 && between y1 y y2)).
Proof.
  intros SC X1 X2 Y1 Y2. unfold draw_rect. destruct (mask_bits H y1 y2 Y1 Y2) as (m & -> & M & B). cbn [bind]. rewrite shl_some by lia. cbn [bind].
  eapply draws_ext; [|apply (columns_draw W H _ f x1 x2 (fun x y => pixel f x y || between y1 y y2)); try lia; try assumption].
  - intros x y X Y. cbn beta. destruct (between x1 x x2); [reflexivity|]. rewrite orb_false_r. reflexivity.
  - intros x X. apply lor_word; [lia|apply SC; lia|apply mod_word; lia].
  - intros x y X Y. cbn beta. rewrite Z.lor_spec, shl_bits by lia. unfold pixel, between. f_equal.
    destruct (Z.leb_spec y1 y); [|rewrite andb_false_r; reflexivity]. rewrite B by lia. lia.
Qed.
Theorem draw_vline_ok W H f x y1 y2 : screen W H f -> 0 <= x < W -> 0 <= y1 < y2 -> y2 <= H ->
  draws W H (draw_vline W H f x y1 y2) (fun x' y => pixel f x' y || ((x' =? x) && between y1 y y2)).
Proof.
  intros SC X Y1 Y2. assert (E : draw_vline W H f x y1 y2 = draw_rect W H f x (x + 1) y1 y2).
  { unfold draw_vline, draw_rect. replace (x + 1 - x) with 1 by lia. destruct (rows_mask H y1 y2); [cbn [bind]|reflexivity]. destruct (shl H z y1); [cbn [bind]|reflexivity].
    rewrite modify_each. reflexivity. }
  rewrite E. eapply draws_ext; [|apply draw_rect_ok; try lia; assumption]. intros x' y X' Y'. cbn beta. f_equal. f_equal. unfold between. lia.
Qed.
Theorem draw_hline_ok W H f x1 x2 y : screen W H f -> 0 <= x1 <= x2 -> x2 <= W -> 0 <= y < H ->
  draws W H (draw_hline W H f x1 x2 y) (fun x y' => pixel f x y' || (between x1 x x2 && (y' =? y))).
Proof.
  intros SC X1 X2 Y. unfold draw_hline. rewrite shl_some by lia. cbn [bind].
  eapply draws_ext; [|apply (columns_draw W H _ f x1 x2 (fun x y' => pixel f x y' || (y' =? y))); try lia; try assumption].
  - intros x y' X Y'. cbn beta. destruct (between x1 x x2); [reflexivity|]. rewrite orb_false_r. reflexivity.
  - intros x X. apply lor_word; [lia|apply SC; lia|apply mod_word; lia].
  - intros x y' X Y'. cbn beta. rewrite Z.lor_spec, one_bit by lia. reflexivity.
Qed.
(** ClearRect clears the rows from 0, not from y1. *)
Theorem clear_rect_ok W H f x1 x2 y1 y2 : screen W H f -> 0 <= x1 <= x2 -> x2 <= W -> 0 <= y1 < y2 -> y2 <= H ->
  draws W H (clear_rect W H f x1 x2 y1 y2) (fun x y => pixel f x y && negb (between x1 x x2 && between 0 y y2)).
Proof.
  intros SC X1 X2 Y1 Y2. unfold clear_rect. destruct (mask_bits H y1 y2 Y1 Y2) as (m & -> & M & B). cbn [bind]. rewrite shl_some by lia. cbn [bind].
  eapply draws_ext; [|apply (columns_draw W H _ f x1 x2 (fun x y => pixel f x y && negb (between 0 y y2))); try lia; try assumption].
  - intros x y X Y. cbn beta. destruct (between x1 x x2); [reflexivity|]. rewrite andb_true_r. reflexivity.
  - intros x X. apply land_word; [lia|apply SC; lia|apply mod_word; lia].
  - intros x y X Y. cbn beta. rewrite Z.land_spec, shl_bits by lia. unfold pixel, between. f_equal.
    destruct (Z.leb_spec y1 y); [|rewrite andb_false_r; lia]. rewrite not_bits by lia. rewrite B by lia. lia.
Qed.
Theorem clear_ok W H f : 0 <= H -> draws W H (Some (clear f)) (fun _ _ => false).
Proof.
  intros HH. exists (clear f). split; [reflexivity|]. split; [intros x X; unfold clear; assert (0 < 2 ^ H) by (apply Z.pow_pos_nonneg; lia); lia|].
  intros x y _ _. apply Z.bits_0.
Qed.
Theorem is_clear_ok W H f : 0 <= H -> screen W H f -> (is_clear W f = true <-> shows W H f (fun _ _ => false)).
Proof.
  intros HH SC. unfold is_clear. rewrite forallb_forall. split.
  - intros A x y X Y. specialize (A (Z.to_nat x)). rewrite in_seq in A. specialize (A ltac:(lia)). rewrite Z2Nat.id in A by lia. unfold pixel.
    replace (f x) with 0 by lia. apply Z.bits_0.
  - intros A i I. apply in_seq in I. apply Z.eqb_eq. apply Z.bits_inj'. intros y Y. rewrite Z.bits_0.
    destruct (Z_lt_le_dec y H); [apply (A (Z.of_nat i) y); lia|]. specialize (SC (Z.of_nat i) ltac:(lia)). apply word_bits in SC; [|lia]. apply (proj2 SC). lia.
Qed.
Theorem invert_ok W H f : 0 <= W -> 0 <= H -> screen W H f -> draws W H (invert W H f) (fun x y => negb (pixel f x y)).
Proof.
  intros HW HH SC. unfold invert. replace (Z.to_nat W) with (Z.to_nat (W - 0)) by lia.
  assert (0 < 2 ^ H) by (apply Z.pow_pos_nonneg; lia).
  eapply draws_ext; [|apply (columns_draw W H _ f 0 W (fun x y => negb (pixel f x y))); try lia; try assumption].
  - intros x y X Y. cbn beta. unfold between. replace ((0 <=? x) && (x <? W)) with true by lia. reflexivity.
  - intros x X. apply lxor_word; [lia|apply SC; lia|unfold all_ones; lia].
  - intros x y X Y. cbn beta. rewrite Z.lxor_spec, ones_bits by lia. replace (y <? H) with true by lia. unfold pixel. destruct (Z.testbit (f x) y); reflexivity.
Qed.

Lemma flip_x_loop_spec W : forall n f i, 0 <= i -> 2 * (i + Z.of_nat n) <= W ->
  forall x, 0 <= x < W -> flip_x_loop W f i n x = if between i x (i + Z.of_nat n) || between i (W - 1 - x) (i + Z.of_nat n) then f (W - 1 - x) else f x.
Proof.
  induction n as [|n IH]; intros f i I B x X.
  - cbn [flip_x_loop]. unfold between. replace ((i <=? x) && (x <? i + Z.of_nat 0) || (i <=? W - 1 - x) && (W - 1 - x <? i + Z.of_nat 0)) with false by lia. reflexivity.
  - cbn [flip_x_loop]. cbv zeta. rewrite IH by lia. unfold between, put.
    repeat match goal with |- context [?a =? ?b] => destruct (Z.eqb_spec a b); try lia end;
    repeat match goal with |- context [if ?b then _ else _] => destruct b eqn:? end; try lia; try reflexivity; f_equal; lia.
Qed.
Theorem flip_x_ok W H f : 0 <= W -> screen W H f -> draws W H (Some (flip_x W f)) (fun x y => pixel f (W - 1 - x) y).
Proof.
  intros HW SC. exists (flip_x W f). split; [reflexivity|].
  assert (E : forall x, 0 <= x < W -> flip_x W f x = f (W - 1 - x)).
  { intros x X. unfold flip_x. assert (D : 2 * (W / 2) <= W < 2 * (W / 2) + 2) by (pose proof (Z.div_mod W 2 ltac:(lia)); pose proof (Z.mod_pos_bound W 2 ltac:(lia)); lia).
    rewrite flip_x_loop_spec by lia. unfold between. destruct ((0 <=? x) && (x <? 0 + Z.of_nat (Z.to_nat (W / 2))) || (0 <=? W - 1 - x) && (W - 1 - x <? 0 + Z.of_nat (Z.to_nat (W / 2)))) eqn:B; [reflexivity|].
    f_equal. lia. }
  split.
  - intros x X. rewrite E by exact X. apply SC. lia.
  - intros x y X Y. unfold pixel. rewrite E by exact X. reflexivity.
Qed.
