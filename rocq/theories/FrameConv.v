From Coq Require Import ZArith List Bool Lia ZifyBool ZifyNat.
From Verif Require Import FrameModel FrameSpec FrameProofs.
Import ListNotations.
Open Scope Z_scope.

(* the rounds of ReverseBits and TransposeSquareInPlace *)
Fixpoint stages (H : Z) (n : nat) (j m : Z) : list (Z * Z) :=
  match n with
  | O => []
  | S n => (j, m) :: let j := Z.shiftr j 1 in let m := Z.lxor m (Z.shiftl m j mod 2 ^ H) in if j =? 0 then [] else stages H n j m
  end.
Definition all_stages (H : Z) : list (Z * Z) := stages H (Z.to_nat H) (H / 2) (2 ^ (H / 2) - 1).
Definition range (H : Z) : list Z := map Z.of_nat (seq 0 (Z.to_nat H)).
Lemma in_range H x : 0 <= x < H -> In x (range H).
Proof. intros X. unfold range. apply in_map_iff. exists (Z.to_nat x). rewrite in_seq. lia. Qed.
Definition stage_ok (H k : Z) (jm : Z * Z) : bool :=
  (0 <=? k) && (fst jm =? 2 ^ k) && (fst jm <? H) && (0 <=? snd jm) && (snd jm <? 2 ^ H) &&
  forallb (fun b => Bool.eqb (Z.testbit (snd jm) b) (negb (Z.testbit b k))) (range H).
Definition levels (H : Z) : list Z := if H =? 8 then [2; 1; 0] else if H =? 16 then [3; 2; 1; 0] else if H =? 32 then [4; 3; 2; 1; 0] else [5; 4; 3; 2; 1; 0].
Lemma stages_good H : height H -> forallb (fun p => stage_ok H (fst p) (snd p)) (combine (levels H) (all_stages H)) = true /\ length (levels H) = length (all_stages H).
Proof. intros [->|[->|[->| ->]]]; split; vm_compute; reflexivity. Qed.
Definition good (H k : Z) (jm : Z * Z) : Prop :=
  0 <= k /\ fst jm = 2 ^ k /\ 2 ^ k < H /\ 0 <= snd jm < 2 ^ H /\ forall b, 0 <= b -> Z.testbit (snd jm) b = (b <? H) && negb (Z.testbit b k).
Lemma stages_forall H : height H -> Forall2 (good H) (levels H) (all_stages H).
Proof.
  intros HH. assert (HP : 0 <= H) by (destruct HH as [->|[->|[->| ->]]]; lia). destruct (stages_good H HH) as (A & L). revert A L. generalize (levels H), (all_stages H). clear HH.
  induction l as [|k l IH]; intros [|jm l'] A L; try discriminate; [constructor|]. cbn [combine forallb fst snd] in A. apply andb_true_iff in A as (A & A'). constructor; [|apply IH; [exact A'|cbn in L; lia]].
  unfold stage_ok in A. rewrite !andb_true_iff in A. destruct A as (((((A1 & A2) & A3) & A4) & A5) & A6). unfold good. split; [lia|]. split; [lia|]. split; [lia|]. split; [lia|].
  intros b B. destruct (Z.ltb_spec b H); cbn [andb].
  - rewrite forallb_forall in A6. specialize (A6 b (in_range _ _ (conj B H0))). apply eqb_prop in A6. exact A6.
  - apply (proj2 (proj1 (word_bits H (snd jm) HP) ltac:(lia))). lia.
Qed.

Lemma pow_levels H : height H -> H = 2 ^ (Z.of_nat (length (levels H))) /\ forall k, In k (levels H) <-> 0 <= k < Z.of_nat (length (levels H)).
Proof. intros [->|[->|[->| ->]]]; (split; [reflexivity|]); intros k; cbn; lia. Qed.

(* reversing the bits of a word *)
Definition rstep (H : Z) (w : Z) (jm : Z * Z) : Z :=
  Z.lor (Z.land (Z.shiftr w (fst jm)) (snd jm)) (Z.shiftl (Z.land w (snd jm)) (fst jm) mod 2 ^ H).
Lemma reverse_fold H : forall n j m w, reverse_loop H n j m w = fold_left (rstep H) (stages H n j m) w.
Proof.
  induction n as [|n IH]; intros; [reflexivity|]. cbn [reverse_loop stages]. cbv zeta. cbn [fold_left]. destruct (Z.shiftr j 1 =? 0); [reflexivity|]. rewrite IH. reflexivity.
Qed.
Lemma flip_range K i k : 0 <= k < K -> 0 <= i < 2 ^ K -> 0 <= Z.lxor i (2 ^ k) < 2 ^ K.
Proof. intros A B. apply lxor_word; [lia|exact B|]. split; [apply Z.pow_nonneg; lia|]. apply Z.pow_lt_mono_r; lia. Qed.
Lemma flip_set k i : 0 <= k -> 0 <= i -> Z.testbit i k = false -> Z.lxor i (2 ^ k) = i + 2 ^ k.
Proof.
  intros A I B. symmetry. apply Z.add_nocarry_lxor. apply Z.bits_inj'. intros n N. rewrite Z.land_spec, Z.bits_0, Z.pow2_bits_eqb by lia.
  destruct (Z.eqb_spec k n) as [<-|]; [rewrite B; reflexivity|apply andb_false_r].
Qed.
Lemma flip_clear k i : 0 <= k -> 0 <= i -> Z.testbit i k = true -> Z.lxor i (2 ^ k) = i - 2 ^ k /\ 2 ^ k <= i.
Proof.
  intros A I B. assert (E : i - 2 ^ k = Z.lxor i (2 ^ k)).
  { rewrite Z.sub_nocarry_ldiff; [|apply Z.bits_inj'; intros n N; rewrite Z.ldiff_spec, Z.bits_0, Z.pow2_bits_eqb by lia; destruct (Z.eqb_spec k n) as [<-|]; [rewrite B|]; reflexivity].
    apply Z.bits_inj'. intros n N. rewrite Z.ldiff_spec, Z.lxor_spec, Z.pow2_bits_eqb by lia. destruct (Z.eqb_spec k n) as [<-|]; [rewrite B; reflexivity|]. destruct (Z.testbit i n); reflexivity. }
  split; [symmetry; exact E|]. assert (0 <= Z.lxor i (2 ^ k)) by (apply Z.lxor_nonneg; split; intros; [apply Z.pow_nonneg; lia|exact I]). lia.
Qed.
Lemma rstep_bits H k jm w i : H = 2 ^ (Z.log2 H) -> good H k jm -> 0 <= i < H -> Z.testbit (rstep H w jm) i = Z.testbit w (Z.lxor i (2 ^ k)).
Proof.
  intros HP (K & J & JH & M & B) I. unfold rstep. rewrite J. assert (P : 0 < 2 ^ k) by (apply Z.pow_pos_nonneg; lia).
  rewrite Z.lor_spec, Z.land_spec, Z.shiftr_spec, shl_bits by lia. rewrite Z.land_spec. rewrite B by lia. replace (i <? H) with true by lia. cbn [andb].
  destruct (Z.testbit i k) eqn:T; cbn [negb].
  - destruct (flip_clear k i K ltac:(lia) T) as (-> & L). rewrite andb_false_r. cbn [orb]. replace (2 ^ k <=? i) with true by lia. cbn [andb]. rewrite B by lia.
    replace (i - 2 ^ k <? H) with true by lia. cbn [andb].
    assert (E : Z.testbit (i - 2 ^ k) k = false).
    { rewrite <- (proj1 (flip_clear k i K ltac:(lia) T)). rewrite Z.lxor_spec, T, Z.pow2_bits_true by lia. reflexivity. }
    rewrite E. cbn [negb]. apply andb_true_r.
  - rewrite (flip_set k i K ltac:(lia) T). rewrite andb_true_r.
    destruct (Z.leb_spec (2 ^ k) i); cbn [andb]; [|apply orb_false_r].
    rewrite B by lia.
    assert (E : Z.testbit (i - 2 ^ k) k = true).
    { rewrite Z.testbit_true by lia. replace (i - 2 ^ k) with (i + (-1) * 2 ^ k) by lia. rewrite Z.div_add by lia. apply Z.testbit_false in T; [|lia].
      replace (i / 2 ^ k + -1) with (1 + (i / 2 ^ k / 2 - 1) * 2) by (pose proof (Z.div_mod (i / 2 ^ k) 2 ltac:(lia)); lia). rewrite Z.mod_add by lia. reflexivity. }
    rewrite E. cbn [negb]. rewrite !andb_false_r. apply orb_false_r.
Qed.
Definition flips (ks : list Z) (i : Z) : Z := fold_right (fun k a => Z.lxor a (2 ^ k)) i ks.
Lemma flips_range K ks i : (forall k, In k ks -> 0 <= k < K) -> 0 <= i < 2 ^ K -> 0 <= flips ks i < 2 ^ K.
Proof.
  induction ks as [|k ks IH]; intros A I; [exact I|]. cbn [flips fold_right]. apply flip_range; [apply A; left; reflexivity|]. apply IH; [|exact I]. intros; apply A; right; assumption.
Qed.
Lemma reverse_fold_bits H K : H = 2 ^ K -> 0 <= K -> forall ks l, Forall2 (good H) ks l -> (forall k, In k ks -> 0 <= k < K) ->
  forall w i, 0 <= i < H -> Z.testbit (fold_left (rstep H) l w) i = Z.testbit w (flips ks i).
Proof.
  intros HK KP ks l F. induction F as [|k jm ks l G F IH]; intros A w i I; [reflexivity|].
  cbn [fold_left]. rewrite IH by (try assumption; intros; apply A; right; assumption).
  assert (R : 0 <= flips ks i < H) by (rewrite HK; apply flips_range; [intros; apply A; right; assumption|lia]).
  apply (rstep_bits H k jm); [|exact G|exact R]. rewrite HK, Z.log2_pow2 by lia. reflexivity.
Qed.
Lemma flips_bits ks : NoDup ks -> (forall k, In k ks -> 0 <= k) -> forall i n, 0 <= i -> 0 <= n ->
  Z.testbit (flips ks i) n = xorb (Z.testbit i n) (existsb (Z.eqb n) ks).
Proof.
  induction ks as [|k ks IH]; intros N A i n I P; [cbn; rewrite xorb_false_r; reflexivity|]. inversion N; subst. cbn [flips fold_right existsb].
  rewrite Z.lxor_spec. fold (flips ks i). rewrite IH; try assumption; [|intros; apply A; right; assumption]. rewrite Z.pow2_bits_eqb by (apply A; left; reflexivity).
  rewrite (Z.eqb_sym n k). destruct (Z.eqb_spec k n) as [<-|E]; cbn [orb].
  - replace (existsb (Z.eqb k) ks) with false; [destruct (Z.testbit i k); reflexivity|]. symmetry. apply Bool.not_true_is_false. rewrite existsb_exists. intros (y & Y & E). apply Z.eqb_eq in E. subst. contradiction.
  - rewrite xorb_false_r. reflexivity.
Qed.
Lemma bnot_bits H i n : 0 <= H -> 0 <= i < 2 ^ H -> 0 <= n -> Z.testbit (2 ^ H - 1 - i) n = xorb (Z.testbit i n) (n <? H).
Proof.
  intros HH I N. change (2 ^ H - 1 - i) with (bnot H i). destruct (Z.ltb_spec n H).
  - rewrite not_bits by lia. rewrite xorb_true_r. reflexivity.
  - pose proof (bnot_word H i HH I) as B. apply word_bits in B; [|lia]. rewrite (proj2 B) by lia. apply word_bits in I; [|lia]. rewrite (proj2 I) by lia. reflexivity.
Qed.
Lemma levels_nodup H : height H -> NoDup (levels H).
Proof. intros [->|[->|[->| ->]]]; cbn; repeat constructor; cbn; lia. Qed.
Lemma flips_all H i : height H -> 0 <= i < H -> flips (levels H) i = H - 1 - i.
Proof.
  intros HH I. destruct (pow_levels H HH) as (P & L). set (K := Z.of_nat (length (levels H))) in *. apply Z.bits_inj'. intros n N.
  rewrite flips_bits; [|apply levels_nodup; exact HH|intros k J; apply L in J; lia|lia|exact N].
  replace (H - 1 - i) with (2 ^ K - 1 - i) by lia. rewrite bnot_bits by lia. f_equal. apply Bool.eq_true_iff_eq. rewrite existsb_exists. split.
  - intros (k & A & B). apply L in A. lia.
  - intros A. exists n. split; [apply L; lia|apply Z.eqb_refl].
Qed.
Lemma reverse_bits_ok H w : height H -> H <> 64 -> exists w', reverse_bits H w = Some w' /\ 0 <= w' < 2 ^ H /\ forall i, 0 <= i < H -> Z.testbit w' i = Z.testbit w (H - 1 - i).
Proof.
  intros HH N64. destruct (pow_levels H HH) as (P & L). pose proof (stages_forall H HH) as F. assert (HP : 0 <= H) by lia.
  exists (fold_left (rstep H) (all_stages H) w). split.
  - unfold reverse_bits. replace (H / 2 <? 31) with true by (destruct HH as [->|[->|[->| ->]]]; try reflexivity; lia). rewrite reverse_fold. reflexivity.
  - split.
    + assert (Q : forall l ks, Forall2 (good H) ks l -> l <> [] -> forall w, 0 <= fold_left (rstep H) l w < 2 ^ H).
      { intros l ks F'. assert (A : forall w jm k, good H k jm -> 0 <= rstep H w jm < 2 ^ H).
        { intros w0 jm k (G1 & G2 & G3 & G4 & G5). unfold rstep. apply lor_word; [exact HP| |apply mod_word; exact HP].
          pose proof G4 as G6. apply word_bits in G6; [|exact HP]. apply word_bits; [exact HP|]. split; [apply Z.land_nonneg; lia|]. intros i I. rewrite Z.land_spec, (proj2 G6) by lia. apply andb_false_r. }
        induction F' as [|k jm ks' l' G F' IH]; intros NE w0; [congruence|]. cbn [fold_left]. destruct l'; [cbn [fold_left]; apply (A w0 jm k G)|apply IH; discriminate]. }
      apply (Q _ _ F). destruct HH as [->|[->|[->| ->]]]; discriminate.
    + intros i I. rewrite (reverse_fold_bits H _ P ltac:(lia) _ _ F) by (try assumption; intros k J; apply L in J; exact J). rewrite flips_all by assumption. reflexivity.
Qed.
Lemma flip_y_loop_ok H : height H -> H <> 64 -> forall n f x, exists f', flip_y_loop H f x n = Some f' /\
  (forall i, between x i (x + Z.of_nat n) = true -> 0 <= f' i < 2 ^ H /\ forall y, 0 <= y < H -> Z.testbit (f' i) y = Z.testbit (f i) (H - 1 - y)) /\
  (forall i, between x i (x + Z.of_nat n) = false -> f' i = f i).
Proof.
  intros HH N64. induction n as [|n IH]; intros f x.
  - exists f. split; [reflexivity|]. unfold between. split; intros i I; [lia|reflexivity].
  - cbn [flip_y_loop]. destruct (reverse_bits_ok H (f x) HH N64) as (v & -> & V & B). cbn [bind].
    destruct (IH (put f x v) (x + 1)) as (f' & -> & A1 & A2). exists f'. split; [reflexivity|]. unfold between in *. split.
    + intros i I. destruct (Z.eq_dec i x) as [->|E].
      * rewrite A2 by lia. rewrite put_same. split; assumption.
      * destruct (A1 i ltac:(lia)) as (C & D). rewrite put_other in D by exact E. split; assumption.
    + intros i I. rewrite A2 by lia. apply put_other. lia.
Qed.
Theorem flip_y_ok W H f : 0 <= W -> height H -> H <> 64 -> draws W H (flip_y W H f) (fun x y => pixel f x (H - 1 - y)).
Proof.
  intros HW HH N64. destruct (flip_y_loop_ok H HH N64 (Z.to_nat W) f 0) as (f' & E & A & _). exists f'. split; [exact E|]. split.
  - intros x X. apply A. unfold between. lia.
  - intros x y X Y. unfold pixel. apply A; [unfold between; lia|exact Y].
Qed.

(* bytes *)
Lemma reverse_bytes_ok n : forall w, 0 <= reverse_bytes n w < 2 ^ (8 * Z.of_nat n) /\
  forall i, 0 <= i < 8 * Z.of_nat n -> Z.testbit (reverse_bytes n w) i = Z.testbit w (8 * (Z.of_nat n - 1 - i / 8) + i mod 8).
Proof.
  induction n as [|n IH]; intros w; [split; [cbn; lia|intros; lia]|]. destruct (IH (Z.shiftr w 8)) as (R & B). cbn [reverse_bytes].
  set (N := Z.of_nat n) in *. replace (Z.of_nat (S n)) with (N + 1) by lia. assert (N0 : 0 <= N) by lia.
  pose proof R as R'. apply word_bits in R'; [|lia]. split.
  - apply lor_word; [lia| |split; [lia|eapply Z.lt_le_trans; [apply R|apply Z.pow_le_mono_r; lia]]].
    rewrite Z.shiftl_mul_pow2 by lia. change 255 with (Z.ones 8). rewrite Z.land_ones by lia. pose proof (Z.mod_pos_bound w (2 ^ 8) ltac:(lia)).
    replace (8 * (N + 1)) with (8 + 8 * N) by lia. rewrite Z.pow_add_r by lia. assert (0 < 2 ^ (8 * N)) by (apply Z.pow_pos_nonneg; lia). nia.
  - intros i I. rewrite Z.lor_spec, Z.shiftl_spec by lia. destruct (Z_lt_le_dec i (8 * N)) as [L|L].
    + rewrite Z.testbit_neg_r by lia. cbn [orb]. rewrite B by lia. rewrite Z.shiftr_spec; [f_equal; lia|].
      assert (0 <= i / 8 < N) by (split; [apply Z.div_pos; lia|apply Z.div_lt_upper_bound; lia]). pose proof (Z.mod_pos_bound i 8 ltac:(lia)). lia.
    + rewrite (proj2 R') by lia. rewrite orb_false_r. change 255 with (Z.ones 8). rewrite Z.land_spec. rewrite Z.ones_spec_low by lia. rewrite andb_true_r.
      assert (E : i / 8 = N) by (symmetry; apply (Z.div_unique i 8 N (i - 8 * N)); lia). assert (E2 : i mod 8 = i - 8 * N) by (rewrite Z.mod_eq, E by lia; lia). rewrite E, E2. f_equal. lia.
Qed.
Lemma height_bytes H : height H -> Z.of_nat (Z.to_nat (H / 8)) = H / 8 /\ 8 * (H / 8) = H.
Proof. intros [->|[->|[->| ->]]]; split; reflexivity. Qed.
Lemma swap_bytes_ok H w : height H -> 0 <= swap_bytes H w < 2 ^ H /\
  forall i, 0 <= i < H -> Z.testbit (swap_bytes H w) i = Z.testbit w (8 * (H / 8 - 1 - i / 8) + i mod 8).
Proof.
  intros HH. destruct (height_bytes H HH) as (A & B). destruct (reverse_bytes_ok (Z.to_nat (H / 8)) w) as (C & D). rewrite A, B in *. split; [exact C|exact D].
Qed.
Lemma word_of_ok bytes : (forall i, 0 <= bytes i < 256) -> forall n at_, 0 <= word_of bytes at_ n < 2 ^ (8 * Z.of_nat n) /\
  forall i, 0 <= i < 8 * Z.of_nat n -> Z.testbit (word_of bytes at_ n) i = Z.testbit (bytes (at_ + i / 8)) (i mod 8).
Proof.
  intros BY. induction n as [|n IH]; intros at_; [split; [cbn; lia|intros; lia]|]. destruct (IH (at_ + 1)) as (R & B). cbn [word_of]. pose proof (BY at_) as B0.
  set (N := Z.of_nat n) in *. replace (Z.of_nat (S n)) with (N + 1) by lia. assert (N0 : 0 <= N) by lia. split.
  - replace (8 * (N + 1)) with (8 + 8 * N) by lia. rewrite Z.pow_add_r by lia. change (2 ^ 8) with 256. nia.
  - intros i I. destruct (Z_lt_le_dec i 8) as [L|L].
    + rewrite <- (Z.mod_pow2_bits_low _ 8) by lia. change (2 ^ 8) with 256. rewrite (Z.mul_comm 256), Z.mod_add by lia. rewrite Z.mod_small by lia.
      rewrite Z.div_small, Z.mod_small by lia. rewrite Z.add_0_r. reflexivity.
    + replace i with (i - 8 + 8) at 1 by lia. rewrite <- Z.div_pow2_bits by lia. change (2 ^ 8) with 256. rewrite (Z.mul_comm 256), Z.div_add by lia. rewrite (Z.div_small (bytes at_)) by lia. rewrite Z.add_0_l.
      rewrite B by lia. replace i with (i - 8 + 1 * 8) at 3 4 by lia. rewrite Z.div_add, Z.mod_add by lia. f_equal. f_equal. lia.
Qed.
Lemma load_ok H bytes : height H -> (forall i, 0 <= bytes i < 256) -> forall x, 0 <= load H bytes x < 2 ^ H /\
  forall i, 0 <= i < H -> Z.testbit (load H bytes x) i = Z.testbit (bytes (x * (H / 8) + i / 8)) (i mod 8).
Proof.
  intros HH BY x. destruct (height_bytes H HH) as (A & B). destruct (word_of_ok bytes BY (Z.to_nat (H / 8)) (x * (H / 8))) as (C & D). rewrite A, B in *. split; assumption.
Qed.
(** A word with its bytes swapped, as pixels: bit H - 1 - c is pixel c of a row. *)
Lemma swapped_pixel H bytes x c : height H -> (forall i, 0 <= bytes i < 256) -> 0 <= c < H ->
  Z.testbit (swap_bytes H (load H bytes x)) (H - 1 - c) = Z.testbit (bytes (x * (H / 8) + c / 8)) (7 - c mod 8).
Proof.
  intros HH BY C. destruct (height_bytes H HH) as (_ & HB). destruct (swap_bytes_ok H (load H bytes x) HH) as (_ & ->); [|lia].
  pose proof (Z.div_mod c 8 ltac:(lia)) as D. pose proof (Z.mod_pos_bound c 8 ltac:(lia)) as M.
  assert (E1 : (H - 1 - c) / 8 = H / 8 - 1 - c / 8) by (symmetry; apply (Z.div_unique (H - 1 - c) 8 _ (7 - c mod 8)); lia).
  assert (E2 : (H - 1 - c) mod 8 = 7 - c mod 8) by (rewrite Z.mod_eq, E1 by lia; lia). rewrite E1, E2.
  replace (8 * (H / 8 - 1 - (H / 8 - 1 - c / 8)) + (7 - c mod 8)) with (7 - c mod 8 + c / 8 * 8) by lia.
  assert (0 <= c / 8) by (apply Z.div_pos; lia).
  destruct (load_ok H bytes HH BY x) as (_ & ->); [|lia]. rewrite Z.div_add, Z.mod_add by lia. rewrite (Z.div_small (7 - c mod 8)), (Z.mod_small (7 - c mod 8)) by lia. rewrite Z.add_0_l. reflexivity.
Qed.
Theorem portrait_ok W H bytes : 0 <= W -> height H -> (forall i, 0 <= bytes i < 256) ->
  draws W H (convert_portrait W H (load H bytes)) (fun x y => image H bytes (H - 1 - y) x).
Proof.
  intros HW HH BY. assert (HP : 0 <= H) by (destruct HH as [->|[->|[->| ->]]]; lia). unfold convert_portrait. replace (Z.to_nat W) with (Z.to_nat (W - 0)) by lia.
  eapply draws_ext; [|apply (columns_draw W H _ (load H bytes) 0 W (fun x y => image H bytes (H - 1 - y) x)); try lia].
  - intros x y X Y. cbn beta. unfold between. replace ((0 <=? x) && (x <? W)) with true by lia. reflexivity.
  - intros x X. apply load_ok; assumption.
  - intros x X. apply swap_bytes_ok; assumption.
  - intros x y X Y. cbn beta. unfold image. rewrite <- swapped_pixel by (try assumption; lia). f_equal. lia.
Qed.
