(** Lemmas about spoken numbers. *)
From Coq Require Import ZArith List Bool Lia ZifyBool ZifyNat.
From Verif Require Import SayModel SaySpec.
Import ListNotations.
Open Scope Z_scope.

Definition small_words (n : Z) : list sound :=
  let tens := n / 10 in
  if (2 <=? tens) && (tens <=? 9) then Tens (10 * tens) :: (if n mod 10 =? 0 then [] else [Mnum (n mod 10 - 1)])
  else if n =? 0 then [] else [Mnum (n - 1)].
Lemma hear_small n big small r : 0 <= n < 100 -> hear big small (small_words n ++ r) = hear big (small + n) r.
Proof.
  intros N. unfold small_words. cbv zeta. pose proof (Z.div_mod n 10). pose proof (Z.mod_pos_bound n 10). destruct ((2 <=? n / 10) && (n / 10 <=? 9)) eqn:T.
  - cbn [app hear]. replace (existsb (Z.eqb (10 * (n / 10))) [20; 30; 40; 50; 60; 70; 80; 90]) with true by (cbn [existsb]; lia).
    destruct (Z.eqb_spec (n mod 10) 0); cbn [app hear]; [f_equal; lia|]. replace ((0 <=? n mod 10 - 1) && (n mod 10 - 1 <? 19)) with true by lia. f_equal. lia.
  - destruct (Z.eqb_spec n 0) as [->|]; cbn [app hear]; [f_equal; lia|]. replace ((0 <=? n - 1) && (n - 1 <? 19)) with true by lia. f_equal. lia.
Qed.
Lemma say_low fuel n : 0 < n < 100 -> say_whole (S fuel) n = Some (small_words n).
Proof.
  intros N. cbn [say_whole]. replace (n =? 0) with false by lia. cbv zeta. rewrite (Z.quot_small n 1000) by lia. change (0 =? 0) with true. cbv iota. rewrite (Z.quot_small n 100) by lia. change (0 =? 0) with true. cbv iota.
  rewrite Z.quot_div_nonneg, Z.rem_mod_nonneg by lia. unfold small_words. cbv zeta. pose proof (Z.div_mod n 10). pose proof (Z.mod_pos_bound n 10). destruct ((2 <=? n / 10) && (n / 10 <=? 9)) eqn:T; cbn [app].
  - destruct (n mod 10 =? 0); reflexivity.
  - replace (n mod 10 + n / 10 * 10) with n by lia. reflexivity.
Qed.
Definition hundreds_words (n : Z) : list sound := if n / 100 =? 0 then [] else small_words (n / 100) ++ [Hundred].
Lemma say_step fuel n : 0 < n -> say_whole (S (S fuel)) n =
  match (if n / 1000 =? 0 then Some [] else option_map (fun l => l ++ [Thousand]) (say_whole (S fuel) (n / 1000))) with
  | None => None
  | Some l => Some (l ++ hundreds_words (n mod 1000) ++ small_words (n mod 100))
  end.
Proof.
  intros N. set (f1 := S fuel). cbn [say_whole]. replace (n =? 0) with false by lia. cbv zeta. rewrite Z.quot_div_nonneg, Z.rem_mod_nonneg by lia.
  pose proof (Z.div_mod n 1000). pose proof (Z.mod_pos_bound n 1000).
  assert (TAIL : forall l1 m, 0 <= m < 1000 -> m mod 100 = n mod 100 -> 
     match (if Z.quot m 100 =? 0 then Some ([], m) else option_map (fun l => (l ++ [Hundred], Z.rem m 100)) (say_whole f1 (Z.quot m 100))) with
     | Some (l2, number1) => let '(l3, number2) := if (2 <=? Z.quot number1 10) && (Z.quot number1 10 <=? 9) then ([Tens (10 * Z.quot number1 10)], Z.rem number1 10) else ([], Z.rem number1 10 + Z.quot number1 10 * 10) in
         Some (l1 ++ l2 ++ l3 ++ (if number2 =? 0 then [] else [Mnum (number2 - 1)]))
     | None => None end = Some (l1 ++ hundreds_words m ++ small_words (n mod 100))).
  { intros l1 m M MM. rewrite <- MM. rewrite (Z.quot_div_nonneg m 100), (Z.rem_mod_nonneg m 100) by lia. pose proof (Z.div_mod m 100). pose proof (Z.mod_pos_bound m 100).
    assert (SM : forall k, 0 <= k < 100 -> (let '(l3, number2) := if (2 <=? Z.quot k 10) && (Z.quot k 10 <=? 9) then ([Tens (10 * Z.quot k 10)], Z.rem k 10) else ([], Z.rem k 10 + Z.quot k 10 * 10) in l3 ++ (if number2 =? 0 then [] else [Mnum (number2 - 1)])) = small_words k).
    { intros k K. rewrite Z.quot_div_nonneg, Z.rem_mod_nonneg by lia. unfold small_words. cbv zeta. pose proof (Z.div_mod k 10). pose proof (Z.mod_pos_bound k 10). destruct ((2 <=? k / 10) && (k / 10 <=? 9)); cbn [app]; [destruct (k mod 10 =? 0); reflexivity|]. replace (k mod 10 + k / 10 * 10) with k by lia. reflexivity. }
    unfold hundreds_words. destruct (Z.eqb_spec (m / 100) 0) as [HH|HH].
    - specialize (SM m ltac:(lia)). rewrite (Z.mod_small m 100) by lia. destruct (if (2 <=? Z.quot m 10) && (Z.quot m 10 <=? 9) then _ else _) as [l3 n2]. rewrite SM. reflexivity.
    - unfold f1. rewrite say_low by lia. cbn [option_map]. specialize (SM (m mod 100) ltac:(lia)). destruct (if (2 <=? Z.quot (m mod 100) 10) && (Z.quot (m mod 100) 10 <=? 9) then _ else _) as [l3 n2]. rewrite SM. reflexivity. }
  destruct (Z.eqb_spec (n / 1000) 0) as [T|T].
  - rewrite (Z.mod_small n 1000) by lia. apply TAIL; [lia|reflexivity].
  - destruct (say_whole f1 (n / 1000)) as [l|]; [|reflexivity]. cbn [option_map]. apply TAIL; [lia|]. replace n with (n mod 1000 + (10 * (n / 1000)) * 100) at 2 by lia. rewrite Z.mod_add by lia. reflexivity.
Qed.

Lemma hear_hundreds n big r : 0 <= n < 1000 -> hear big 0 (hundreds_words n ++ r) = hear big (n - n mod 100) r.
Proof.
  intros N. pose proof (Z.div_mod n 100). pose proof (Z.mod_pos_bound n 100). unfold hundreds_words. destruct (Z.eqb_spec (n / 100) 0); [cbn [app]; f_equal; lia|].
  rewrite <- app_assoc, hear_small by lia. cbn [app hear]. f_equal. lia.
Qed.
(** The words for a number of at most [k] groups of three digits. *)
Lemma say_groups k : forall n, 0 < n < 1000 ^ Z.of_nat k -> exists l, say_whole (S k) n = Some l /\ l <> [] /\ (forall r, hear 0 0 (l ++ r) = hear (n - n mod 1000) (n mod 1000) r) /\ ~ In SZero l /\ ~ In Point l.
Proof.
  induction k as [|k IH]; intros n N; [cbn in N; lia|]. rewrite say_step by lia. pose proof (Z.div_mod n 1000). pose proof (Z.mod_pos_bound n 1000).
  rewrite Nat2Z.inj_succ, Z.pow_succ_r in N by lia.
  assert (MM : (n mod 1000) mod 100 = n mod 100) by (replace n with (n mod 1000 + (10 * (n / 1000)) * 100) at 2 by lia; rewrite Z.mod_add by lia; reflexivity).
  pose proof (Z.mod_pos_bound n 100).
  assert (NP : forall m, ~ In SZero (small_words m) /\ ~ In Point (small_words m)).
  { intros m. unfold small_words. cbv zeta. destruct ((2 <=? m / 10) && (m / 10 <=? 9)); [destruct (m mod 10 =? 0)|destruct (m =? 0)]; split; intros X; cbn in X; intuition discriminate. }
  assert (NH : forall m, ~ In SZero (hundreds_words m) /\ ~ In Point (hundreds_words m)).
  { intros m. unfold hundreds_words. destruct (m / 100 =? 0); [split; intros []|]. destruct (NP (m / 100)). split; intros X; apply in_app_or in X; cbn in X; intuition discriminate. }
  destruct (Z.eqb_spec (n / 1000) 0) as [T|T].
  - eexists. split; [reflexivity|]. cbn [app]. rewrite (Z.mod_small n 1000) by lia. split; [|split].
    + intros E. assert (X := hear_hundreds n 0 (small_words (n mod 100) ++ []) ltac:(lia)). rewrite hear_small in X by lia. rewrite app_nil_r, E in X. cbn [hear] in X. injection X as X. lia.
    + intros r. rewrite <- app_assoc, hear_hundreds by lia. rewrite hear_small by lia. f_equal; lia.
    + split; intros X; apply in_app_or in X; destruct (NH n), (NP (n mod 100)); tauto.
  - destruct (IH (n / 1000) ltac:(lia)) as (l & -> & LN & LH & Z1 & Z2). cbn [option_map]. eexists. split; [reflexivity|]. split; [|split].
    + destruct l; discriminate.
    + intros r. rewrite <- !app_assoc. rewrite LH. cbn [app hear]. rewrite hear_hundreds, hear_small by lia. rewrite MM. f_equal; lia.
    + split; intros X; apply in_app_or in X; destruct (NH (n mod 1000)), (NP (n mod 100)); (destruct X as [X|X]; [apply in_app_or in X; cbn in X; intuition discriminate|apply in_app_or in X; tauto]).
Qed.
Lemma say_heard n : 0 <= n < 2 ^ 31 -> exists l, say_whole 5 n = Some l /\ heard l = Some n.
Proof.
  intros N. destruct (Z.eqb_spec n 0) as [->|N0]; [exists [SZero]; split; reflexivity|]. destruct (say_groups 4 n) as (l & E & LN & LH & _); [change (1000 ^ Z.of_nat 4) with 1000000000000; lia|].
  exists l. split; [exact E|]. unfold heard. destruct l; [congruence|]. specialize (LH []). rewrite app_nil_r in LH. rewrite LH. cbn [hear]. f_equal. lia.
Qed.

(** How many sounds there are. *)
Lemma small_len n : 0 <= n < 100 -> (length (small_words n) <= 2)%nat.
Proof. intros N. unfold small_words. cbv zeta. destruct ((2 <=? n / 10) && (n / 10 <=? 9)); [destruct (n mod 10 =? 0)|destruct (n =? 0)]; cbn; lia. Qed.
Lemma small_len1 n : 0 <= n < 20 -> (length (small_words n) <= 1)%nat.
Proof. intros N. unfold small_words. cbv zeta. assert (n / 10 < 2) by (apply Z.div_lt_upper_bound; lia). replace (2 <=? n / 10) with false by lia. cbn [andb]. destruct (n =? 0); cbn; lia. Qed.
Lemma hundreds_len n : 0 <= n < 1000 -> (length (hundreds_words n) <= 2)%nat.
Proof.
  intros N. unfold hundreds_words. destruct (n / 100 =? 0); [cbn; lia|]. rewrite app_length. cbn [length]. assert (H : 0 <= n / 100 < 10) by (split; [apply Z.div_pos; lia|apply Z.div_lt_upper_bound; lia]). pose proof (small_len1 (n / 100) ltac:(lia)). lia.
Qed.
Lemma say_len fuel n m : 0 < n -> (forall l, say_whole (S fuel) (n / 1000) = Some l -> (length l <= m)%nat) -> forall l, say_whole (S (S fuel)) n = Some l -> (length l <= m + 5)%nat.
Proof.
  intros N H l E. rewrite say_step in E by lia. pose proof (Z.mod_pos_bound n 1000). pose proof (Z.mod_pos_bound n 100). pose proof (small_len (n mod 100) ltac:(lia)). pose proof (hundreds_len (n mod 1000) ltac:(lia)).
  destruct (n / 1000 =? 0).
  - injection E as <-. cbn [app]. rewrite app_length. lia.
  - destruct (say_whole (S fuel) (n / 1000)) as [l1|] eqn:S1; [|discriminate]. specialize (H l1 eq_refl). cbn [option_map] in E. injection E as <-. rewrite !app_length. cbn [length]. lia.
Qed.
Lemma say_16 n l : 0 <= n < 2 ^ 31 -> say_whole 5 n = Some l -> (length l <= 16)%nat.
Proof.
  intros N E. destruct (Z.eqb_spec n 0) as [->|N0]; [injection E as <-; cbn; lia|].
  assert (D1 := Z.div_mod n 1000 ltac:(lia)). assert (M1 := Z.mod_pos_bound n 1000 ltac:(lia)). set (a := n / 1000) in *.
  assert (D2 := Z.div_mod a 1000 ltac:(lia)). assert (M2 := Z.mod_pos_bound a 1000 ltac:(lia)). set (b := a / 1000) in *.
  assert (D3 := Z.div_mod b 1000 ltac:(lia)). assert (M3 := Z.mod_pos_bound b 1000 ltac:(lia)). set (c := b / 1000) in *.
  assert (Z1 : forall f l, say_whole (S f) 0 = Some l -> (length l <= 1)%nat) by (intros f l' X; injection X as <-; cbn; lia).
  apply (say_len 3 n 11 ltac:(lia)) with (l := l) in E; [exact E|]. clear E l. intros l E. fold a in E. destruct (Z.eqb_spec a 0) as [A0|A0]; [rewrite A0 in E; apply Z1 in E; lia|].
  apply (say_len 2 a 6 ltac:(lia)) with (l := l) in E; [exact E|]. clear E l. intros l E. fold b in E. destruct (Z.eqb_spec b 0) as [B0|B0]; [rewrite B0 in E; apply Z1 in E; lia|].
  apply (say_len 1 b 1 ltac:(lia)) with (l := l) in E; [exact E|]. clear E l. intros l E. fold c in E. destruct (Z.eqb_spec c 0) as [C0|C0]; [rewrite C0 in E; apply Z1 in E; lia|].
  rewrite say_low in E by lia. injection E as <-. apply small_len1. lia.
Qed.
Lemma queue_fits l : forall n, (n + length l <= 16)%nat -> queue_all n l = l.
Proof. induction l as [|s l IH]; intros n N; [reflexivity|]. cbn [queue_all]. cbn [length] in N. replace (n <? 16)%nat with true by lia. f_equal. apply IH. lia. Qed.

(** Negative numbers *)
Lemma say_negative fuel : forall n l, n < 0 -> say_whole fuel n = Some l -> exists i, In (Mnum i) l /\ i < 0.
Proof.
  induction fuel as [|fuel IH]; intros n l N E; [discriminate|]. cbn [say_whole] in E. replace (n =? 0) with false in E by lia. cbv zeta in E.
  assert (Q1 : Z.quot n 1000 <= 0 /\ n = 1000 * Z.quot n 1000 + Z.rem n 1000 /\ Z.rem n 1000 <= 0 /\ - 1000 < Z.rem n 1000).
  { pose proof (Z.quot_rem n 1000 ltac:(lia)). pose proof (Z.rem_bound_pos_neg n 1000 ltac:(lia) ltac:(lia)). lia. }
  destruct (Z.eqb_spec (Z.quot n 1000) 0) as [T|T].
  - assert (Q2 : Z.quot n 100 <= 0 /\ n = 100 * Z.quot n 100 + Z.rem n 100 /\ Z.rem n 100 <= 0 /\ - 100 < Z.rem n 100).
    { pose proof (Z.quot_rem n 100 ltac:(lia)). pose proof (Z.rem_bound_pos_neg n 100 ltac:(lia) ltac:(lia)). lia. }
    destruct (Z.eqb_spec (Z.quot n 100) 0) as [U|U].
    + assert (Q3 : Z.quot n 10 <= 0 /\ n = 10 * Z.quot n 10 + Z.rem n 10) by (pose proof (Z.quot_rem n 10 ltac:(lia)); pose proof (Z.rem_bound_pos_neg n 10 ltac:(lia) ltac:(lia)); lia).
      replace (2 <=? Z.quot n 10) with false in E by lia. cbn [andb] in E. replace (Z.rem n 10 + Z.quot n 10 * 10) with n in E by lia. replace (n =? 0) with false in E by lia. cbn [app] in E. injection E as <-. exists (n - 1). split; [left; reflexivity|lia].
    + destruct (say_whole fuel (Z.quot n 100)) as [l2|] eqn:S2; [|discriminate]. cbn [option_map] in E. destruct (IH (Z.quot n 100) l2 ltac:(lia) S2) as (i & I1 & I2). exists i. split; [|exact I2].
      destruct (if (2 <=? Z.quot (Z.rem n 100) 10) && _ then _ else _) as [l3 m]. injection E as <-. cbn [app]. apply in_or_app. left. apply in_or_app. left. exact I1.
  - destruct (say_whole fuel (Z.quot n 1000)) as [l1|] eqn:S1; [|discriminate]. cbn [option_map] in E. destruct (IH (Z.quot n 1000) l1 ltac:(lia) S1) as (i & I1 & I2). exists i. split; [|exact I2].
    destruct (if Z.quot (Z.rem n 1000) 100 =? 0 then _ else _) as [[l2 m]|]; [|discriminate]. destruct (if (2 <=? Z.quot m 10) && _ then _ else _) as [l3 m']. injection E as <-. apply in_or_app. left. apply in_or_app. left. exact I1.
Qed.

(** Colors *)
Lemma color_digit n k : 0 <= n < 2 ^ 24 -> 0 <= k <= 5 -> Z.land (Z.shiftr ((n * 2 ^ (4 * k)) mod 2 ^ 32) 20) 15 = n / 2 ^ (20 - 4 * k) mod 16.
Proof.
  intros N K. change 15 with (Z.ones 4). rewrite Z.land_ones by lia. change (2 ^ 4) with 16. apply Z.bits_inj'. intros i I0. change 16 with (2 ^ 4).
  destruct (Z.ltb_spec i 4).
  - rewrite !Z.mod_pow2_bits_low by lia. rewrite Z.shiftr_spec by lia. rewrite Z.mod_pow2_bits_low by lia. rewrite Z.mul_pow2_bits by lia. rewrite Z.div_pow2_bits by lia. f_equal. lia.
  - rewrite !Z.mod_pow2_bits_high by lia. reflexivity.
Qed.
Lemma color_digits_ok c : forall n k, 0 <= n < 2 ^ 24 -> 0 <= k -> k + Z.of_nat c = 6 ->
  color_digits ((n * 2 ^ (4 * k)) mod 2 ^ 32) c = map (fun j => hex_char (n / 2 ^ (20 - 4 * (k + Z.of_nat j)) mod 16)) (seq 0 c).
Proof.
  induction c as [|c IH]; intros n k N K KC; [reflexivity|]. cbn [color_digits seq map]. rewrite color_digit by lia. f_equal; [f_equal; f_equal; f_equal; f_equal; lia|].
  rewrite Z.shiftl_mul_pow2 by lia. rewrite Z.mul_mod_idemp_l by lia. replace (n * 2 ^ (4 * k) * 2 ^ 4) with (n * 2 ^ (4 * (k + 1))) by (rewrite <- Z.mul_assoc, <- Z.pow_add_r by lia; f_equal; f_equal; lia).
  rewrite IH by lia. rewrite <- seq_shift, map_map. apply map_ext. intros j. f_equal. f_equal. f_equal. f_equal. lia.
Qed.
Lemma hex_char_ok d : 0 <= d < 16 -> hex_char d = lower_hex d.
Proof.
  intros D. assert (E : forallb (fun n => hex_char (Z.of_nat n) =? lower_hex (Z.of_nat n)) (seq 0 16) = true) by reflexivity. rewrite forallb_forall in E.
  specialize (E (Z.to_nat d)). rewrite in_seq, Z2Nat.id in E by lia. apply Z.eqb_eq, E. lia.
Qed.
Lemma color_file_ok r g b : 0 <= r < 256 -> 0 <= g < 256 -> 0 <= b < 256 ->
  color_file r g b = [99; 111; 108; 111; 114; 115; 47] ++ map lower_hex [r / 16; r mod 16; g / 16; g mod 16; b / 16; b mod 16] ++ [46; 119; 97; 118].
Proof.
  intros R G B. unfold color_file, color_selection. rewrite !Z.shiftl_mul_pow2 by lia. set (n := r * 2 ^ 16 + g * 2 ^ 8 + b). f_equal. f_equal.
  pose proof (color_digits_ok 6 n 0 ltac:(unfold n; lia) ltac:(lia) eq_refl) as E. change (2 ^ (4 * 0)) with 1 in E. rewrite Z.mul_1_r, (Z.mod_small n) in E by (unfold n; lia). rewrite E. clear E. cbn [seq map].
  assert (D1 := Z.div_mod r 16 ltac:(lia)). assert (D2 := Z.div_mod g 16 ltac:(lia)). assert (D3 := Z.div_mod b 16 ltac:(lia)).
  assert (M1 := Z.mod_pos_bound r 16 ltac:(lia)). assert (M2 := Z.mod_pos_bound g 16 ltac:(lia)). assert (M3 := Z.mod_pos_bound b 16 ltac:(lia)).
  assert (X : forall d m q, 0 <= m < d -> n = q * d + m -> n / d = q) by (intros d m q M Q; symmetry; apply (Z.div_unique n d q m); lia).
  assert (Y : forall v q m, 0 <= m < 16 -> v = q * 16 + m -> v mod 16 = m) by (intros v q m M Q; symmetry; apply (Z.mod_unique v 16 q m); lia).
  assert (L6 : forall (a1 a2 a3 a4 a5 a6 b1 b2 b3 b4 b5 b6 : Z), a1 = b1 -> a2 = b2 -> a3 = b3 -> a4 = b4 -> a5 = b5 -> a6 = b6 ->
    [hex_char a1; hex_char a2; hex_char a3; hex_char a4; hex_char a5; hex_char a6] = [hex_char b1; hex_char b2; hex_char b3; hex_char b4; hex_char b5; hex_char b6]) by (intros; subst; reflexivity).
  rewrite <- !hex_char_ok by lia. apply L6.
  - change (2 ^ (20 - 4 * (0 + Z.of_nat 0))) with 1048576. rewrite (X 1048576 ((r mod 16) * 65536 + g * 256 + b) (r / 16)) by (unfold n; lia). apply (Y _ 0); lia.
  - change (2 ^ (20 - 4 * (0 + Z.of_nat 1))) with 65536. rewrite (X 65536 (g * 256 + b) r) by (unfold n; lia). apply (Y _ (r / 16)); lia.
  - change (2 ^ (20 - 4 * (0 + Z.of_nat 2))) with 4096. rewrite (X 4096 ((g mod 16) * 256 + b) (r * 16 + g / 16)) by (unfold n; lia). apply (Y _ r); lia.
  - change (2 ^ (20 - 4 * (0 + Z.of_nat 3))) with 256. rewrite (X 256 b (r * 256 + g)) by (unfold n; lia). apply (Y _ (r * 16 + g / 16)); lia.
  - change (2 ^ (20 - 4 * (0 + Z.of_nat 4))) with 16. rewrite (X 16 (b mod 16) (r * 4096 + g * 16 + b / 16)) by (unfold n; lia). apply (Y _ (r * 256 + g)); lia.
  - change (2 ^ (20 - 4 * (0 + Z.of_nat 5))) with 1. rewrite (X 1 0 n) by lia. apply (Y _ (r * 4096 + g * 16 + b / 16)); unfold n; lia.
Qed.
Lemma hear_bad l i : In (Mnum i) l -> i < 0 -> forall big small, hear big small l = None.
Proof.
  intros H I0. induction l as [|s l IH]; intros big small; [destruct H|]. destruct H as [->|H].
  - cbn [hear]. replace ((0 <=? i) && (i <? 19)) with false by lia. reflexivity.
  - specialize (IH H). destruct s; cbn [hear]; try apply IH; [destruct ((0 <=? selection) && (selection <? 19))|destruct (existsb _ _)|]; try apply IH; reflexivity.
Qed.
Lemma say_negative_heard n l : n < 0 -> say_whole 5 n = Some l -> heard l = None.
Proof. intros N E. destruct (say_negative 5 n l N E) as (i & I1 & I2). unfold heard. destruct l; [reflexivity|]. eapply hear_bad; eauto. Qed.
Lemma say_digit fuel d : 0 <= d < 10 -> say_whole (S fuel) d = Some (digit_word d).
Proof.
  intros D. unfold digit_word. destruct (Z.eqb_spec d 0) as [->|]; [reflexivity|]. rewrite say_low by lia. unfold small_words. cbv zeta. rewrite (Z.div_small d 10) by lia. cbn [Z.leb Z.compare andb]. replace (d =? 0) with false by lia. reflexivity.
Qed.
Lemma say_decimal h : 0 <= h < 100 * 2 ^ 31 -> exists l, say_whole 5 (h / 100) = Some l /\ say_number 5 h true = Some (l ++ [Point] ++ digit_word (h mod 100 / 10) ++ digit_word (h mod 10)).
Proof.
  intros H. assert (Q : 0 <= h / 100 < 2 ^ 31) by (split; [apply Z.div_pos; lia|apply Z.div_lt_upper_bound; lia]). destruct (say_heard _ Q) as (l & E & _). exists l. split; [exact E|]. unfold say_number. rewrite E. cbv zeta.
  pose proof (Z.mod_pos_bound h 100 ltac:(lia)). rewrite Z.quot_div_nonneg, Z.rem_mod_nonneg by lia.
  assert (0 <= h mod 100 / 10 < 10) by (split; [apply Z.div_pos; lia|apply Z.div_lt_upper_bound; lia]). pose proof (Z.mod_pos_bound (h mod 100) 10 ltac:(lia)).
  rewrite !say_digit by lia. assert (M : (h mod 100) mod 10 = h mod 10) by (pose proof (Z.div_mod h 100 ltac:(lia)); replace h with (h mod 100 + (10 * (h / 100)) * 10) at 2 by lia; rewrite Z.mod_add by lia; reflexivity). rewrite M. reflexivity.
Qed.
