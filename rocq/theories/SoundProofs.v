From Coq Require Import ZArith List Bool Lia ZifyBool ZifyNat Znumtheory.
From Verif Require Import Machine StrModel StrSpec StrProofs FileModel ArithModel SoundModel SoundSpec.
Import ListNotations.
Open Scope Z_scope.

(** * decimals *)
Lemma pow10_pos k : 0 < 10 ^ Z.of_nat k.
Proof. apply Z.pow_pos_nonneg; lia. Qed.
Lemma pow10_S k : 10 ^ Z.of_nat (S k) = 10 * 10 ^ Z.of_nat k.
Proof. rewrite Nat2Z.inj_succ, Z.pow_succ_r by lia. reflexivity. Qed.
Lemma pow10_lt_mono a b : 10 ^ Z.of_nat a < 10 ^ Z.of_nat b -> (a < b)%nat.
Proof.
  intros H. destruct (Nat.lt_ge_cases a b); [assumption|].
  assert (10 ^ Z.of_nat b <= 10 ^ Z.of_nat a) by (apply Z.pow_le_mono_r; lia). lia.
Qed.
Lemma last_digits_length k : forall n, length (last_digits k n) = k.
Proof. induction k; intros n; cbn [last_digits]; [reflexivity|]. rewrite app_length, IHk. cbn. lia. Qed.
Lemma last_digits_digit k : forall n, Forall (fun c => 48 <= c <= 57) (last_digits k n).
Proof.
  induction k; intros n; cbn [last_digits]; [constructor|]. apply Forall_app. split; [apply IHk|].
  constructor; [|constructor]. pose proof (Z.mod_pos_bound n 10). lia.
Qed.
Lemma last_digits_zero j : forall n, n = 0 -> last_digits j n = repeat 48 j.
Proof.
  induction j; intros n ->; cbn [last_digits]; [reflexivity|]. rewrite IHj by reflexivity.
  change (48 + 0 mod 10) with 48. cbn [repeat]. symmetry. apply repeat_cons.
Qed.
Lemma last_digits_pad j k : forall n, 0 <= n < 10 ^ Z.of_nat k -> last_digits (j + k) n = repeat 48 j ++ last_digits k n.
Proof.
  induction k; intros n N.
  - change (10 ^ Z.of_nat 0) with 1 in N. rewrite Nat.add_0_r, app_nil_r. apply last_digits_zero. lia.
  - rewrite Nat.add_succ_r. cbn [last_digits]. rewrite app_assoc. f_equal. apply IHk.
    rewrite pow10_S in N. split; [apply Z.div_pos; lia|]. apply Z.div_lt_upper_bound; lia.
Qed.
Lemma last_digits_mod k : forall n, last_digits k (n mod 10 ^ Z.of_nat k) = last_digits k n.
Proof.
  induction k; intros n; [reflexivity|]. cbn [last_digits]. rewrite pow10_S. pose proof (pow10_pos k).
  rewrite Z.rem_mul_r by lia.
  rewrite (Z.mul_comm 10), Z.div_add by lia. rewrite (Z.div_small (n mod 10) 10) by (apply Z.mod_pos_bound; lia).
  rewrite Z.add_0_l, IHk. rewrite Z.mod_add by lia. rewrite Z.mod_mod by lia. reflexivity.
Qed.
Lemma last_digits_hd k : forall n, 0 <= n < 10 ^ Z.of_nat (S k) -> exists t, last_digits (S k) n = (48 + n / 10 ^ Z.of_nat k) :: t.
Proof.
  induction k; intros n N.
  - exists []. cbn [last_digits app]. change (10 ^ Z.of_nat 0) with 1. rewrite Z.div_1_r. change (10 ^ Z.of_nat 1) with 10 in N. rewrite Z.mod_small by lia. reflexivity.
  - rewrite (pow10_S (S k)) in N. destruct (IHk (n / 10)) as (t & E). { split; [apply Z.div_pos; lia|apply Z.div_lt_upper_bound; lia]. }
    change (last_digits (S (S k)) n) with (last_digits (S k) (n / 10) ++ [48 + n mod 10]). rewrite E. eexists. cbn [app]. f_equal.
    rewrite pow10_S. pose proof (pow10_pos k). rewrite Z.div_div by lia. reflexivity.
Qed.
Lemma strtol_digits_spec k : forall n r acc, (forall c t, r = c :: t -> ~ 48 <= c <= 57) ->
  strtol_digits (last_digits k n ++ r) acc = (acc * 10 ^ Z.of_nat k + n mod 10 ^ Z.of_nat k, r).
Proof.
  assert (G : forall s r acc, Forall (fun c => 48 <= c <= 57) s -> strtol_digits (s ++ r) acc = strtol_digits r (fold_left (fun a c => 10 * a + (c - 48)) s acc)).
  { induction s; intros r acc F; [reflexivity|]. inversion F; subst. cbn [app strtol_digits fold_left].
    replace ((48 <=? a) && (a <=? 57)) with true by lia. apply IHs; assumption. }
  assert (V : forall k n acc, fold_left (fun a c => 10 * a + (c - 48)) (last_digits k n) acc = acc * 10 ^ Z.of_nat k + n mod 10 ^ Z.of_nat k).
  { induction k0; intros n acc; [cbn [last_digits fold_left]; change (10 ^ Z.of_nat 0) with 1; rewrite Z.mod_1_r; lia|].
    cbn [last_digits]. rewrite fold_left_app, IHk0. cbn [fold_left]. rewrite pow10_S. pose proof (pow10_pos k0).
    rewrite Z.rem_mul_r by lia. lia. }
  intros n r acc R. rewrite G by apply last_digits_digit. rewrite V. destruct r as [|c t]; [reflexivity|].
  cbn [strtol_digits]. specialize (R c t eq_refl). replace ((48 <=? c) && (c <=? 57)) with false by lia. reflexivity.
Qed.
Lemma strtol_spec k n r : (0 < k)%nat -> 0 <= n < 10 ^ Z.of_nat k -> n <= 2147483647 -> (forall c t, r = c :: t -> ~ 48 <= c <= 57) ->
  strtol (last_digits k n ++ r) = (n, r).
Proof.
  intros K N M R. unfold strtol. destruct k as [|k]; [lia|]. destruct (last_digits_hd k n N) as (t & E).
  assert (D : 48 <= 48 + n / 10 ^ Z.of_nat k <= 57).
  { pose proof (last_digits_digit (S k) n) as F. rewrite E in F. inversion F; subst. assumption. }
  pose proof (strtol_digits_spec (S k) n r 0 R) as V. pose proof (app_length (last_digits (S k) n) r) as L. rewrite last_digits_length in L.
  rewrite E in *. cbn [app] in *. set (c := 48 + n / 10 ^ Z.of_nat k) in *. clearbody c.
  cbn [skip_spaces]. unfold is_space. replace ((c =? 32) || ((9 <=? c) && (c <=? 13))) with false by lia.
  replace (c =? 45) with false by lia. replace (c =? 43) with false by lia. rewrite V, L.
  replace (length r =? S k + length r)%nat with false by lia. rewrite Z.mod_small by assumption. rewrite Z.mul_0_l, Z.add_0_l. f_equal. lia.
Qed.
Lemma strtol_no c r : 57 < c -> strtol (c :: r) = (0, c :: r).
Proof.
  intros C. unfold strtol. cbn [skip_spaces]. unfold is_space.
  replace ((c =? 32) || ((9 <=? c) && (c <=? 13))) with false by lia. replace (c =? 45) with false by lia. replace (c =? 43) with false by lia.
  cbn [strtol_digits]. replace ((48 <=? c) && (c <=? 57)) with false by lia. rewrite Nat.eqb_refl. reflexivity.
Qed.

Lemma digits_go_last fuel : forall n acc, 0 <= n < 2 ^ Z.of_nat fuel -> (0 < fuel)%nat ->
  exists k, (0 < k)%nat /\ digits_go fuel n acc = last_digits k n ++ acc /\ n < 10 ^ Z.of_nat k /\ (k = 1%nat \/ 10 ^ (Z.of_nat k - 1) <= n).
Proof.
  induction fuel; intros n acc N F; [lia|]. cbn [digits_go]. destruct (n <? 10) eqn:E.
  - exists 1%nat. split; [lia|]. cbn [last_digits app]. split; [reflexivity|]. split; [change (10 ^ Z.of_nat 1) with 10; lia|auto].
  - rewrite Nat2Z.inj_succ, Z.pow_succ_r in N by lia.
    assert (F1 : (0 < fuel)%nat). { destruct fuel; [|lia]. change (2 ^ Z.of_nat 0) with 1 in N. lia. }
    destruct (IHfuel (n / 10) ((48 + n mod 10) :: acc)) as (k & K0 & E1 & L & C); [|assumption|].
    { split; [apply Z.div_pos; lia|]. apply Z.div_lt_upper_bound; lia. }
    exists (S k). split; [lia|]. cbn [last_digits]. rewrite <- app_assoc. split; [exact E1|].
    rewrite pow10_S. split. { pose proof (Z.div_mod n 10 ltac:(lia)). pose proof (Z.mod_pos_bound n 10). lia. }
    right. replace (Z.of_nat (S k) - 1) with (Z.of_nat k) by lia. destruct C as [-> | C]; [change (10 ^ Z.of_nat 1) with 10; lia|].
    replace (Z.of_nat k) with (Z.succ (Z.of_nat k - 1)) by lia. rewrite Z.pow_succ_r by lia.
    pose proof (Z.div_mod n 10 ltac:(lia)). pose proof (Z.mod_pos_bound n 10). lia.
Qed.
Lemma itoa_last n : 0 <= n -> exists k, (0 < k)%nat /\ itoa n = last_digits k n /\ n < 10 ^ Z.of_nat k /\ (k = 1%nat \/ 10 ^ (Z.of_nat k - 1) <= n).
Proof.
  intros N. unfold itoa. replace (n <? 0) with false by lia. unfold digits.
  destruct (digits_go_last (S (Z.to_nat (Z.log2 n))) n []) as (k & K & E & L & C); [|lia|].
  - split; [lia|]. rewrite Nat2Z.inj_succ, Z2Nat.id by apply Z.log2_nonneg.
    destruct (Z.eq_dec n 0) as [->|]; [reflexivity|]. apply Z.log2_spec. lia.
  - exists k. rewrite app_nil_r in E. auto.
Qed.
(** addNumber writes the number with at least the given number of digits *)
Lemma addNumber_numeral n w : 0 <= n -> (0 < w)%nat -> numeral w n (addNumber n (Z.of_nat w)).
Proof.
  intros N W. unfold addNumber. destruct (itoa_last n N) as (k & K & E & L & C). rewrite E, last_digits_length.
  exists (Nat.max w k). split; [|split].
  - replace (Z.to_nat (Z.of_nat w - Z.of_nat k)) with (w - k)%nat by lia. rewrite <- last_digits_pad by lia. f_equal. lia.
  - split; [lia|]. apply Z.lt_le_trans with (1 := L). apply Z.pow_le_mono_r; lia.
  - destruct (Nat.le_gt_cases k w); [left; lia|]. right. split; [lia|]. destruct C as [->|C]; [lia|]. replace (Nat.max w k) with k by lia. exact C.
Qed.
Lemma addNumber0_numeral n : 0 <= n -> addNumber n 0 = addNumber n 1.
Proof.
  intros N. unfold addNumber. destruct (itoa_last n N) as (k & K & E & _). rewrite E, last_digits_length.
  replace (Z.to_nat (0 - Z.of_nat k)) with 0%nat by lia. replace (Z.to_nat (1 - Z.of_nat k)) with 0%nat by lia. reflexivity.
Qed.
(** numbers without need for padding look the same for any width up to their size *)
Lemma numeral_widen w v n s : numeral w n s -> (w <= v)%nat -> (0 < v)%nat -> 10 ^ (Z.of_nat v - 1) <= n -> numeral v n s.
Proof.
  intros (k & E & N & C) WV V P. exists k. split; [exact E|]. split; [exact N|].
  assert (v <= k)%nat.
  { assert (v - 1 < k)%nat; [|lia]. apply pow10_lt_mono. replace (Z.of_nat (v - 1)) with (Z.of_nat v - 1) by lia. lia. }
  destruct C as [C|(C & D)]; [left; lia|]. destruct (Nat.eq_dec k (Nat.max v 1)); [left; assumption|right]. split; [lia|exact D].
Qed.
Lemma numeral_fun w n a b : numeral w n a -> numeral w n b -> a = b.
Proof.
  intros (k & -> & N & C) (l & -> & M & D). f_equal.
  assert (H : forall k l, n < 10 ^ Z.of_nat k -> (Nat.max w 1 <= l)%nat -> 10 ^ (Z.of_nat l - 1) <= n -> (l <= k)%nat).
  { intros k0 l0 A B F. assert (l0 - 1 < k0)%nat; [|lia]. apply pow10_lt_mono. replace (Z.of_nat (l0 - 1)) with (Z.of_nat l0 - 1) by lia. lia. }
  destruct C as [C|(C & C')], D as [D|(D & D')].
  - lia.
  - pose proof (H k l ltac:(lia) D D'). lia.
  - pose proof (H l k ltac:(lia) C C'). lia.
  - pose proof (H k l ltac:(lia) D D'). pose proof (H l k ltac:(lia) C C'). lia.
Qed.
Lemma addNumber3 n : 0 <= n < 1000 -> addNumber n 3 = last_digits 3 n.
Proof.
  intros N. destruct (addNumber_numeral n 3) as (k & E & L & C); [lia|lia|]. change (Z.of_nat 3) with 3 in E. rewrite E. f_equal.
  destruct C as [C|(C & D)]; [lia|]. assert (k - 1 < 3)%nat; [|lia]. apply pow10_lt_mono. replace (Z.of_nat (k - 1)) with (Z.of_nat k - 1) by lia. change (10 ^ Z.of_nat 3) with 1000. lia.
Qed.
Lemma last_digits3_inj a b : 0 <= a < 1000 -> 0 <= b < 1000 -> last_digits 3 a = last_digits 3 b -> a = b.
Proof.
  intros A B E. pose proof (strtol_digits_spec 3 a [] 0 ltac:(discriminate)) as P. pose proof (strtol_digits_spec 3 b [] 0 ltac:(discriminate)) as Q.
  rewrite E in P. rewrite P in Q. injection Q as Q. change (10 ^ Z.of_nat 3) with 1000 in Q. rewrite !Z.mod_small in Q by lia. lia.
Qed.

(** * letter case does not matter *)
Lemma lower_eqb c d : (65 <= d <= 90 -> False) -> (97 <= d <= 122 -> False) -> (lower c =? d) = (c =? d).
Proof. unfold lower. intros A B. destruct ((c <? 65) || (90 <? c)) eqn:E; lia. Qed.
Lemma lower_lower c : lower (lower c) = lower c.
Proof. unfold lower. destruct ((c <? 65) || (90 <? c)) eqn:E; [rewrite E; reflexivity|]. replace ((c + 32 <? 65) || (90 <? c + 32)) with true by lia. reflexivity. Qed.
Lemma lower_digit c : ((48 <=? lower c) && (lower c <=? 57)) = ((48 <=? c) && (c <=? 57)).
Proof. unfold lower. destruct ((c <? 65) || (90 <? c)) eqn:E; lia. Qed.
Lemma lower_po c : PO_isDigit (lower c) = PO_isDigit c.
Proof. unfold PO_isDigit, lower. destruct ((c <? 65) || (90 <? c)) eqn:E; lia. Qed.
Lemma lower_space c : is_space (lower c) = is_space c.
Proof. unfold is_space, lower. destruct ((c <? 65) || (90 <? c)) eqn:E; lia. Qed.
Lemma startswith_lower p : forall x, startswith p (lower_str x) = option_map lower_str (startswith p x).
Proof.
  induction p as [|c p IH]; intros x; [reflexivity|]. destruct x as [|d x]; [reflexivity|]. cbn [lower_str map startswith].
  rewrite !toLower_lower, lower_lower. destruct (lower d =? lower c); [apply IH|reflexivity].
Qed.
Lemma eq_nocase_lower p : forall x, eq_nocase_prefix p (lower_str x) = eq_nocase_prefix p x.
Proof.
  induction p as [|c p IH]; intros x; [reflexivity|]. destruct x as [|d x]; [reflexivity|]. cbn [lower_str map eq_nocase_prefix].
  rewrite !toLower_lower, lower_lower. destruct (lower d =? lower c); [apply IH|reflexivity].
Qed.
Lemma endswith_lower p x : endswith p (lower_str x) = endswith p x.
Proof.
  unfold endswith. unfold lower_str at 1 2. rewrite !map_length. destruct (_ <? _)%nat; [reflexivity|].
  rewrite <- eq_nocase_lower. unfold lower_str. rewrite skipn_map, map_map. rewrite <- (eq_nocase_lower p (skipn _ x)). unfold lower_str. f_equal. apply map_ext. apply lower_lower.
Qed.
Lemma ident_lower x : IdentifyExtension (lower_str x) = IdentifyExtension x.
Proof. unfold IdentifyExtension. rewrite !endswith_lower. reflexivity. Qed.
Lemma strtol_lower s : strtol (lower_str s) = (fst (strtol s), lower_str (snd (strtol s))).
Proof.
  unfold strtol.
  assert (SK : forall s, skip_spaces (lower_str s) = lower_str (skip_spaces s)).
  { induction s0 as [|c t IH]; [reflexivity|]. cbn [lower_str map skip_spaces]. rewrite lower_space. destruct (is_space c); [apply IH|reflexivity]. }
  assert (SD : forall s a, strtol_digits (lower_str s) a = (fst (strtol_digits s a), lower_str (snd (strtol_digits s a)))).
  { induction s0 as [|c t IH]; intros a; [reflexivity|]. cbn [lower_str map strtol_digits]. rewrite lower_digit. destruct ((48 <=? c) && (c <=? 57)) eqn:D; [|reflexivity].
    replace (lower c) with c by (unfold lower; destruct ((c <? 65) || (90 <? c)) eqn:?; lia). apply IH. }
  rewrite SK. destruct (skip_spaces s) as [|c t] eqn:E.
  - reflexivity.
  - cbn [lower_str map]. rewrite !lower_eqb by lia.
    assert (FIN : forall b u, (let '(v, r) := strtol_digits (lower_str u) 0 in if (length r =? length (lower_str u))%nat then (0, lower_str s) else (if b : bool then Z.max (-2147483648) (- v) else Z.min v 2147483647, r)) =
       (fst (let '(v, r) := strtol_digits u 0 in if (length r =? length u)%nat then (0, s) else (if b then Z.max (-2147483648) (- v) else Z.min v 2147483647, r)),
        lower_str (snd (let '(v, r) := strtol_digits u 0 in if (length r =? length u)%nat then (0, s) else (if b then Z.max (-2147483648) (- v) else Z.min v 2147483647, r))))).
    { intros b u. rewrite SD. destruct (strtol_digits u 0) as (v, r). cbn [fst snd]. unfold lower_str at 1 2. rewrite !map_length. destruct (_ =? _)%nat; reflexivity. }
    destruct (c =? 45); [exact (FIN true t)|]. destruct (c =? 43); [exact (FIN false t)|]. exact (FIN false (c :: t)).
Qed.
Lemma strtol_lower_fst s : fst (strtol (lower_str s)) = fst (strtol s).
Proof. rewrite strtol_lower. reflexivity. Qed.
Lemma altnum_lower s : altnum (lower_str s) = altnum s.
Proof.
  unfold altnum. rewrite startswith_lower. destruct (startswith ALT s) as [[|a [|b [|c [|d r]]]]|]; try reflexivity.
  cbn [option_map lower_str map]. rewrite !lower_po, lower_eqb by lia. destruct (_ && _); [|reflexivity].
  change (map lower s) with (lower_str s). unfold lower_str. rewrite skipn_map. apply strtol_lower_fst.
Qed.
Lemma lower_length s : length (lower_str s) = length s.
Proof. apply map_length. Qed.
Lemma hd0_lower s d : (65 <= d <= 90 -> False) -> (97 <= d <= 122 -> False) -> (hd0 (lower_str s) =? d) = (hd0 s =? d).
Proof. intros A B. destruct s as [|c s]; [reflexivity|]. cbn [hd0 lower_str map]. apply lower_eqb; assumption. Qed.
Lemma scan_lower name ft ea f : scan name ft ea (lower_str f) = scan name ft ea f.
Proof.
  unfold scan. destruct ea as (e, alts). rewrite altnum_lower.
  assert (SKN : (if negb (altnum f =? -1) then skipn 7 (lower_str f) else lower_str f) = lower_str (if negb (altnum f =? -1) then skipn 7 f else f)).
  { destruct (negb _); [unfold lower_str; apply skipn_map|reflexivity]. }
  rewrite SKN. set (g := if negb (altnum f =? -1) then skipn 7 f else f). rewrite startswith_lower.
  destruct (startswith name g) as [rest|]; [|reflexivity]. cbn [option_map]. rewrite ident_lower.
  assert (FR : match lower_str rest with
      | [] => (FLAT, lower_str rest)
      | c :: r1 => if c =? 47 then match startswith name r1 with Some tmp => (SUBDIRS, tmp) | None => (NONREDUNDANT_SUBDIRS, r1) end else (FLAT, lower_str rest)
      end = let '(p, r) := match rest with
      | [] => (FLAT, rest)
      | c :: r1 => if c =? 47 then match startswith name r1 with Some tmp => (SUBDIRS, tmp) | None => (NONREDUNDANT_SUBDIRS, r1) end else (FLAT, rest)
      end in (p, lower_str r)).
  { destruct rest as [|c r1]; [reflexivity|]. cbn [lower_str map]. rewrite lower_eqb by lia. destruct (c =? 47); [|reflexivity].
    change (map lower r1) with (lower_str r1). rewrite startswith_lower. destruct (startswith name r1); reflexivity. }
  unfold str in *. rewrite FR. destruct (match rest with [] => (FLAT, rest) | c :: r1 => _ end) as (found, r). clear FR SKN.
  destruct (negb (type_eqb _ _)); [reflexivity|]. destruct (_ && _); [reflexivity|]. cbv zeta.
  rewrite hd0_lower, lower_length by lia. rewrite strtol_lower.
  assert (TAIL : forall e r,
    (let '(e0, rest0) := match found, lower_str r with
      | NONREDUNDANT_SUBDIRS, s :: a :: b :: c :: r0 =>
        if (s =? 47) && PO_isDigit a && PO_isDigit b && PO_isDigit c
        then (Files (min_file e) (max_file e) (uwrap8 (Z.max (sub_files e) (fst (strtol (tl (lower_str r))) + 1))) (digits_ e) (unnumbered e) (in_alt e) (pattern e) (ext e) (num_files e), r0)
        else (e, lower_str r)
      | _, _ => (e, lower_str r) end in
     if negb (hd0 rest0 =? 46) then (e0, alts, false) else
     (Files (min_file e0) (max_file e0) (sub_files e0) (digits_ e0) (unnumbered e0) (in_alt e0 || negb (altnum f =? -1)) found (ext e0) (wrap16 (num_files e0 + 1)),
        if negb (altnum f =? -1) then Z.max alts (altnum f + 1) else alts, true)) =
    (let '(e0, rest0) := match found, r with
      | NONREDUNDANT_SUBDIRS, s :: a :: b :: c :: r0 =>
        if (s =? 47) && PO_isDigit a && PO_isDigit b && PO_isDigit c
        then (Files (min_file e) (max_file e) (uwrap8 (Z.max (sub_files e) (fst (strtol (tl r)) + 1))) (digits_ e) (unnumbered e) (in_alt e) (pattern e) (ext e) (num_files e), r0)
        else (e, r)
      | _, _ => (e, r) end in
     if negb (hd0 rest0 =? 46) then (e0, alts, false) else
     (Files (min_file e0) (max_file e0) (sub_files e0) (digits_ e0) (unnumbered e0) (in_alt e0 || negb (altnum f =? -1)) found (ext e0) (wrap16 (num_files e0 + 1)),
        if negb (altnum f =? -1) then Z.max alts (altnum f + 1) else alts, true))).
  { intros e0 r0. destruct found; try (cbv iota zeta; rewrite hd0_lower by lia; reflexivity).
    destruct r0 as [|a [|b [|c [|d r']]]]; cbn [lower_str map]; try (cbv iota zeta; cbn [hd0]; rewrite ?lower_eqb by lia; reflexivity).
    rewrite !lower_po, lower_eqb by lia. cbn [tl].
    pose proof (strtol_lower_fst (b :: c :: d :: r')) as Q. cbn [lower_str map] in Q. rewrite Q.
    destruct (_ && _ && _ && _); cbn [hd0]; [change (map lower r') with (lower_str r'); rewrite hd0_lower by lia; reflexivity|]. rewrite lower_eqb by lia. reflexivity. }
  destruct ((hd0 r =? 46) && (length r =? 4)%nat).
  - apply TAIL.
  - destruct (strtol r) as (n, fin). cbn [fst snd]. rewrite !lower_length. destruct ((n <? 0) || _); [reflexivity|]. rewrite hd0_lower by lia. apply TAIL.
Qed.

(** * scanning one file *)
Lemma startswith_self p r : startswith p (p ++ r) = Some r.
Proof. apply startswith_spec. exists p. split; [reflexivity|]. reflexivity. Qed.
Lemma begins_startswith p f r : begins p f r <-> startswith p f = Some r.
Proof. symmetry. apply startswith_spec. Qed.
Lemma startswith_app_stop p : forall x y r, Forall (fun c => 97 <= c <= 122) p -> (forall c t, y = c :: t -> c <= 57) ->
  startswith p (x ++ y) = Some r -> exists r0, startswith p x = Some r0 /\ r = r0 ++ y.
Proof.
  induction p as [|c p IH]; intros x y r F Y; [cbn; intros E; injection E as <-; eauto|].
  inversion F; subst. destruct x as [|d x].
  - cbn [app]. destruct y as [|d y]; [discriminate|]. specialize (Y d y eq_refl). cbn [startswith]. rewrite !toLower_lower. unfold lower.
    replace ((d <? 65) || (90 <? d)) with true by lia. replace ((c <? 65) || (90 <? c)) with true by lia. replace (d =? c) with false by lia. discriminate.
  - cbn [app startswith]. destruct (_ =? _); [|discriminate]. apply IH; assumption.
Qed.
Lemma altnum_not f : not_alt f -> altnum f = -1.
Proof.
  intros H. unfold altnum. destruct (startswith ALT f) as [r|] eqn:E; [|reflexivity].
  destruct (H r) as (c & r' & -> & C). { apply begins_startswith. exact E. }
  destruct r' as [|b [|c' [|d r']]]; try reflexivity. unfold PO_isDigit at 1. replace ((0 <=? c) && (c <=? 57)) with false by lia. reflexivity.
Qed.
Lemma not_alt_app x y : not_alt x -> (forall c t, y = c :: t -> c <= 57) -> not_alt (x ++ y).
Proof.
  intros H Y r B. apply begins_startswith in B. apply startswith_app_stop in B; [|repeat constructor; lia|assumption].
  destruct B as (r0 & E & ->). destruct (H r0) as (c & r' & -> & C); [apply begins_startswith; exact E|]. exists c, (r' ++ y). auto.
Qed.
Lemma altnum_alt pre a f : same_nocase pre ALT -> 0 <= a < 1000 ->
  altnum (pre ++ last_digits 3 a ++ 47 :: f) = a /\ skipn 7 (pre ++ last_digits 3 a ++ 47 :: f) = f.
Proof.
  intros P A.
  assert (L : length pre = 3%nat). { apply (f_equal (@length Z)) in P. unfold lower_str in P. rewrite !map_length in P. exact P. }
  assert (S : startswith ALT (pre ++ last_digits 3 a ++ 47 :: f) = Some (last_digits 3 a ++ 47 :: f)). { apply startswith_spec. eauto. }
  assert (T : strtol (last_digits 3 a ++ 47 :: f) = (a, 47 :: f)).
  { apply strtol_spec; [lia|change (10 ^ Z.of_nat 3) with 1000; lia|lia|]. intros c t E. injection E as <- <-. lia. }
  split.
  - unfold altnum. rewrite S. pose proof (last_digits_digit 3 a) as F. pose proof (last_digits_length 3 a) as LL.
    replace (skipn 3 (pre ++ last_digits 3 a ++ 47 :: f)) with (last_digits 3 a ++ 47 :: f) by (rewrite skipn_app, L, (skipn_all2 (n := 3)) by lia; reflexivity).
    rewrite T. cbn [fst].
    destruct (last_digits 3 a) as [|x [|y [|z [|? ?]]]]; try discriminate. cbn [app]. inversion F as [|? ? X F1]; subst. inversion F1 as [|? ? Y F2]; subst. inversion F2 as [|? ? Z1 F3]; subst.
    unfold PO_isDigit. match goal with |- (if ?b then _ else _) = _ => replace b with true by lia end. reflexivity.
  - replace (pre ++ last_digits 3 a ++ 47 :: f) with ((pre ++ last_digits 3 a ++ [47]) ++ f) by (rewrite <- !app_assoc; reflexivity).
    replace 7%nat with (length (pre ++ last_digits 3 a ++ [47])) by (rewrite !app_length, last_digits_length, L; reflexivity). rewrite skipn_app, skipn_all, Nat.sub_diag. reflexivity.
Qed.
Lemma endswith_app p u v : length p = length v -> endswith p (u ++ v) = eq_nocase_prefix p v.
Proof.
  intros L. unfold endswith. rewrite app_length. replace (length u + length v <? length p)%nat with false by lia.
  replace (length u + length v - length p)%nat with (length u) by lia. rewrite skipn_app, skipn_all, Nat.sub_diag. reflexivity.
Qed.
Lemma ident_ext a b x : same_nocase b (ext_text x) -> x <> UNKNOWN -> IdentifyExtension (a ++ b) = x.
Proof.
  intros B X. rewrite <- ident_lower. unfold lower_str. rewrite map_app. change (map lower b) with (lower_str b). rewrite B. change (map lower a) with (lower_str a).
  unfold IdentifyExtension. destruct x; try congruence; cbn [lower_str ext_text map]; rewrite !endswith_app by reflexivity; reflexivity.
Qed.
Lemma ident_unknown f : (forall x a b, x <> UNKNOWN -> f = a ++ b -> ~ same_nocase b (ext_text x)) -> IdentifyExtension f = UNKNOWN.
Proof.
  intros H. unfold IdentifyExtension.
  assert (G : forall x, x <> UNKNOWN -> endswith (ExtensionName x) f = false).
  { intros x X. destruct (endswith (ExtensionName x) f) eqn:E; [|reflexivity]. apply endswith_spec in E. destruct E as (a & b & F & N).
    exfalso. apply (H x a b X F). destruct x; exact N. }
  rewrite !G by discriminate. reflexivity.
Qed.

Definition to_pattern (l : layout) : file_pattern := match l with Flat => FLAT | Redundant => SUBDIRS | Efficient => NONREDUNDANT_SUBDIRS end.
(** what scanning a file of the set does; k is the number of digits in its name *)
Definition absorb (sc : scheme) (ea : files * Z) (it : item) (k : nat) : files * Z :=
  let '(e, alts) := ea in
  (Files (match i_num it with None => min_file e | Some n => Z.min (min_file e) n end)
         (match i_num it with None => max_file e | Some n => Z.max (max_file e) n end)
         (match i_sub it with None => sub_files e | Some s => Z.max (sub_files e) (s + 1) end)
         (match i_num it with None => digits_ e | Some n => if n <? 10 ^ (Z.of_nat k - 1) then Z.of_nat k else digits_ e end)
         (match i_num it with None => true | Some _ => unnumbered e end)
         (in_alt e || is_some (i_alt it)) (to_pattern (s_layout sc)) (s_ext sc) (wrap16 (num_files e + 1)),
   match i_alt it with None => alts | Some a => Z.max alts (a + 1) end).
Definition sane (sc : scheme) (e : files) : Prop :=
  0 <= min_file e <= 127 /\ -1 <= max_file e <= 32767 /\ 0 <= sub_files e <= 255 /\ (ext e = UNKNOWN \/ ext e = s_ext sc).
Lemma wrap8_id x : -128 <= x <= 127 -> wrap8 x = x.
Proof. intros H. unfold wrap8. rewrite Z.mod_small; lia. Qed.
Lemma wrap16_id x : -32768 <= x <= 32767 -> wrap16 x = x.
Proof. intros H. unfold wrap16. rewrite Z.mod_small; lia. Qed.
Lemma ext_eqb_refl x : ext_eqb x x = true.
Proof. destruct x; reflexivity. Qed.
Lemma type_eqb_refl x : type_eqb x x = true.
Proof. destruct x; reflexivity. Qed.
Lemma type_eqb_neq x y : x <> y -> type_eqb x y = false.
Proof. destruct x, y; try reflexivity; congruence. Qed.

(** the part of Scan after the alternative directory and the name *)
Definition tail_of (sc : scheme) (num : str) (it : item) : str :=
  num ++ match i_sub it with None => [] | Some s => 47 :: last_digits 3 s end ++ ext_text (s_ext sc).
Lemma ext_shape x : exists a b c, x <> UNKNOWN -> ext_text x = [46; a; b; c] /\ 57 < a.
Proof. destruct x; cbn; try (eexists _, _, _; intros _; split; [reflexivity|lia]). exists 0, 0, 0. congruence. Qed.
Lemma numeral_digits w n s : numeral w n s -> exists k, (0 < k)%nat /\ s = last_digits k n /\ 0 <= n < 10 ^ Z.of_nat k /\ (Nat.max w 1 <= k)%nat /\ (k = Nat.max w 1 \/ 10 ^ (Z.of_nat k - 1) <= n).
Proof. intros (k & E & N & C). exists k. split; [lia|]. split; [exact E|]. split; [exact N|]. split; [lia|]. destruct C as [C|(C & D)]; [left|right]; assumption. Qed.

Lemma scan_file sc e alts it g : scheme_ok sc -> item_ok sc it -> file_name sc it g -> sane sc e ->
  exists k, (forall n, i_num it = Some n -> (0 < k)%nat /\ n < 10 ^ Z.of_nat k /\ (Nat.max (s_width sc) 1 <= k)%nat /\ (k = Nat.max (s_width sc) 1 \/ 10 ^ (Z.of_nat k - 1) <= n)) /\
  scan (s_name sc) (GetFileType (s_ext sc)) (e, alts) g = (absorb sc (e, alts) it k, true).
Proof.
  intros (XU & W & (c0 & n0 & NM & C0) & NA & SE) (IA & IS & IN & RA & RN & RS) (num & NUM & G) (MIN & MAX & SUB & EX).
  set (body := s_name sc ++ match s_layout sc with Flat => [] | Redundant => 47 :: s_name sc | Efficient => [47] end ++ tail_of sc num it).
  assert (G' : g = match i_alt it with None => [] | Some a => alt_text a end ++ body) by (rewrite G; unfold body, tail_of; reflexivity). clear G.
  destruct (ext_shape (s_ext sc)) as (x1 & x2 & x3 & XS). specialize (XS XU). destruct XS as (XS & X1).
  (* first character of the tail *)
  assert (TF : exists c t, tail_of sc num it = c :: t /\ c <= 57 /\ 46 <= c /\ (c = 47 -> False)).
  { unfold tail_of. destruct (i_num it) as [n|] eqn:EN.
    - destruct (numeral_digits _ _ _ NUM) as (k & K & -> & N & _). destruct k as [|k]; [lia|]. destruct (last_digits_hd k n N) as (t & E).
      pose proof (last_digits_digit (S k) n) as F. rewrite E in *. pose proof (Forall_inv F) as FC. cbv beta in FC. cbn [app]. eexists _, _. split; [reflexivity|]. clear - FC. split; [lia|]. split; [lia|]. intros. lia.
    - subst num. cbn [app]. destruct (i_sub it) eqn:ES; [exfalso; apply IN; [rewrite <- IS; reflexivity|reflexivity]|]. cbn [app]. rewrite XS. eexists _, _. split; [reflexivity|]. split; [lia|]. split; [lia|]. intros. lia. }
  destruct TF as (tc & tt & TF & TC1 & TC2 & TC3).
  assert (BT : exists t0 c, body = s_name sc ++ t0 /\ (exists t1, t0 = c :: t1) /\ c <= 57).
  { unfold body. destruct (s_layout sc); cbn [app]; [rewrite TF; eexists _, tc; eauto|eexists _, 47; split; [reflexivity|]; split; [eauto|lia]|eexists _, 47; split; [reflexivity|]; split; [eauto|lia]]. }
  destruct BT as (t0 & bc & B0 & (bt & B1) & BC).
  assert (AN : altnum g = match i_alt it with None => -1 | Some a => a end /\ (if negb (altnum g =? -1) then skipn 7 g else g) = body).
  { destruct (i_alt it) as [a|] eqn:EA.
    - specialize (RA a eq_refl). destruct (altnum_alt ALT a body) as (H1 & H2); [reflexivity|lia|].
      assert (g = ALT ++ last_digits 3 a ++ 47 :: body) as ->. { rewrite G'. unfold alt_text, ALT. rewrite <- !app_assoc. reflexivity. }
      rewrite H1, H2. replace (a =? -1) with false by lia. auto.
    - cbn [app] in G'. subst g. rewrite altnum_not; [auto|]. rewrite B0. apply not_alt_app; [assumption|]. intros c t E. rewrite E in B1. injection B1 as -> ->. lia. }
  destruct AN as (AN & SKN).
  assert (IE : IdentifyExtension body = s_ext sc).
  { unfold body, tail_of. rewrite !app_assoc. apply ident_ext; [reflexivity|assumption]. }
  assert (ALT_eq : negb (altnum g =? -1) = is_some (i_alt it)).
  { rewrite AN. destruct (i_alt it) as [a|]; [specialize (RA a eq_refl); cbn; lia|reflexivity]. }
  assert (REST : match startswith (s_name sc) body with
    | None => None
    | Some rest => Some (match rest with
      | c :: r1 => if c =? 47 then match startswith (s_name sc) r1 with Some tmp => (SUBDIRS, tmp) | None => (NONREDUNDANT_SUBDIRS, r1) end else (FLAT, rest)
      | [] => (FLAT, rest) end) end = Some (to_pattern (s_layout sc), tail_of sc num it)).
  { unfold body. rewrite startswith_self. destruct (s_layout sc); cbn [app to_pattern].
    - rewrite TF. replace (tc =? 47) with false by lia. reflexivity.
    - replace (47 =? 47) with true by reflexivity. rewrite startswith_self. reflexivity.
    - replace (47 =? 47) with true by reflexivity. rewrite TF, NM. cbn [startswith]. rewrite !toLower_lower. unfold lower.
      replace ((tc <? 65) || (90 <? tc)) with true by lia. destruct ((c0 <? 65) || (90 <? c0)) eqn:?; [replace (tc =? c0) with false by lia|replace (tc =? c0 + 32) with false by lia]; reflexivity. }
  unfold scan. rewrite SKN. destruct (startswith (s_name sc) body) as [rest|]; [|discriminate]. injection REST as REST.
  unfold str in *. rewrite REST, IE. rewrite type_eqb_refl. cbn [negb]. 
  assert (EXT : negb (ext_eqb (ext e) UNKNOWN) && negb (ext_eqb (ext e) (s_ext sc)) = false). { destruct EX as [-> | ->]; [reflexivity|]. rewrite ext_eqb_refl, andb_comm. reflexivity. }
  rewrite EXT. cbv beta iota zeta. clear REST SKN IE EXT. rewrite ALT_eq.
  destruct (i_num it) as [n|] eqn:EN.
  - destruct (numeral_digits _ _ _ NUM) as (k & K & -> & N & KW & KC). specialize (RN n eq_refl). exists k. split; [intros n' E; injection E as <-; split; [lia|]; split; [lia|]; split; [lia|exact KC]|].
    assert (K127 : (k <= 127)%nat).
    { destruct KC as [KC|KC]; [lia|]. assert (k - 1 < 10)%nat; [|lia]. apply pow10_lt_mono. replace (Z.of_nat (k - 1)) with (Z.of_nat k - 1) by lia. change (10 ^ Z.of_nat 10) with 10000000000. lia. }
    set (sfx := match i_sub it with None => [] | Some s => 47 :: last_digits 3 s end ++ ext_text (s_ext sc)).
    assert (SFX : exists c t, sfx = c :: t /\ (c = 46 \/ c = 47)). { unfold sfx. destruct (i_sub it); [cbn [app]; eauto|cbn [app]; rewrite XS; eauto]. }
    assert (ST : strtol (tail_of sc (last_digits k n) it) = (n, sfx)).
    { unfold tail_of. fold sfx. apply strtol_spec; try lia. intros c t E. destruct SFX as (c' & t' & E' & C'). rewrite E in E'. injection E' as -> ->. lia. }
    assert (H48 : hd0 (tail_of sc (last_digits k n) it) = 48 + n / 10 ^ (Z.of_nat k - 1) /\ 48 <= 48 + n / 10 ^ (Z.of_nat k - 1) <= 57).
    { unfold tail_of. destruct k as [|k]; [lia|]. destruct (last_digits_hd k n N) as (t & E). pose proof (last_digits_digit (S k) n) as F.
      rewrite E in *. apply Forall_inv in F. cbv beta in F. cbn [app hd0]. replace (Z.of_nat (S k) - 1) with (Z.of_nat k) by lia. auto. }
    destruct H48 as (H48 & H48r). rewrite H48. replace (48 + n / 10 ^ (Z.of_nat k - 1) =? 46) with false by lia. cbn [andb].
    rewrite ST. replace (n <? 0) with false by lia. cbn [orb].
    assert (LEN : length (tail_of sc (last_digits k n) it) = (k + length sfx)%nat). { unfold tail_of. fold sfx. rewrite app_length, last_digits_length. reflexivity. }
    rewrite LEN. replace (length sfx =? k + length sfx)%nat with false by lia. replace (k + length sfx - length sfx)%nat with k by lia.
    cbn [min_file max_file sub_files digits_ unnumbered in_alt pattern ext num_files].
    assert (DG : (48 + n / 10 ^ (Z.of_nat k - 1) =? 48) = (n <? 10 ^ (Z.of_nat k - 1))).
    { assert (0 < 10 ^ (Z.of_nat k - 1)) by (apply Z.pow_pos_nonneg; lia). destruct (Z.ltb_spec n (10 ^ (Z.of_nat k - 1))); [rewrite Z.div_small by lia; reflexivity|].
      assert (1 <= n / 10 ^ (Z.of_nat k - 1)) by (apply Z.div_le_lower_bound; lia). lia. }
    rewrite DG, (wrap8_id (Z.min _ _)), (wrap16_id (Z.max _ _)), (wrap8_id (Z.of_nat k)) by lia.
    unfold absorb. rewrite EN. destruct (i_sub it) as [s|] eqn:ES.
    + specialize (RS s eq_refl). assert (LAY : s_layout sc = Efficient) by (apply SE; rewrite <- IS; reflexivity). rewrite LAY. cbn [to_pattern].
      assert (T3 : strtol (last_digits 3 s ++ ext_text (s_ext sc)) = (s, ext_text (s_ext sc))).
      { apply strtol_spec; [lia|change (10 ^ Z.of_nat 3) with 1000; lia|lia|]. rewrite XS. intros c t E. injection E as <- <-. lia. }
      unfold sfx in *. cbn [app] in *. pose proof (last_digits_digit 3 s) as F. pose proof (last_digits_length 3 s) as LL.
      remember (last_digits 3 s) as d3. destruct d3 as [|x [|y [|z [|? ?]]]]; try discriminate. inversion F as [|? ? X F1]; subst. inversion F1 as [|? ? Y F2]; subst. inversion F2 as [|? ? Z1 F3]; subst.
      cbn [app tl]. cbn [app] in T3. rewrite T3. cbn [fst]. unfold PO_isDigit.
      match goal with |- context [if ?b then (Files _ _ (uwrap8 _) _ _ _ _ _ _, _) else _] => replace b with true by lia end.
      cbn [min_file max_file sub_files digits_ unnumbered in_alt pattern ext num_files]. rewrite XS. cbn [hd0]. replace (46 =? 46) with true by reflexivity. cbn [negb].
      unfold uwrap8. rewrite (Z.mod_small (Z.max _ _)) by lia.
      f_equal. f_equal. rewrite AN. destruct (i_alt it); reflexivity.
    + unfold sfx. cbn [app]. rewrite XS. replace (46 =? 47) with false by reflexivity. cbn [andb].
      destruct (to_pattern (s_layout sc)) eqn:TP; cbn [hd0 min_file max_file sub_files digits_ unnumbered in_alt pattern ext num_files];
      replace (46 =? 46) with true by reflexivity; cbn [negb]; f_equal; f_equal; rewrite AN; destruct (i_alt it); reflexivity.
  - exists 0%nat. split; [discriminate|]. subst num. assert (ES : i_sub it = None). { destruct (i_sub it) eqn:ES; [exfalso; apply IN; [rewrite <- IS; reflexivity|reflexivity]|reflexivity]. }
    unfold tail_of, absorb. rewrite ES, EN. cbn [app]. rewrite XS. cbn [hd0 length]. cbn [Nat.eqb andb]. replace (46 =? 46) with true by reflexivity. cbn [andb].
    replace (46 =? 47) with false by reflexivity. cbn [andb].
    destruct (to_pattern (s_layout sc)) eqn:TP; cbn [hd0 min_file max_file sub_files digits_ unnumbered in_alt pattern ext num_files];
      replace (46 =? 46) with true by reflexivity; cbn [negb]; f_equal; f_equal; rewrite AN; destruct (i_alt it); reflexivity.
Qed.
Lemma scan_file_nocase sc e alts it f g : scheme_ok sc -> item_ok sc it -> file_name sc it g -> same_nocase f g -> sane sc e ->
  exists k, (forall n, i_num it = Some n -> (0 < k)%nat /\ n < 10 ^ Z.of_nat k /\ (Nat.max (s_width sc) 1 <= k)%nat /\ (k = Nat.max (s_width sc) 1 \/ 10 ^ (Z.of_nat k - 1) <= n)) /\
  scan (s_name sc) (GetFileType (s_ext sc)) (e, alts) f = (absorb sc (e, alts) it k, true).
Proof.
  intros SO IO FN NC SA. destruct (scan_file sc e alts it g SO IO FN SA) as (k & K & E). exists k. split; [exact K|].
  rewrite <- scan_lower, NC, scan_lower. exact E.
Qed.
Lemma scan_foreign sc e alts f : scheme_ok sc -> foreign sc f -> sane sc e -> IdentifyExtension f <> UNKNOWN ->
  exists x, (x = UNKNOWN \/ x = s_ext sc) /\ (ext e = s_ext sc -> x = s_ext sc) /\
  scan (s_name sc) (GetFileType (s_ext sc)) (e, alts) f =
  ((Files (min_file e) (max_file e) (sub_files e) (digits_ e) (unnumbered e) (in_alt e) (pattern e) x (num_files e), alts), false).
Proof.
  intros (XU & W & (c0 & n0 & NM & C0) & NA & SE) FO (MIN & MAX & SUB & EX) KN.
  assert (MAIN : forall g, (if negb (altnum f =? -1) then skipn 7 f else f) = g -> foreign_tail sc g -> exists x, (x = UNKNOWN \/ x = s_ext sc) /\ (ext e = s_ext sc -> x = s_ext sc) /\
    scan (s_name sc) (GetFileType (s_ext sc)) (e, alts) f =
    ((Files (min_file e) (max_file e) (sub_files e) (digits_ e) (unnumbered e) (in_alt e) (pattern e) x (num_files e), alts), false)).
  { intros g SG FT. unfold scan. rewrite SG. destruct FT as [FT|(c & r & B & C & a & b & x & Eg & NB & XX & TY)].
    - destruct (startswith (s_name sc) g) as [r|] eqn:E; [exfalso; apply (FT r); apply begins_startswith; exact E|]. exists (ext e). split; [exact EX|]. split; [auto|]. destruct e; reflexivity.
    - apply begins_startswith in B. rewrite B. replace (c =? 47) with false by lia.
      rewrite Eg. rewrite (ident_ext a b x NB XX).
      destruct TY as [-> | TY].
      + rewrite type_eqb_refl. cbn [negb]. replace (negb (ext_eqb (ext e) UNKNOWN) && negb (ext_eqb (ext e) (s_ext sc))) with false by (destruct EX as [-> | ->]; [reflexivity|rewrite ext_eqb_refl, andb_comm; reflexivity]).
        cbv zeta. cbn [hd0]. replace (c =? 46) with false by lia. cbn [andb]. rewrite strtol_no by lia. cbn [Z.ltb Z.compare]. rewrite Nat.eqb_refl, orb_true_r.
        exists (s_ext sc). split; [auto|]. split; [auto|]. reflexivity.
      + rewrite type_eqb_neq by assumption. cbn [negb]. exists (ext e). split; [exact EX|]. split; [auto|]. destruct e; reflexivity. }
  inversion FO; subst.
  - exfalso. apply KN. apply ident_unknown. assumption.
  - apply (MAIN f); [|assumption]. rewrite altnum_not by assumption. reflexivity.
  - destruct (altnum_alt pre a f0) as (H2 & H3); [assumption|assumption|]. apply (MAIN f0); [|assumption]. rewrite H2, H3. replace (a =? -1) with false by lia. reflexivity.
Qed.

(** * a whole listing *)
Definition wide (sc : scheme) : nat := Nat.max (s_width sc) 1.
Record inv (sc : scheme) (T : list item) (e : files) (alts : Z) : Prop := Inv {
  v_min : 0 <= min_file e <= 127; v_max : -1 <= max_file e <= 32767;
  v_range : forall t n, In t T -> i_num t = Some n -> min_file e <= n <= max_file e;
  v_min_in : min_file e = 127 \/ exists t, In t T /\ i_num t = Some (min_file e);
  v_max_in : max_file e = -1 \/ exists t, In t T /\ i_num t = Some (max_file e);
  v_plain : unnumbered e = true <-> exists t, In t T /\ i_num t = None;
  v_sub : 0 <= sub_files e <= 255; v_sub_all : forall t s, In t T -> i_sub t = Some s -> s < sub_files e;
  v_sub_in : sub_files e = 0 \/ exists t, In t T /\ i_sub t = Some (sub_files e - 1);
  v_alt : 0 <= alts <= 256; v_alt_all : forall t a, In t T -> i_alt t = Some a -> a < alts;
  v_alt_in : alts = 0 \/ exists t, In t T /\ i_alt t = Some (alts - 1);
  v_empty : T = [] -> in_alt e = false;
  v_some : T <> [] -> in_alt e = s_alt sc /\ pattern e = to_pattern (s_layout sc) /\ ext e = s_ext sc;
  v_ext : ext e = UNKNOWN \/ ext e = s_ext sc;
  v_num : num_files e = wrap16 (Z.of_nat (length T));
  v_digits : digits_ e = Z.of_nat (wide sc) \/ (digits_ e = 0 /\ forall t n, In t T -> i_num t = Some n -> 10 ^ (Z.of_nat (wide sc) - 1) <= n);
  v_ok : Forall (item_ok sc) T }.
Lemma inv_start sc : inv sc [] reset_files 0.
Proof.
  constructor; cbn; try lia; try tauto; try (intros; contradiction); auto.
  split; [discriminate|]. intros (t & [] & _).
Qed.
Lemma inv_sane sc T e alts : inv sc T e alts -> sane sc e.
Proof. intros V. split; [apply V|]. split; [apply V|]. split; [apply V|apply V]. Qed.
Lemma wrap16_succ x : wrap16 (wrap16 x + 1) = wrap16 (x + 1).
Proof. unfold wrap16. f_equal. replace ((x + 32768) mod 65536 - 32768 + 1 + 32768) with ((x + 32768) mod 65536 + 1) by lia. rewrite Z.add_mod_idemp_l by lia. f_equal. lia. Qed.
Lemma inv_absorb sc T e alts it k : item_ok sc it -> inv sc T e alts ->
  (forall n, i_num it = Some n -> (0 < k)%nat /\ n < 10 ^ Z.of_nat k /\ (wide sc <= k)%nat /\ (k = wide sc \/ 10 ^ (Z.of_nat k - 1) <= n)) ->
  inv sc (it :: T) (fst (absorb sc (e, alts) it k)) (snd (absorb sc (e, alts) it k)).
Proof.
  intros IO V K. assert (IO' := IO). destruct IO' as (IA & IS & IN & RA & RN & RS). destruct V. unfold absorb. cbn [fst snd].
  constructor; cbn [min_file max_file sub_files digits_ unnumbered in_alt pattern ext num_files].
  - destruct (i_num it) as [n|]; [specialize (RN n eq_refl)|]; lia.
  - destruct (i_num it) as [n|]; [specialize (RN n eq_refl)|]; lia.
  - intros t n [<-|I] E; [rewrite E; lia|]. specialize (v_range0 t n I E). destruct (i_num it) as [m|]; lia.
  - destruct (i_num it) as [n|] eqn:E.
    + destruct (Z.min_spec (min_file e) n) as [(? & ->)|(? & ->)]; [|right; exists it; split; [left; reflexivity|exact E]]. destruct v_min_in0 as [?|(t & I & F)]; [left; assumption|right; exists t; split; [right; exact I|exact F]].
    + destruct v_min_in0 as [?|(t & I & F)]; [left; assumption|right; exists t; split; [right; exact I|exact F]].
  - destruct (i_num it) as [n|] eqn:E.
    + destruct (Z.max_spec (max_file e) n) as [(? & ->)|(? & ->)]; [right; exists it; split; [left; reflexivity|exact E]|]. destruct v_max_in0 as [?|(t & I & F)]; [left; assumption|right; exists t; split; [right; exact I|exact F]].
    + destruct v_max_in0 as [?|(t & I & F)]; [left; assumption|right; exists t; split; [right; exact I|exact F]].
  - destruct (i_num it) as [n|] eqn:E.
    + rewrite v_plain0. split; [intros (t & I & F); exists t; split; [right; exact I|exact F]|]. intros (t & [<-|I] & F); [congruence|eauto].
    + split; [intros _; exists it; split; [left; reflexivity|exact E]|reflexivity].
  - destruct (i_sub it) as [s|]; [specialize (RS s eq_refl)|]; lia.
  - intros t s [<-|I] E; [rewrite E; lia|]. specialize (v_sub_all0 t s I E). destruct (i_sub it); lia.
  - destruct (i_sub it) as [s|] eqn:E.
    + destruct (Z.max_spec (sub_files e) (s + 1)) as [(? & ->)|(? & ->)]; [right; exists it; split; [left; reflexivity|rewrite E; f_equal; lia]|].
      destruct v_sub_in0 as [?|(t & I & F)]; [left; assumption|right; exists t; split; [right; exact I|exact F]].
    + destruct v_sub_in0 as [?|(t & I & F)]; [left; assumption|right; exists t; split; [right; exact I|exact F]].
  - destruct (i_alt it) as [a|]; [specialize (RA a eq_refl)|]; lia.
  - intros t a [<-|I] E; [rewrite E; lia|]. specialize (v_alt_all0 t a I E). destruct (i_alt it); lia.
  - destruct (i_alt it) as [s|] eqn:E.
    + destruct (Z.max_spec alts (s + 1)) as [(? & ->)|(? & ->)]; [right; exists it; split; [left; reflexivity|rewrite E; f_equal; lia]|].
      destruct v_alt_in0 as [?|(t & I & F)]; [left; assumption|right; exists t; split; [right; exact I|exact F]].
    + destruct v_alt_in0 as [?|(t & I & F)]; [left; assumption|right; exists t; split; [right; exact I|exact F]].
  - discriminate.
  - intros _. split; [|auto]. rewrite IA. destruct T; [rewrite v_empty0 by reflexivity; reflexivity|]. destruct (v_some0 ltac:(discriminate)) as (-> & _). apply orb_diag.
  - auto.
  - rewrite v_num0, wrap16_succ. cbn [length]. f_equal. lia.
  - destruct (i_num it) as [n|] eqn:E.
    + destruct (K n eq_refl) as (K0 & KL & KW & KC). destruct (Z.ltb_spec n (10 ^ (Z.of_nat k - 1))) as [L|L].
      * left. destruct KC as [-> | KC]; [reflexivity|lia].
      * destruct v_digits0 as [D|(D & A)]; [left; exact D|right]. split; [exact D|]. intros t m [<-|I] F; [|eauto]. rewrite E in F. injection F as <-.
        apply Z.le_trans with (2 := L). apply Z.pow_le_mono_r; lia.
    + destruct v_digits0 as [D|(D & A)]; [left; exact D|right]. split; [exact D|]. intros t m [<-|I] F; [congruence|eauto].
  - constructor; assumption.
Qed.
Lemma inv_ext sc T e alts x : (x = UNKNOWN \/ x = s_ext sc) -> (ext e = s_ext sc -> x = s_ext sc) -> inv sc T e alts ->
  inv sc T (Files (min_file e) (max_file e) (sub_files e) (digits_ e) (unnumbered e) (in_alt e) (pattern e) x (num_files e)) alts.
Proof.
  intros X Y V. destruct V. constructor; cbn [min_file max_file sub_files digits_ unnumbered in_alt pattern ext num_files]; auto.
  intros H. destruct (v_some0 H) as (A & B & C). auto.
Qed.
Lemma inv_perm sc T T' e alts : (forall t, In t T <-> In t T') -> length T = length T' -> inv sc T e alts -> inv sc T' e alts.
Proof.
  intros P L V. destruct V. constructor; auto; try (intros t x I; apply P in I; eauto).
  - destruct v_min_in0 as [?|(t & I & F)]; [left; assumption|right; exists t; split; [apply P; exact I|exact F]].
  - destruct v_max_in0 as [?|(t & I & F)]; [left; assumption|right; exists t; split; [apply P; exact I|exact F]].
  - rewrite v_plain0. split; intros (t & I & F); exists t; (split; [apply P; exact I|exact F]).
  - destruct v_sub_in0 as [?|(t & I & F)]; [left; assumption|right; exists t; split; [apply P; exact I|exact F]].
  - destruct v_alt_in0 as [?|(t & I & F)]; [left; assumption|right; exists t; split; [apply P; exact I|exact F]].
  - intros ->. apply v_empty0. destruct T; [reflexivity|discriminate].
  - intros H. apply v_some0. intros ->. apply H. destruct T'; [reflexivity|discriminate].
  - rewrite v_num0, L. reflexivity.
  - destruct v_digits0 as [D|(D & A)]; [left; exact D|right]. split; [exact D|]. intros t n I. apply P in I. eauto.
  - rewrite Forall_forall in *. intros t I. apply v_ok0. apply P. exact I.
Qed.

Lemma known_file sc it f g : scheme_ok sc -> file_name sc it g -> same_nocase f g -> IdentifyExtension f = s_ext sc.
Proof.
  intros (X & _) (num & _ & ->) E. rewrite <- ident_lower, E, ident_lower. rewrite !app_assoc. apply ident_ext; [reflexivity|assumption].
Qed.
(** while scanning the right directory *)
Definition state_ok (sc : scheme) (d : nat) (T : list item) (s : found_set) : Prop :=
  inv sc T (set s) (alternatives s) /\ directory s = (match T with [] => None | _ => Some d end).
Lemma scan_listing sc d fs T : scheme_ok sc -> listing sc fs T -> forall T0 s, state_ok sc d T0 s ->
  state_ok sc d (rev T ++ T0) (run (scan_all (s_name sc) (GetFileType (s_ext sc))) s (map (fun f => (d, f)) fs)).
Proof.
  intros SO L. induction L as [|f fs T FO L IH|f g it fs T IO FN NC L IH]; intros T0 s (V & D).
  - cbn [map run rev app]. split; assumption.
  - cbn [map run]. apply IH. unfold scan_all. destruct (ext_eqb (IdentifyExtension f) UNKNOWN) eqn:U; [split; assumption|].
    destruct (scan_foreign sc (set s) (alternatives s) f SO FO (inv_sane _ _ _ _ V)) as (x & X & Y & E). { intros E. rewrite E in U. discriminate. }
    rewrite E. destruct T0 as [|t T0]; rewrite D; [|rewrite Nat.eqb_refl; cbn [negb]]; (split; [cbn [set alternatives]; apply inv_ext; assumption|reflexivity]).
  - cbn [map run rev]. rewrite <- app_assoc. cbn [app]. apply IH. unfold scan_all.
    rewrite (known_file sc it f g SO FN NC).
    replace (ext_eqb (s_ext sc) UNKNOWN) with false by (destruct SO as (X & _); destruct (s_ext sc); try reflexivity; congruence).
    destruct (scan_file_nocase sc (set s) (alternatives s) it f g SO IO FN NC (inv_sane _ _ _ _ V)) as (k & K & E).
    rewrite E. pose proof (inv_absorb sc T0 _ _ it k IO V K) as V'. destruct (absorb sc (set s, alternatives s) it k) as (e', a'). cbn [fst snd] in V'.
    destruct T0 as [|t T0]; rewrite D; [|rewrite Nat.eqb_refl; cbn [negb]]; (split; [exact V'|reflexivity]).
Qed.
(** directories before (nothing of the set in them) and after *)
Lemma scan_before sc fs : scheme_ok sc -> Forall (fun df => foreign sc (snd df)) fs -> forall s, inv sc [] (set s) (alternatives s) -> directory s = None ->
  let s' := run (scan_all (s_name sc) (GetFileType (s_ext sc))) s fs in inv sc [] (set s') (alternatives s') /\ directory s' = None.
Proof.
  intros SO F. induction F as [|(d, f) fs FO F IH]; intros s V D; [split; assumption|]. cbn [run]. cbn [snd] in FO.
  assert (G : inv sc [] (set (scan_all (s_name sc) (GetFileType (s_ext sc)) s (d, f))) (alternatives (scan_all (s_name sc) (GetFileType (s_ext sc)) s (d, f))) /\ directory (scan_all (s_name sc) (GetFileType (s_ext sc)) s (d, f)) = None).
  { unfold scan_all. destruct (ext_eqb (IdentifyExtension f) UNKNOWN) eqn:U; [split; assumption|].
    destruct (scan_foreign sc (set s) (alternatives s) f SO FO (inv_sane _ _ _ _ V)) as (x & X & Y & E). { intros E. rewrite E in U. discriminate. }
    rewrite E, D. split; [|reflexivity]. cbn [set alternatives]. apply inv_ext; assumption. }
  destruct G as (G1 & G2). apply IH; assumption.
Qed.
Lemma scan_after name ft d fs : Forall (fun df => fst df <> d) fs -> forall s, directory s = Some d -> run (scan_all name ft) s fs = s.
Proof.
  intros F. induction F as [|(d', f) fs N F IH]; intros s D; [reflexivity|]. cbn [run]. cbn [fst] in N.
  assert (E : scan_all name ft s (d', f) = s). { unfold scan_all. destruct (ext_eqb _ _); [reflexivity|]. rewrite D. replace (Nat.eqb d d') with false by lia. reflexivity. }
  rewrite E. apply IH. exact D.
Qed.

(** * generated names *)
Definition mk_item (sc : scheme) (e : files) (k s a : Z) : item :=
  Item (if s_alt sc then Some a else None) (if k + min_file e <=? max_file e then Some (k + min_file e) else None) (if s_sub sc then Some s else None).
Definition choice (sc : scheme) (e : files) (alts k s a : Z) : Prop :=
  0 <= k < files_found e /\ 0 <= s < number_of_subfiles e /\ 0 <= a < number_of_alternatives e alts.
Lemma no_numbers sc T e alts : inv sc T e alts -> max_file e < min_file e -> (exists t n, In t T /\ i_num t = Some n) -> False.
Proof. intros V H (t & n & I & E). pose proof (v_range _ _ _ _ V t n I E). lia. Qed.
Lemma sub_zero sc T e alts : inv sc T e alts -> T <> [] -> (sub_files e =? 0) = negb (s_sub sc).
Proof.
  intros V NE. destruct T as [|t T]; [congruence|]. pose proof (v_ok _ _ _ _ V) as F. inversion F as [|? ? (_ & IS & _) _]; subst.
  destruct (s_sub sc) eqn:S.
  - destruct (i_sub t) as [s|] eqn:E; [|discriminate]. pose proof (v_sub_all _ _ _ _ V t s (or_introl eq_refl) E).
    rewrite Forall_forall in F. destruct (F t (or_introl eq_refl)) as (_ & _ & _ & _ & _ & RS). specialize (RS s E). cbn [negb]. lia.
  - destruct (v_sub_in _ _ _ _ V) as [Z0|(t' & I & E)]; [rewrite Z0; reflexivity|]. rewrite Forall_forall in F. destruct (F t' I) as (_ & IS' & _). rewrite S, E in IS'. discriminate.
Qed.
Lemma get_name_item sc T e alts dir k s a : scheme_ok sc -> inv sc T e alts -> T <> [] -> low_enough T -> choice sc e alts k s a -> a <= 255 ->
  exists f, file_name sc (mk_item sc e k s a) f /\ GetName dir (s_name sc) e k s a = path dir f.
Proof.
  intros SO V NE LO (K & S & A) A255. destruct (v_some _ _ _ _ V NE) as (EA & EP & EX).
  pose proof (sub_zero sc T e alts V NE) as SZ. unfold number_of_subfiles in S. rewrite SZ in S.
  set (num := if k + min_file e <=? max_file e then addNumber (k + min_file e) (digits_ e) else []).
  set (f := (if in_alt e then alt_text a else []) ++ s_name sc ++ match s_layout sc with Flat => [] | Redundant => 47 :: s_name sc | Efficient => [47] end
            ++ num ++ (if s_sub sc then 47 :: last_digits 3 s else []) ++ ext_text (s_ext sc)).
  exists f. split.
  - exists num. unfold mk_item. cbn [i_num i_alt i_sub]. split.
    + unfold num. destruct (Z.leb_spec (k + min_file e) (max_file e)) as [L|L]; [|reflexivity].
      pose proof (v_min _ _ _ _ V). set (n := k + min_file e) in *.
      assert (W : numeral (s_width sc) n (addNumber n (Z.of_nat (wide sc)))).
      { destruct (Nat.eq_dec (s_width sc) 0) as [Z0|NZ].
        - unfold wide. rewrite Z0. cbn [Nat.max]. destruct (addNumber_numeral n 1 ltac:(lia) ltac:(lia)) as (k' & X). exists k'. exact X.
        - replace (wide sc) with (s_width sc) by (unfold wide; lia). apply addNumber_numeral; lia. }
      destruct (v_digits _ _ _ _ V) as [D|(D & AL)]; [rewrite D; exact W|]. rewrite D.
      assert (MI : exists t, In t T /\ i_num t = Some (min_file e)).
      { destruct (v_min_in _ _ _ _ V) as [M|M]; [|exact M]. destruct LO as (t & m & I & E & M1).
        - destruct (v_max_in _ _ _ _ V) as [X|(t & I & E)]; [lia|eauto].
        - pose proof (v_range _ _ _ _ V t m I E). exists t. split; [exact I|]. rewrite E. f_equal. lia. }
      destruct MI as (t & I & E). specialize (AL t _ I E).
      rewrite addNumber0_numeral by lia. pose proof (addNumber_numeral n 1 ltac:(lia) ltac:(lia)) as N1. change (Z.of_nat 1) with 1 in N1.
      assert (N2 : numeral (wide sc) n (addNumber n 1)). { apply numeral_widen with (w := 1%nat); [exact N1|unfold wide; lia|unfold wide; lia|lia]. }
      destruct N2 as (k' & E2 & B2 & C2). exists k'. split; [exact E2|]. split; [exact B2|]. unfold wide in C2. replace (Nat.max (Nat.max (s_width sc) 1) 1) with (Nat.max (s_width sc) 1) in C2 by lia. exact C2.
    + unfold f. rewrite EA. destruct (s_alt sc), (s_sub sc); reflexivity.
  - unfold GetName, f. rewrite EA, EP, EX, SZ.
    assert (A3 : addNumber a 3 = last_digits 3 a). { apply addNumber3. lia. }
    assert (SB : (if negb (s_sub sc) then [] else 47 :: addNumber s 3) = if s_sub sc then 47 :: last_digits 3 s else []).
    { destruct (s_sub sc); [|reflexivity]. cbn [negb] in *. rewrite addNumber3; [reflexivity|]. pose proof (v_sub _ _ _ _ V). lia. }
    assert (EN : ExtensionName (s_ext sc) = ext_text (s_ext sc)) by (destruct (s_ext sc); reflexivity).
    assert (LY : match to_pattern (s_layout sc) with PUnknown | FLAT => [] | SUBDIRS => 47 :: s_name sc | NONREDUNDANT_SUBDIRS => [47] end = match s_layout sc with Flat => [] | Redundant => 47 :: s_name sc | Efficient => [47] end) by (destruct (s_layout sc); reflexivity).
    fold num. unfold str in *. rewrite A3, SB, EN, LY. unfold path, alt_text, ALT. destruct (s_alt sc), dir; cbn [app]; rewrite <- ?app_assoc; reflexivity.
Qed.

Lemma covered_choice sc T e alts it : inv sc T e alts -> T <> [] -> low_enough T -> covered T it ->
  exists k s a, choice sc e alts k s a /\ it = mk_item sc e k s a /\ a <= 255.
Proof.
  intros V NE LO (CN & CS & CA). pose proof (sub_zero sc T e alts V NE) as SZ. destruct (v_some _ _ _ _ V NE) as (EA & _ & _).
  pose proof (v_ok _ _ _ _ V) as OK. rewrite Forall_forall in OK.
  assert (HD : exists t, In t T). { destruct T as [|t T]; [congruence|]. exists t. left; reflexivity. }
  assert (NUM : exists k, 0 <= k < files_found e /\ i_num it = (if k + min_file e <=? max_file e then Some (k + min_file e) else None)).
  { unfold files_found. destruct (i_num it) as [n|] eqn:EN.
    - destruct CN as ((t1 & m1 & I1 & E1 & L1) & (t2 & m2 & I2 & E2 & L2)).
      pose proof (v_range _ _ _ _ V t1 m1 I1 E1). pose proof (v_range _ _ _ _ V t2 m2 I2 E2).
      exists (n - min_file e). split; [|replace (n - min_file e + min_file e) with n by lia; replace (n <=? max_file e) with true by lia; reflexivity].
      destruct (min_file e <=? max_file e) eqn:?, (unnumbered e); lia.
    - assert (U : unnumbered e = true) by (apply (v_plain _ _ _ _ V); exact CN). rewrite U.
      destruct (Z.leb_spec (min_file e) (max_file e)).
      + exists (max_file e - min_file e + 1). split; [lia|]. replace (_ <=? max_file e) with false by lia. reflexivity.
      + exists 0. split; [lia|]. replace (0 + min_file e <=? max_file e) with false by lia. reflexivity. }
  destruct NUM as (k & K & EN).
  assert (SUB : exists s, 0 <= s < number_of_subfiles e /\ i_sub it = if s_sub sc then Some s else None).
  { unfold number_of_subfiles. rewrite SZ. destruct HD as (t & I). destruct (OK t I) as (_ & IS & _). destruct (i_sub it) as [s|].
    - destruct CS as (S0 & t' & m & I' & E & L). pose proof (v_sub_all _ _ _ _ V t' m I' E). destruct (OK t' I') as (_ & IS' & _). rewrite <- IS', E. cbn [is_some negb]. exists s. split; [lia|reflexivity].
    - rewrite (CS t I) in IS. cbn [is_some] in IS. rewrite <- IS. exists 0. split; [cbn [negb]; lia|reflexivity]. }
  destruct SUB as (s & S & ES).
  assert (ALTS : exists a, 0 <= a < number_of_alternatives e alts /\ (i_alt it = if s_alt sc then Some a else None) /\ a <= 255).
  { unfold number_of_alternatives. rewrite EA. destruct HD as (t & I). destruct (OK t I) as (IA & _). destruct (i_alt it) as [a|].
    - destruct CA as (A0 & t' & m & I' & E & L). pose proof (v_alt_all _ _ _ _ V t' m I' E). destruct (OK t' I') as (IA' & _ & _ & RA & _). specialize (RA m E). rewrite <- IA', E. cbn [is_some]. exists a. split; [lia|]. split; [reflexivity|lia].
    - rewrite (CA t I) in IA. cbn [is_some] in IA. rewrite <- IA. exists 0. split; [lia|]. split; [reflexivity|lia]. }
  destruct ALTS as (a & A & EAL & A255).
  exists k, s, a. split; [split; [exact K|split; assumption]|]. split; [|exact A255]. unfold mk_item. rewrite <- EN, <- ES, <- EAL. destruct it; reflexivity.
Qed.
Lemma choice_covered sc T e alts k s a : inv sc T e alts -> T <> [] -> low_enough T -> choice sc e alts k s a ->
  covered T (mk_item sc e k s a) /\ a <= 255.
Proof.
  intros V NE LO (K & S & A). pose proof (sub_zero sc T e alts V NE) as SZ. destruct (v_some _ _ _ _ V NE) as (EA & _ & _).
  pose proof (v_ok _ _ _ _ V) as OK. rewrite Forall_forall in OK. unfold number_of_subfiles in S. rewrite SZ in S. unfold number_of_alternatives in A. rewrite EA in A.
  split.
  - unfold covered, mk_item. cbn [i_num i_sub i_alt]. split; [|split].
    + unfold files_found in K. destruct (Z.leb_spec (k + min_file e) (max_file e)) as [L|L].
      * assert (MX : exists t, In t T /\ i_num t = Some (max_file e)). { destruct (v_max_in _ _ _ _ V) as [X|X]; [pose proof (v_min _ _ _ _ V); lia|exact X]. }
        destruct MX as (t2 & I2 & E2). split; [|exists t2, (max_file e); auto].
        destruct (v_min_in _ _ _ _ V) as [M|(t & I & E)]; [|exists t, (min_file e); split; [exact I|]; split; [exact E|lia]].
        destruct LO as (t & m & I & E & M1); [eauto|]. exists t, m. split; [exact I|]. split; [exact E|]. lia.
      * apply (v_plain _ _ _ _ V). destruct (unnumbered e); [reflexivity|]. destruct (Z.leb_spec (min_file e) (max_file e)); lia.
    + destruct (s_sub sc) eqn:ES; cbn [negb] in S.
      * split; [lia|]. destruct (v_sub_in _ _ _ _ V) as [X|(t & I & E)]; [lia|]. exists t, (sub_files e - 1). split; [exact I|]. split; [exact E|lia].
      * intros t I. destruct (OK t I) as (_ & IS & _). rewrite ES in IS. destruct (i_sub t); [discriminate|reflexivity].
    + destruct (s_alt sc) eqn:ES.
      * split; [lia|]. destruct (v_alt_in _ _ _ _ V) as [X|(t & I & E)]; [lia|]. exists t, (alts - 1). split; [exact I|]. split; [exact E|lia].
      * intros t I. destruct (OK t I) as (IS & _ & _). rewrite ES in IS. destruct (i_alt t); [discriminate|reflexivity].
  - pose proof (v_alt _ _ _ _ V). destruct (s_alt sc); lia.
Qed.
Lemma mk_item_inj sc T e alts k s a k' s' a' : inv sc T e alts -> T <> [] -> choice sc e alts k s a -> choice sc e alts k' s' a' ->
  mk_item sc e k s a = mk_item sc e k' s' a' -> k = k' /\ s = s' /\ a = a'.
Proof.
  intros V NE (K & S & A) (K' & S' & A') E. pose proof (sub_zero sc T e alts V NE) as SZ. destruct (v_some _ _ _ _ V NE) as (EA & _ & _).
  unfold number_of_subfiles in *. rewrite SZ in *. unfold number_of_alternatives in *. rewrite EA in *. unfold mk_item in E.
  remember (if k + min_file e <=? max_file e then Some (k + min_file e) else None) as n1 eqn:N1. remember (if k' + min_file e <=? max_file e then Some (k' + min_file e) else None) as n2 eqn:N2.
  injection E as E1 E2 E3. split; [|split].
  - unfold files_found in *. rewrite E2, N2 in N1. destruct (Z.leb_spec (k + min_file e) (max_file e)), (Z.leb_spec (k' + min_file e) (max_file e)); try discriminate; [injection N1 as N1; lia|].
    destruct (unnumbered e), (Z.leb_spec (min_file e) (max_file e)); lia.
  - destruct (s_sub sc); cbn [negb] in *; [congruence|lia].
  - destruct (s_alt sc); [congruence|lia].
Qed.

Definition zs (n : Z) : list Z := map Z.of_nat (seq 0 (Z.to_nat n)).
Lemma zs_in n x : In x (zs n) <-> 0 <= x < n.
Proof.
  unfold zs. rewrite in_map_iff. split; [intros (y & <- & I); apply in_seq in I; lia|]. intros H. exists (Z.to_nat x). split; [lia|]. apply in_seq. lia.
Qed.
Lemma zs_length n : 0 <= n -> Z.of_nat (length (zs n)) = n.
Proof. intros H. unfold zs. rewrite map_length, seq_length. lia. Qed.
Lemma NoDup_map_on {A B} (f : A -> B) l : (forall x y, In x l -> In y l -> f x = f y -> x = y) -> NoDup l -> NoDup (map f l).
Proof.
  intros H N. induction N as [|x l NI N IH]; [constructor|]. cbn [map]. constructor.
  - intros I. apply in_map_iff in I. destruct I as (y & E & I). apply NI. rewrite <- (H y x); [exact I|right; exact I|left; reflexivity|exact E].
  - apply IH. intros. apply H; auto; right; assumption.
Qed.
Lemma zs_nodup n : NoDup (zs n).
Proof. apply NoDup_map_on; [intros; lia|apply seq_NoDup]. Qed.
Lemma NoDup_app_disj {A} (l m : list A) : NoDup l -> NoDup m -> (forall x, In x l -> In x m -> False) -> NoDup (l ++ m).
Proof.
  intros N M D. induction N as [|x l NI N IH]; [exact M|]. cbn [app]. constructor.
  - intros I. apply in_app_or in I. destruct I as [I|I]; [apply NI; exact I|apply (D x); [left; reflexivity|exact I]].
  - apply IH. intros y I J. apply (D y); [right; exact I|exact J].
Qed.
Lemma NoDup_prod {A B} (l : list A) (m : list B) : NoDup l -> NoDup m -> NoDup (list_prod l m).
Proof.
  intros N M. induction N as [|x l NI N IH]; [constructor|]. cbn [list_prod]. apply NoDup_app_disj; [|exact IH|].
  - apply NoDup_map_on; [|exact M]. intros y z _ _ E. congruence.
  - intros (a, b) I J. apply in_map_iff in I. destruct I as (y & E & _). injection E as <- <-. apply in_prod_iff in J. destruct J as (J & _). contradiction.
Qed.
Definition box (sc : scheme) (e : files) (alts : Z) : list item :=
  map (fun p => mk_item sc e (fst (fst p)) (snd p) (snd (fst p))) (list_prod (list_prod (zs (files_found e)) (zs (number_of_alternatives e alts))) (zs (number_of_subfiles e))).
Lemma box_spec sc T e alts : inv sc T e alts -> T <> [] -> low_enough T ->
  NoDup (box sc e alts) /\ (forall it, In it (box sc e alts) <-> covered T it) /\ Z.of_nat (length (box sc e alts)) = expected_files e alts.
Proof.
  intros V NE LO.
  assert (CH : forall p, In p (list_prod (list_prod (zs (files_found e)) (zs (number_of_alternatives e alts))) (zs (number_of_subfiles e))) <-> choice sc e alts (fst (fst p)) (snd p) (snd (fst p))).
  { intros ((k, a), s). rewrite !in_prod_iff, !zs_in. cbn [fst snd]. unfold choice. tauto. }
  split; [|split].
  - apply NoDup_map_on; [|apply NoDup_prod; [apply NoDup_prod|]; apply zs_nodup].
    intros ((k, a), s) ((k', a'), s') I J E. apply CH in I, J. cbn [fst snd] in *.
    destruct (mk_item_inj sc T e alts k s a k' s' a' V NE I J E) as (-> & -> & ->). reflexivity.
  - intros it. unfold box. rewrite in_map_iff. split.
    + intros (p & <- & I). apply CH in I. apply (choice_covered sc T e alts _ _ _ V NE LO I).
    + intros C. destruct (covered_choice sc T e alts it V NE LO C) as (k & s & a & H & -> & _). exists ((k, a), s). split; [reflexivity|]. apply CH. exact H.
  - unfold box. rewrite map_length, !prod_length, !Nat2Z.inj_mul. unfold expected_files. 
    pose proof (v_sub _ _ _ _ V). pose proof (v_alt _ _ _ _ V).
    rewrite !zs_length; [reflexivity|..].
    + unfold number_of_subfiles. destruct (sub_files e =? 0); lia.
    + unfold number_of_alternatives. destruct (in_alt e); lia.
    + unfold files_found. destruct (Z.leb_spec (min_file e) (max_file e)), (unnumbered e); lia.
Qed.
Lemma in_covered T it sc : In it T -> Forall (item_ok sc) T -> covered T it.
Proof.
  intros I OK. rewrite Forall_forall in OK. assert (OKI := OK it I). destruct OKI as (IA & IS & _ & RA & RN & RS). split; [|split].
  - destruct (i_num it) as [n|] eqn:E; [|eauto]. split; exists it, n; (split; [exact I|split; [exact E|lia]]).
  - destruct (i_sub it) as [s|] eqn:E; [split; [specialize (RS s eq_refl); lia|exists it, s; split; [exact I|split; [exact E|lia]]]|].
    intros t J. destruct (OK t J) as (_ & IS' & _). cbn [is_some] in IS. rewrite <- IS in IS'. destruct (i_sub t); [discriminate|reflexivity].
  - destruct (i_alt it) as [s|] eqn:E; [split; [specialize (RA s eq_refl); lia|exists it, s; split; [exact I|split; [exact E|lia]]]|].
    intros t J. destruct (OK t J) as (IS' & _). cbn [is_some] in IA. rewrite <- IA in IS'. destruct (i_alt t); [discriminate|reflexivity].
Qed.
Lemma warning_spec sc T e alts : inv sc T e alts -> T <> [] -> low_enough T -> NoDup T -> Z.of_nat (length T) <= 32767 ->
  (expected_files e alts = num_files e <-> forall it, covered T it -> In it T).
Proof.
  intros V NE LO ND LE. destruct (box_spec sc T e alts V NE LO) as (BN & BI & BL).
  rewrite (v_num _ _ _ _ V), wrap16_id by lia. rewrite <- BL.
  assert (INC : incl T (box sc e alts)). { intros it I. apply BI. apply (in_covered T it sc I (v_ok _ _ _ _ V)). }
  split.
  - intros L it C. apply BI in C. apply (NoDup_length_incl ND) in C; [exact C|lia|exact INC].
  - intros H. assert (I2 : incl (box sc e alts) T). { intros it I. apply H. apply BI. exact I. }
    pose proof (NoDup_incl_length BN I2). pose proof (NoDup_incl_length ND INC). lia.
Qed.
Lemma file_name_fun sc it f g : file_name sc it f -> file_name sc it g -> f = g.
Proof.
  intros (a & A & ->) (b & B & ->). assert (a = b) as ->; [|reflexivity].
  destruct (i_num it); [exact (numeral_fun _ _ _ _ A B)|congruence].
Qed.
Lemma listing_in sc fs T it : listing sc fs T -> In it T -> exists f g, In f fs /\ file_name sc it g /\ same_nocase f g.
Proof.
  induction 1 as [|f fs T FO L IH|f g it' fs T IO FN NC L IH]; intros I.
  - destruct I.
  - destruct (IH I) as (x & y & A & B). exists x, y. split; [right; exact A|exact B].
  - destruct I as [<-|I]; [exists f, g; split; [left; reflexivity|split; assumption]|]. destruct (IH I) as (x & y & A & B). exists x, y. split; [right; exact A|exact B].
Qed.
(** the state after scanning all directories *)
Lemma scanned sc before d fs after T : scheme_ok sc -> Forall (fun df => foreign sc (snd df)) before -> listing sc fs T -> T <> [] ->
  Forall (fun df => fst df <> d) after ->
  let s := run (scan_all (s_name sc) (GetFileType (s_ext sc))) scan_start (before ++ map (fun f => (d, f)) fs ++ after) in
  inv sc T (set s) (alternatives s) /\ directory s = Some d.
Proof.
  intros SO FB L NE FA s. unfold s. rewrite !run_app.
  destruct (scan_before sc before SO FB scan_start) as (V0 & D0); [apply inv_start|reflexivity|].
  set (s0 := run (scan_all (s_name sc) (GetFileType (s_ext sc))) scan_start before) in *.
  destruct (scan_listing sc d fs T SO L [] s0) as (V1 & D1); [split; assumption|].
  rewrite app_nil_r in *. set (s1 := run (scan_all (s_name sc) (GetFileType (s_ext sc))) s0 (map (fun f => (d, f)) fs)) in *.
  assert (D1' : directory s1 = Some d). { rewrite D1. destruct (rev T) eqn:E; [|reflexivity]. apply (f_equal (@length item)) in E. rewrite rev_length in E. destruct T; [congruence|discriminate]. }
  rewrite (scan_after _ _ d after FA s1 D1'). split; [|exact D1']. apply inv_perm with (T := rev T); [intros t; symmetry; apply in_rev|apply rev_length|exact V1].
Qed.

(** * selection *)
Definition chooser_ok (e : files) (c : chooser) : Prop :=
  -1 <= selected c < Z.max 1 (files_found e) /\ -1 <= sound_number c.
Lemma clampi_range x b : 0 <= b -> 0 <= clampi32 x 0 b <= b.
Proof. intros B. unfold clampi32. destruct (x <? 0) eqn:?; [lia|]. destruct (x >? b) eqn:?; lia. Qed.
Lemma randomize_range N last r1 r2 : 1 <= N -> 0 <= randomize N last r1 r2 < N.
Proof.
  intros H. unfold randomize. pose proof (Z.mod_pos_bound r1 N ltac:(lia)). destruct (r1 mod N =? last) eqn:E; [|lia].
  destruct (N =? 1) eqn:E1; [lia|]. destruct (N =? 2) eqn:E2; [apply Z.mod_pos_bound; lia|].
  pose proof (Z.mod_pos_bound r2 (N - 1) ltac:(lia)). destruct (r2 mod (N - 1) >=? last); lia.
Qed.
Lemma randomize_differs N last r1 r2 : 3 <= N -> randomize N last r1 r2 <> last.
Proof.
  intros H. unfold randomize. destruct (r1 mod N =? last) eqn:E; [|lia].
  replace (N =? 1) with false by lia. replace (N =? 2) with false by lia. destruct (r2 mod (N - 1) >=? last) eqn:?; lia.
Qed.
Lemma randomize_onto N last n : 1 <= N -> 0 <= n < N -> (n <> last \/ N <= 2) -> exists r1 r2, 0 <= r1 /\ 0 <= r2 /\ randomize N last r1 r2 = n.
Proof.
  intros H R D. exists n, n. split; [lia|]. split; [lia|]. unfold randomize. rewrite Z.mod_small by lia.
  destruct (n =? last) eqn:E; [|reflexivity]. destruct D as [D|D]; [lia|]. destruct (N =? 1) eqn:E1; [reflexivity|]. replace (N =? 2) with true by lia. reflexivity.
Qed.
Lemma files_found_nonneg e : 0 <= files_found e.
Proof. unfold files_found. destruct (Z.leb_spec (min_file e) (max_file e)), (unnumbered e); lia. Qed.
Lemma no_repeat_range c f rs : 1 <= f -> forall sel, 0 <= sel <= f - 1 -> 0 <= no_repeat c f sel rs <= f - 1.
Proof.
  intros F. induction rs as [|(r, r') rs IH]; intros sel S; [exact S|]. cbn [no_repeat]. destruct (_ || _); [|exact S]. apply IH. apply clampi_range. lia.
Qed.
Lemma pick_ok e u c o : files_found e <= 32767 -> 0 < files_found e -> chooser_ok e c -> op_ok e o -> chooser_ok e (fst (pick e u c o)) /\
  (forall n s, snd (pick e u c o) = Some (n, s) -> 0 <= n < files_found e /\ (0 <= sub_files e -> 0 <= s < number_of_subfiles e)).
Proof.
  intros FM FP (S1 & S2) OK. destruct o as [r1 r2 r3 r4|n| |k rs|n]; cbn [pick fst snd op_ok] in *.
  - unfold RandomFile. set (n := if negb (selected c =? -1) then _ else _).
    assert (NR : 0 < files_found e -> 0 <= n < files_found e).
    { intros P. unfold n. destruct (negb (selected c =? -1)) eqn:E; [lia|]. destruct (negb (sound_number c =? -1) && u) eqn:E2; [lia|]. apply randomize_range. lia. }
    clearbody n. destruct (files_found e <? 1) eqn:E; [split; [split; assumption|discriminate]|]. specialize (NR ltac:(lia)).
    unfold random_subid. destruct (sub_files e =? 0) eqn:ES; cbn [fst snd selected sound_number last last_subid]; (split; [split; assumption|]); intros n' s' E'; injection E' as <- <-; (split; [lia|]); intros SP; unfold number_of_subfiles; rewrite ES.
    + lia.
    + apply randomize_range. lia.
  - split; [|discriminate]. split; cbn; [|assumption]. rewrite wrap16_id by lia. lia.
  - split; [|discriminate]. unfold SelectNext. split; cbn; [|assumption]. pose proof (files_found_nonneg e).
    rewrite wrap16_id by lia. destruct (selected c + 1 =? files_found e) eqn:E; lia.
  - split; [|discriminate]. unfold SelectFloat. split; cbn; [|assumption].
    assert (0 <= no_repeat c (files_found e) (clampi32 k 0 (files_found e - 1)) (firstn 3 rs) <= files_found e - 1) by (apply no_repeat_range; [lia|apply clampi_range; lia]).
    match goal with H : 0 <= ?x <= _ |- context [wrap16 ?y] => change y with x; set (z := x) in *; clearbody z end. rewrite wrap16_id by lia. lia.
  - split; [|discriminate]. split; cbn; assumption.
Qed.

Lemma altnum_letters f : nth 3 f 0 > 57 \/ nth 4 f 0 > 57 \/ nth 5 f 0 > 57 -> altnum f = -1.
Proof.
  intros H. unfold altnum. assert (L : forall p s r, startswith p s = Some r -> r = skipn (length p) s).
  { induction p as [|x p IH]; intros s r; cbn [startswith length skipn]; [congruence|]. destruct s as [|c s]; [discriminate|]. destruct (_ =? _); [apply IH|discriminate]. }
  destruct (startswith ALT f) as [r|] eqn:E; [|reflexivity]. apply L in E. cbn [length ALT] in E. destruct r as [|a [|b [|c [|d r]]]]; try reflexivity.
  do 3 (destruct f as [|? f]; [discriminate E|]). cbn [skipn] in E. subst f. cbn [nth] in H. unfold PO_isDigit. destruct (_ && _) eqn:Q; [|reflexivity]. lia.
Qed.
Lemma scan_letters name ft ea f : nth 3 f 0 > 57 \/ nth 4 f 0 > 57 \/ nth 5 f 0 > 57 ->
  snd (fst (scan name ft ea f)) = snd ea /\ in_alt (fst (fst (scan name ft ea f))) = in_alt (fst ea).
Proof.
  intros H. destruct ea as [e alts]. unfold scan. rewrite (altnum_letters f H). cbn [negb Z.eqb Pos.eqb]. cbv zeta.
  repeat match goal with |- context [match ?x with _ => _ end] => first [is_var x; destruct x | lazymatch x with context [match _ with _ => _ end] => fail | _ => destruct x eqn:? end] end; cbn [fst snd in_alt]; rewrite ?orb_false_r; auto.
Qed.
