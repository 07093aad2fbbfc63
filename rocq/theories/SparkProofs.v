From Coq Require Import ZArith QArith Qabs Qround List Bool Lia ZifyBool ZifyNat.
From Verif Require Import ArithModel ColorModel SparkModel SparkSpec.
Import ListNotations.
Local Open Scope Z_scope.

Lemma s16_id x : 0 <= x <= 32767 -> s16 x = x.
Proof. intros. unfold s16. rewrite Z.mod_small by lia. destruct (Z.ltb_spec x 32768); lia. Qed.
Lemma u16_id x : 0 <= x <= 65535 -> u16 x = x.
Proof. intros. unfold u16. apply Z.mod_small. lia. Qed.

(** Entries of the array are in range. *)
Definition good (a : arr) : Prop := forall i, 0 <= a i <= 32767.
Definition xs (a : arr) (i : Z) : Z := (200 * a (i - 1) + 570 * a i + 200 * a (i + 1)) / 1024.
Lemma xs_range a i : good a -> 0 <= xs a i <= 32767.
Proof.
  intros G. unfold xs. pose proof (G (i - 1)). pose proof (G i). pose proof (G (i + 1)).
  split. apply Z.div_pos; lia.
  apply Z.lt_succ_r. apply Z.div_lt_upper_bound; lia.
Qed.
Lemma xs_eq a i : Z.shiftr ((a (i - 1) + a (i + 1)) * 200 + a i * 570) 10 = xs a i.
Proof. unfold xs. rewrite Z.shiftr_div_pow2 by lia. change (2 ^ 10) with 1024. f_equal. lia. Qed.

Lemma rd_in n a i : 0 <= i < n + 4 -> rd n a i = Some (a i).
Proof. intros. unfold rd. destruct (Z.leb_spec 0 i), (Z.ltb_spec i (n + 4)); cbn; try lia. reflexivity. Qed.
Lemma wr_in n a i v : 0 <= i < n + 4 -> wr n a i v = Some (fun j => if j =? i then s16 v else a j).
Proof. intros. unfold wr. destruct (Z.leb_spec 0 i), (Z.ltb_spec i (n + 4)); cbn; try lia. reflexivity. Qed.

Lemma loop_spec n : forall k i a f0,
  2 <= i -> i + Z.of_nat k = n + 2 -> good a -> 0 <= f0 <= 32767 ->
  exists a' f1, spark_loop k n i a f0 = Some (a', f1) /\ good a' /\
    (forall j, j < i - 1 \/ n < j -> a' j = a j) /\
    (forall j, i <= j <= n -> a' j = xs a j) /\
    ((0 < k)%nat -> a' (i - 1) = f0 /\ f1 = xs a (n + 1)) /\
    (k = 0%nat -> a' = a /\ f1 = f0).
Proof.
  induction k as [|k IH]; intros i a f0 Hi Hk G Hf.
  - exists a, f0. cbn [spark_loop]. split; [reflexivity|]. split; [exact G|].
    split; [reflexivity|]. split; [intros; lia|]. split; [lia|]. intros _. split; reflexivity.
  - cbn [spark_loop].
    rewrite !rd_in by lia. rewrite xs_eq. rewrite wr_in by lia. rewrite s16_id by lia.
    pose proof (xs_range a i G) as X. rewrite u16_id by lia.
    set (b := fun j => if j =? i - 1 then f0 else a j).
    assert (Gb : good b).
    { intros j. unfold b. destruct (j =? i - 1). lia. apply G. }
    assert (B : forall j, i <= j -> b j = a j).
    { intros j Hj. unfold b. destruct (Z.eqb_spec j (i - 1)); [lia|reflexivity]. }
    assert (B1 : b (i - 1) = f0).
    { unfold b. destruct (Z.eqb_spec (i - 1) (i - 1)); [reflexivity|lia]. }
    assert (B0 : forall j, j < i - 1 -> b j = a j).
    { intros j Hj. unfold b. destruct (Z.eqb_spec j (i - 1)); [lia|reflexivity]. }
    assert (BX : forall j, i + 1 <= j -> xs b j = xs a j).
    { intros j Hj. unfold xs. rewrite !B by lia. reflexivity. }
    destruct (IH (i + 1) b (xs a i)) as (a' & f1 & E & G' & P1 & P2 & P3 & P4); [lia|lia|exact Gb|lia|].
    exists a', f1. split; [exact E|]. split; [exact G'|].
    assert (Hai : a' i = xs a i \/ k = 0%nat).
    { destruct k. right; reflexivity. left. destruct P3 as [P3 _]. lia.
      replace (i + 1 - 1) with i in P3 by lia. exact P3. }
    assert (Hf1 : f1 = xs a (n + 1)).
    { destruct k. destruct (P4 eq_refl) as [_ F]. rewrite F. f_equal. lia.
      destruct P3 as [_ P3]; [lia|]. rewrite P3. apply BX. lia. }
    assert (H1 : a' (i - 1) = f0).
    { rewrite P1 by lia. exact B1. }
    split; [|split; [|split; [|lia]]].
    + intros j [J|J]. rewrite P1 by lia. apply B0. exact J.
      rewrite P1 by lia. apply B. lia.
    + intros j Hj. destruct (Z.eq_dec j i) as [->|N].
      * destruct Hai as [A|A]; [exact A|]. subst k. lia.
      * rewrite P2 by lia. apply BX. lia.
    + intros _. split. exact H1. exact Hf1.
Qed.

(** The array after spreading. *)
Definition after (n : Z) (a : arr) (i : Z) : Z :=
  if i =? n + 1 then 0
  else if i =? n then xs a (n + 1)
  else if i =? 1 then 0
  else if (2 <=? i) && (i <? n) then xs a i else a i.
Definition hot (n : Z) (a : arr) (hit : bool) (r2 intensity : Z) (i : Z) : Z :=
  after n a i + if hit && (i =? r2 + 2) then intensity else 0.

Lemma after_good n a : good a -> good (after n a).
Proof.
  intros G i. unfold after. destruct (i =? n + 1). lia. destruct (i =? n). apply xs_range, G.
  destruct (i =? 1). lia. destruct ((2 <=? i) && (i <? n)). apply xs_range, G. apply G.
Qed.

Definition arr_of (s : sparks) : arr := match k_arr s with Some a => a | None => fun _ => 0 end.

Lemma run_due n chance intensity s m r1 r2 :
  1 <= n -> good (arr_of s) -> due s m -> 0 <= r2 < n ->
  (r1 < chance -> 0 <= after n (arr_of s) (r2 + 2) + intensity <= 32767) ->
  exists a, sparkle_run n chance intensity s (m, r1, r2) = Some (Sparks (Some a) m) /\
    forall i, a i = hot n (arr_of s) (r1 <? chance) r2 intensity i.
Proof.
  intros Hn G D R I. unfold sparkle_run, arr_of in *.
  set (a := match k_arr s with Some a => a | None => fun _ => 0 end) in *. clearbody a.
  unfold due in D. change (2 ^ 32) with 4294967296 in D.
  assert (D' : u32 (m - k_last s) >=? 10 = true) by (unfold u32; lia).
  rewrite D'.
  destruct (loop_spec n (Z.to_nat n) 2 a 0) as (a' & f1 & E & G' & P1 & P2 & P3 & _); [lia|lia|exact G|lia|].
  rewrite E. destruct P3 as [P3 F]; [lia|].
  pose proof (xs_range a (n + 1) G) as X.
  rewrite wr_in by lia. rewrite wr_in by lia. rewrite s16_id by lia. rewrite s16_id by lia.
  change (2 - 1) with 1 in *.
  set (b := fun j => if j =? n + 1 then 0 else if j =? n then f1 else a' j).
  assert (B : forall i, b i = after n a i).
  { intros i. unfold b, after. destruct (Z.eqb_spec i (n + 1)); [reflexivity|].
    destruct (Z.eqb_spec i n); [exact F|]. destruct (Z.eqb_spec i 1); [subst; exact P3|].
    destruct (Z.leb_spec 2 i), (Z.ltb_spec i n); cbn [andb]; try (apply P2; lia); apply P1; lia. }
  destruct (Z.ltb_spec r1 chance) as [H|H].
  - rewrite rd_in by lia. rewrite wr_in by lia. eexists. split; [reflexivity|].
    intros i. cbv beta. unfold hot. cbn [andb].
    change (if r2 + 2 =? n + 1 then 0 else if r2 + 2 =? n then f1 else a' (r2 + 2)) with (b (r2 + 2)).
    change (if i =? n + 1 then 0 else if i =? n then f1 else a' i) with (b i).
    rewrite !B. destruct (Z.eqb_spec i (r2 + 2)).
    + subst i. apply s16_id. apply I. exact H.
    + lia.
  - eexists. split; [reflexivity|]. intros i. unfold hot. cbn [andb]. rewrite <- B. unfold b. lia.
Qed.

(** Sums over the array. *)
Fixpoint sum (f : arr) (lo : Z) (k : nat) : Z :=
  match k with O => 0 | S k => f lo + sum f (lo + 1) k end.
Lemma sum_ext f g : forall k lo, (forall i, lo <= i < lo + Z.of_nat k -> f i = g i) -> sum f lo k = sum g lo k.
Proof.
  induction k; intros lo H; cbn [sum]; [reflexivity|]. rewrite H by lia. f_equal. apply IHk. intros. apply H. lia.
Qed.
Lemma sum_le f g : forall k lo, (forall i, lo <= i < lo + Z.of_nat k -> f i <= g i) -> sum f lo k <= sum g lo k.
Proof.
  induction k; intros lo H; cbn [sum]; [lia|]. pose proof (H lo). assert (sum f (lo + 1) k <= sum g (lo + 1) k). apply IHk. intros. apply H. lia. lia.
Qed.
Lemma sum_nonneg f k lo : (forall i, 0 <= f i) -> 0 <= sum f lo k.
Proof. intros H. revert lo. induction k; intros lo; cbn [sum]. lia. pose proof (H lo). specialize (IHk (lo + 1)). lia. Qed.
Lemma sum_one f : forall k lo i, (forall i, 0 <= f i) -> lo <= i < lo + Z.of_nat k -> f i <= sum f lo k.
Proof.
  induction k; intros lo i P H; cbn [sum]. lia.
  pose proof (P lo). pose proof (sum_nonneg f k (lo + 1) P).
  destruct (Z.eq_dec i lo). subst. lia. specialize (IHk (lo + 1) i P). lia.
Qed.
Lemma sum_split f : forall j k lo, sum f lo (j + k) = sum f lo j + sum f (lo + Z.of_nat j) k.
Proof.
  induction j; intros k lo; cbn [sum Nat.add]. rewrite Z.add_0_r. lia.
  rewrite IHj. replace (lo + 1 + Z.of_nat j) with (lo + Z.of_nat (S j)) by lia. lia.
Qed.
Lemma sum_add f g : forall k lo, sum (fun i => f i + g i) lo k = sum f lo k + sum g lo k.
Proof. induction k; intros lo; cbn [sum]. lia. rewrite IHk. lia. Qed.
Lemma sum_mul c f : forall k lo, sum (fun i => c * f i) lo k = c * sum f lo k.
Proof. induction k; intros lo; cbn [sum]. lia. rewrite IHk. lia. Qed.
Lemma sum_shift d f : forall k lo, sum (fun i => f (i + d)) lo k = sum f (lo + d) k.
Proof. induction k; intros lo; cbn [sum]. lia. rewrite IHk. replace (lo + 1 + d) with (lo + d + 1) by lia. lia. Qed.
Lemma sum_sub f k lo k' lo' : (forall i, 0 <= f i) -> lo' <= lo -> lo + Z.of_nat k <= lo' + Z.of_nat k' ->
  sum f lo k <= sum f lo' k'.
Proof.
  intros P H1 H2.
  replace k' with (Z.to_nat (lo - lo') + (k + (k' - k - Z.to_nat (lo - lo'))))%nat by lia.
  rewrite !sum_split. replace (lo' + Z.of_nat (Z.to_nat (lo - lo'))) with lo by lia.
  pose proof (sum_nonneg f (Z.to_nat (lo - lo')) lo' P).
  pose proof (sum_nonneg f (k' - k - Z.to_nat (lo - lo')) (lo + Z.of_nat k) P). lia.
Qed.
Lemma sum_point c v : forall k lo, 0 <= v -> sum (fun i => if i =? c then v else 0) lo k <= v /\
   (c < lo -> sum (fun i => if i =? c then v else 0) lo k = 0).
Proof.
  induction k; intros lo V; cbn [sum]. lia.
  destruct (IHk (lo + 1) V) as [A B]. destruct (Z.eqb_spec lo c).
  - rewrite B by lia. lia.
  - split. lia. intros. rewrite B by lia. lia.
Qed.

Definition tot (n : Z) (a : arr) : Z := sum a 0 (Z.to_nat (n + 4)).

(** One update loses at least 54/1024 of the heat. *)
Lemma xs_sum n a : 1 <= n -> good a -> 1024 * sum (xs a) 2 (Z.to_nat n) <= 970 * tot n a.
Proof.
  intros Hn G. rewrite <- sum_mul.
  apply Z.le_trans with (sum (fun i => (200 * a (i - 1) + 570 * a i) + 200 * a (i + 1)) 2 (Z.to_nat n)).
  { apply sum_le. intros i _. unfold xs. apply Z.mul_div_le. lia. }
  rewrite sum_add. rewrite sum_add. rewrite !sum_mul.
  pose proof (sum_mul 200 (fun i => a (i - 1)) (Z.to_nat n) 2) as E1.
  pose proof (sum_mul 200 (fun i => a (i + 1)) (Z.to_nat n) 2) as E2.
  cbv beta in E1, E2. rewrite ?E1, ?E2.
  pose proof (sum_shift (-1) a (Z.to_nat n) 2) as S1. pose proof (sum_shift 1 a (Z.to_nat n) 2) as S2.
  cbv beta in S1, S2.
  replace (sum (fun i => a (i - 1)) 2 (Z.to_nat n)) with (sum a 1 (Z.to_nat n)) by (rewrite <- (sum_shift (-1) a _ 2); reflexivity).
  rewrite S2. unfold tot.
  assert (P : forall i, 0 <= a i) by (intros; apply G).
  pose proof (sum_sub a (Z.to_nat n) 1 (Z.to_nat (n + 4)) 0 P ltac:(lia) ltac:(lia)).
  pose proof (sum_sub a (Z.to_nat n) 2 (Z.to_nat (n + 4)) 0 P ltac:(lia) ltac:(lia)).
  pose proof (sum_sub a (Z.to_nat n) (2 + 1) (Z.to_nat (n + 4)) 0 P ltac:(lia) ltac:(lia)).
  change (fun i => a i) with a. lia.
Qed.

(** The places beyond the ends stay empty. *)
Definition ends (n : Z) (a : arr) : Prop := a 0 = 0 /\ a (n + 2) = 0 /\ a (n + 3) = 0 /\ (2 <= n -> a 1 = 0).

Lemma after_sum n a : 1 <= n -> good a -> ends n a -> tot n (after n a) <= sum (xs a) 2 (Z.to_nat n).
Proof.
  intros Hn G (E0 & E2 & E3 & E1). unfold tot.
  assert (PX : forall i, 0 <= xs a i) by (intros; apply xs_range, G).
  assert (V : forall i, after n a i = if i =? n + 1 then 0 else if i =? n then xs a (n + 1) else if i =? 1 then 0 else if (2 <=? i) && (i <? n) then xs a i else a i) by reflexivity.
  destruct (Z.eq_dec n 1) as [->|N].
  - change (Z.to_nat (1 + 4)) with 5%nat. change (Z.to_nat 1) with 1%nat. cbn [sum].
    rewrite !V. cbn -[xs]. change (0 + 1 + 1 + 1) with 3. change (0 + 1 + 1 + 1 + 1) with 4. cbn in E2, E3. rewrite E0, E2, E3. lia.
  - replace (Z.to_nat (n + 4)) with (2 + ((Z.to_nat (n - 2)) + 4))%nat by lia.
    rewrite sum_split, sum_split. cbn [sum]. rewrite !V.
    replace (0 + Z.of_nat 2 + Z.of_nat (Z.to_nat (n - 2))) with n by lia.
    replace (Z.to_nat n) with (Z.to_nat (n - 2) + 2)%nat by lia.
    rewrite sum_split. cbn [sum]. replace (2 + Z.of_nat (Z.to_nat (n - 2))) with n by lia.
    change (0 + Z.of_nat 2) with 2.
    rewrite (sum_ext (after n a) (xs a)).
    2:{ intros i Hi. rewrite V. destruct (Z.eqb_spec i (n + 1)); [lia|]. destruct (Z.eqb_spec i n); [lia|].
        destruct (Z.eqb_spec i 1); [lia|]. destruct (Z.leb_spec 2 i), (Z.ltb_spec i n); try lia. reflexivity. }
    pose proof (PX n).
    replace (0 =? n + 1) with false by lia. replace (0 =? n) with false by lia. change (0 =? 1) with false. change (2 <=? 0) with false. cbn [andb].
    replace (0 + 1) with 1 by lia.
    replace (1 =? n + 1) with false by lia. replace (1 =? n) with false by lia.
    change (1 =? 1) with true.
    replace (n =? n + 1) with false by lia. replace (n =? n) with true by lia.
    replace (n + 1 =? n + 1) with true by lia.
    replace (n + 1 + 1 =? n + 1) with false by lia. replace (n + 1 + 1 =? n) with false by lia. replace (n + 1 + 1 =? 1) with false by lia.
    replace (n + 1 + 1 <? n) with false by lia. rewrite andb_false_r.
    replace (n + 1 + 1 + 1 =? n + 1) with false by lia. replace (n + 1 + 1 + 1 =? n) with false by lia. replace (n + 1 + 1 + 1 =? 1) with false by lia.
    replace (n + 1 + 1 + 1 <? n) with false by lia. rewrite andb_false_r.
    replace (n + 1 + 1 + 1) with (n + 3) by lia. replace (n + 1 + 1) with (n + 2) by lia.
    rewrite E2, E3, E0. clear - H. lia.
Qed.

Lemma after_ends n a : 1 <= n -> ends n a -> ends n (after n a).
Proof.
  intros Hn (E0 & E2 & E3 & E1). unfold ends, after.
  replace (0 =? n + 1) with false by lia. replace (0 =? n) with false by lia. change (0 =? 1) with false. change (2 <=? 0) with false. cbn [andb].
  replace (n + 2 =? n + 1) with false by lia. replace (n + 2 =? n) with false by lia. replace (n + 2 =? 1) with false by lia.
  replace (n + 2 <? n) with false by lia. rewrite andb_false_r.
  replace (n + 3 =? n + 1) with false by lia. replace (n + 3 =? n) with false by lia. replace (n + 3 =? 1) with false by lia.
  replace (n + 3 <? n) with false by lia. rewrite andb_false_r.
  split; [exact E0|]. split; [exact E2|]. split; [exact E3|]. intros N.
  replace (1 =? n + 1) with false by lia. replace (1 =? n) with false by lia. reflexivity.
Qed.

(** The invariant: total heat at most 1024 / 54 times the intensity. *)
Record inv (n I : Z) (a : arr) : Prop := Inv {
  i_pos : forall i, 0 <= a i; i_ends : ends n a; i_out : forall i, i < 0 \/ n + 4 <= i -> a i = 0;
  i_tot : 54 * tot n a <= 1024 * I }.
Lemma inv_good n I a : 0 <= I <= 1727 -> inv n I a -> good a.
Proof.
  intros HI [P E O T] i. split. apply P.
  destruct (Z.le_gt_cases 0 i). destruct (Z.lt_ge_cases i (n + 4)).
  - pose proof (sum_one a (Z.to_nat (n + 4)) 0 i P ltac:(lia)). unfold tot in T. lia.
  - rewrite O; lia.
  - rewrite O; lia.
Qed.
Lemma after_tot n I a : 1 <= n -> 0 <= I <= 1727 -> inv n I a -> 54 * tot n (after n a) <= 970 * I.
Proof.
  intros Hn HI V. pose proof (inv_good _ _ _ HI V) as G. destruct V as [P E O T].
  pose proof (after_sum n a Hn G E). pose proof (xs_sum n a Hn G). lia.
Qed.
Lemma after_out n a : 1 <= n -> (forall i, i < 0 \/ n + 4 <= i -> a i = 0) -> forall i, i < 0 \/ n + 4 <= i -> after n a i = 0.
Proof.
  intros Hn O i H. unfold after. replace (i =? n + 1) with false by lia. replace (i =? n) with false by lia.
  replace (i =? 1) with false by lia. replace ((2 <=? i) && (i <? n)) with false by lia. apply O. exact H.
Qed.
Lemma hot_inv n I a hit r2 : 1 <= n -> 0 <= I <= 1727 -> inv n I a -> 0 <= r2 < n -> inv n I (hot n a hit r2 I).
Proof.
  intros Hn HI V R. pose proof (after_tot _ _ _ Hn HI V) as T. pose proof (inv_good _ _ _ HI V) as G.
  pose proof (after_good n a G) as GA. destruct V as [P E O _]. pose proof (after_ends n a Hn E) as (A0 & A2 & A3 & A1).
  split.
  - intros i. unfold hot. pose proof (GA i). destruct (hit && (i =? r2 + 2)); lia.
  - unfold ends, hot. replace (0 =? r2 + 2) with false by lia. replace (n + 2 =? r2 + 2) with false by lia.
    replace (n + 3 =? r2 + 2) with false by lia. replace (1 =? r2 + 2) with false by lia. rewrite andb_false_r. lia.
  - intros i H. unfold hot. replace (i =? r2 + 2) with false by lia. rewrite andb_false_r. rewrite after_out by assumption. lia.
  - assert (tot n (hot n a hit r2 I) <= tot n (after n a) + I); [|lia].
    unfold tot, hot. rewrite sum_add.
    destruct (sum_point (r2 + 2) I (Z.to_nat (n + 4)) 0 ltac:(lia)) as [S _].
    destruct hit; cbn [andb]. lia.
    rewrite (sum_ext (fun _ => 0) (fun i => 0 * after n a i)) by (intros; lia). rewrite sum_mul. lia.
Qed.
Lemma inv_ext n I a b : (forall i, a i = b i) -> inv n I b -> inv n I a.
Proof.
  intros H [P (E0 & E2 & E3 & E1) O T]. split.
  - intros. rewrite H. apply P.
  - unfold ends. rewrite !H. auto.
  - intros. rewrite H. auto.
  - unfold tot. rewrite (sum_ext a b) by (intros; apply H). exact T.
Qed.
Definition sinv (n I : Z) (s : sparks) : Prop := inv n I (arr_of s).
Lemma sinv_init n I l0 : 0 <= I -> sinv n I (Sparks None l0).
Proof.
  intros. unfold sinv, arr_of. cbn [k_arr]. split. intros; lia. unfold ends. repeat split; reflexivity. reflexivity.
  unfold tot. rewrite (sum_ext (fun _ => 0) (fun i => 0 * i)) by (intros; lia).
  rewrite (sum_mul 0 (fun i => i)). lia.
Qed.

Lemma run_step n chance I s m r1 r2 : 1 <= n -> 0 <= I <= 1727 -> sinv n I s -> 0 <= r2 < n ->
  exists s', sparkle_run n chance I s (m, r1, r2) = Some s' /\ sinv n I s' /\
   (exists a, k_arr s' = Some a) /\
   (due s m -> k_last s' = m /\ forall i, arr_of s' i = hot n (arr_of s) (r1 <? chance) r2 I i) /\
   (~ due s m -> k_last s' = k_last s /\ arr_of s' = arr_of s).
Proof.
  intros Hn HI V R. pose proof (inv_good _ _ _ HI V) as G.
  destruct (Z_le_gt_dec 10 ((m - k_last s) mod 2 ^ 32)) as [D|D].
  - destruct (run_due n chance I s m r1 r2) as (a & E & A); try assumption.
    { intros _. pose proof (hot_inv n I (arr_of s) true r2 Hn HI V R) as H.
      pose proof (inv_good _ _ _ HI H (r2 + 2)) as H1. unfold hot in H1. rewrite Z.eqb_refl in H1. cbn [andb] in H1. exact H1. }
    exists (Sparks (Some a) m). split; [exact E|]. split.
    { unfold sinv, arr_of. cbn. eapply inv_ext. exact A. apply hot_inv; assumption. }
    split. exists a. reflexivity.
    split. intros _. split; [reflexivity|exact A]. intros X. contradiction.
  - exists (Sparks (Some (arr_of s)) (k_last s)). split.
    { unfold sparkle_run. change (2 ^ 32) with 4294967296 in D.
      replace (u32 (m - k_last s) >=? 10) with false by (unfold u32; lia). reflexivity. }
    split; [exact V|]. split; [exists (arr_of s); reflexivity|]. split.
    intros X. unfold due in X. lia. intros _. split; reflexivity.
Qed.
Lemma runs_inv n chance I : 1 <= n -> 0 <= I <= 1727 -> forall is s, sinv n I s -> Forall (fair n) is ->
  exists s', sparkle_runs n chance I s is = Some s' /\ sinv n I s' /\ (is <> [] -> exists a, k_arr s' = Some a).
Proof.
  intros Hn HI. induction is as [|[[m r1] r2] is IH]; intros s V F.
  - exists s. split; [reflexivity|]. split; [exact V|]. congruence.
  - inversion F as [|x l F0 F3]; subst. unfold fair in F0. destruct F0 as [F1 F2]. cbn [sparkle_runs].
    destruct (run_step n chance I s m r1 r2 Hn HI V F2) as (s1 & E & V1 & (a & A) & _). rewrite E.
    destruct (IH s1 V1 F3) as (s' & E' & V' & A'). exists s'. split; [exact E'|]. split; [exact V'|]. intros _.
    destruct is; [|apply A'; discriminate]. cbn in E'. injection E' as <-. exists a. exact A.
Qed.
Lemma sparkled_inv n chance I s : 1 <= n -> 0 <= I <= 1727 -> sparkled n chance I s -> sinv n I s.
Proof.
  intros Hn HI (l0 & is & F & E).
  destruct (runs_inv n chance I Hn HI is _ (sinv_init n I l0 ltac:(lia)) F) as (s' & E' & V & _).
  rewrite E in E'. injection E' as <-. exact V.
Qed.

Lemma heat_arr n s led : 0 <= led < n -> heat n s led = arr_of s (led + 2).
Proof.
  intros. unfold heat, arr_of. replace ((0 <=? led) && (led <? n)) with true by lia. destruct (k_arr s); reflexivity.
Qed.
Lemma heat_edge n I s led : 2 <= n -> sinv n I s -> -1 <= led <= n -> heat n s led = arr_of s (led + 2).
Proof.
  intros Hn V H. destruct (Z.eq_dec led (-1)) as [->|]; [|destruct (Z.eq_dec led n) as [->|]; [|apply heat_arr; lia]].
  - destruct V as [_ (_ & _ & _ & E1) _ _]. change (-1 + 2) with 1. rewrite E1 by lia. unfold heat. destruct (k_arr s); reflexivity.
  - destruct V as [_ (_ & E2 & _) _ _]. rewrite E2. unfold heat. replace ((0 <=? n) && (n <? n)) with false by lia. destruct (k_arr s); reflexivity.
Qed.

Lemma safe n chance I l0 is : 1 <= n -> 0 <= I <= 1727 -> Forall (fair n) is -> is <> [] ->
  exists s, sparkle_runs n chance I (Sparks None l0) is = Some s /\
    forall led, 0 <= led < n -> exists v, sparkle_get n s led = Some v /\ 0 <= v <= 32768 /\
       v = 128 * Z.min 256 (heat n s led).
Proof.
  intros Hn HI F Ne. destruct (runs_inv n chance I Hn HI is _ (sinv_init n I l0 ltac:(lia)) F) as (s & E & V & A).
  exists s. split; [exact E|]. intros led Hl. destruct (A Ne) as (a & Ea).
  rewrite heat_arr by lia. pose proof (inv_good _ _ _ HI V (led + 2)) as G. unfold sparkle_get. unfold arr_of in *. rewrite Ea in *.
  rewrite rd_in by lia. eexists. split; [reflexivity|]. rewrite Z.shiftl_mul_pow2 by lia. change (2 ^ 7) with 128.
  unfold clampi32. clear - G. destruct (Z.ltb_spec (a (led + 2)) 0); [lia|]. destruct (Z.gtb_spec (a (led + 2)) 256); lia.
Qed.

Lemma xs_spread n I s led : 2 <= n -> sinv n I s -> 0 <= led < n ->
  xs (arr_of s) (led + 2) = spread (heat n s (led - 1)) (heat n s led) (heat n s (led + 1)).
Proof.
  intros Hn V H. unfold xs, spread. rewrite !(heat_edge n I s) by (assumption || lia).
  replace (led + 2 - 1) with (led - 1 + 2) by lia. replace (led + 2 + 1) with (led + 1 + 2) by lia. reflexivity.
Qed.
Lemma spreads n chance I s m r1 r2 : 2 <= n -> 0 <= I <= 1727 -> sparkled n chance I s -> fair n (m, r1, r2) -> due s m ->
  exists s', sparkle_run n chance I s (m, r1, r2) = Some s' /\ k_last s' = m /\
    (forall led, 0 <= led < n - 2 ->
       heat n s' led = spread (heat n s (led - 1)) (heat n s led) (heat n s (led + 1)) + (if (r1 <? chance) && (r2 =? led) then I else 0)) /\
    heat n s' (n - 2) = spread (heat n s (n - 2)) (heat n s (n - 1)) 0 + (if (r1 <? chance) && (r2 =? n - 2) then I else 0) /\
    heat n s' (n - 1) = (if (r1 <? chance) && (r2 =? n - 1) then I else 0).
Proof.
  intros Hn HI H F0 D. unfold fair in F0. destruct F0 as [_ F]. assert (Hn1 : 1 <= n) by lia; pose proof (sparkled_inv n chance I s Hn1 HI H) as V.
  destruct (run_step n chance I s m r1 r2 ltac:(lia) HI V F) as (s' & E & V' & _ & A & _).
  destruct (A D) as [L B]. exists s'. split; [exact E|]. split; [exact L|].
  assert (Q : forall led, 0 <= led < n -> heat n s' led = after n (arr_of s) (led + 2) + (if (r1 <? chance) && (r2 =? led) then I else 0)).
  { intros led Hl. rewrite heat_arr by lia. rewrite B. unfold hot. replace (led + 2 =? r2 + 2) with (r2 =? led) by lia. reflexivity. }
  split; [|split].
  - intros led Hl. rewrite Q by lia. f_equal. rewrite <- (xs_spread n I) by (assumption || lia). unfold after.
    replace (led + 2 =? n + 1) with false by lia. replace (led + 2 =? n) with false by lia. replace (led + 2 =? 1) with false by lia.
    replace ((2 <=? led + 2) && (led + 2 <? n)) with true by lia. reflexivity.
  - rewrite Q by lia. f_equal. unfold after. replace (n - 2 + 2 =? n + 1) with false by lia. replace (n - 2 + 2 =? n) with true by lia.
    replace (n + 1) with (n - 1 + 2) by lia. rewrite (xs_spread n I) by (assumption || lia).
    replace (n - 1 - 1) with (n - 2) by lia. replace (n - 1 + 1) with n by lia.
    assert (Z0 : heat n s n = 0) by (unfold heat; replace ((0 <=? n) && (n <? n)) with false by lia; destruct (k_arr s); reflexivity).
    rewrite Z0. reflexivity.
  - rewrite Q by lia. unfold after. replace (n - 1 + 2 =? n + 1) with true by lia. lia.
Qed.
Lemma holds_still n chance I s m r1 r2 : 1 <= n -> ~ due s m ->
  exists s', sparkle_run n chance I s (m, r1, r2) = Some s' /\ k_last s' = k_last s /\
    forall led, heat n s' led = heat n s led.
Proof.
  intros Hn D. exists (Sparks (Some (arr_of s)) (k_last s)). split.
  - unfold sparkle_run. unfold due in D. change (2 ^ 32) with 4294967296 in D.
    replace (u32 (m - k_last s) >=? 10) with false by (unfold u32; lia). reflexivity.
  - split; [reflexivity|]. intros. unfold heat, arr_of. cbn [k_arr]. destruct (k_arr s). reflexivity.
    destruct ((0 <=? led) && (led <? n)); reflexivity.
Qed.

(** Fading. *)
Fixpoint cool (k : nat) (x : Z) : Z := match k with O => x | S k => cool k (x * 970 / 1024) end.
Lemma cool_iter_mono k : forall x y, x <= y -> cool k x <= cool k y.
Proof. induction k; intros; cbn [cool]. exact H. apply IHk. apply Z.div_le_mono; lia. Qed.
Lemma cool_S k x : cool (S k) x = cool k (x * 970 / 1024).
Proof. reflexivity. Qed.
Lemma cool_add j : forall k x, cool (j + k) x = cool k (cool j x).
Proof. induction j; intros; cbn [cool Nat.add]. reflexivity. apply IHj. Qed.
Lemma cool_end : cool 170 32749 = 0. Proof. vm_compute. reflexivity. Qed.
Lemma tot_ext n a b : (forall i, a i = b i) -> tot n a = tot n b.
Proof. intros. unfold tot. apply sum_ext. auto. Qed.
Lemma quiet_cools n chance I : 1 <= n -> 0 <= I <= 1727 -> forall is s, sinv n I s -> Forall (fair n) is -> quiet chance (k_last s) is ->
  exists s', sparkle_runs n chance I s is = Some s' /\ sinv n I s' /\ tot n (arr_of s') <= cool (length is) (tot n (arr_of s)).
Proof.
  intros Hn HI. induction is as [|[[m r1] r2] is IH]; intros s V F Q.
  - exists s. split; [reflexivity|]. split; [exact V|]. cbn. lia.
  - inversion F as [|x l F0 F3]; subst. unfold fair in F0. destruct F0 as [F1 F2]. destruct Q as (Q1 & Q2 & Q3). cbn [sparkle_runs length].
    destruct (run_step n chance I s m r1 r2 Hn HI V F2) as (s1 & E & V1 & _ & A & _). rewrite E.
    destruct (A Q1) as [L B]. rewrite <- L in Q3.
    destruct (IH s1 V1 F3 Q3) as (s' & E' & V' & T'). exists s'. split; [exact E'|]. split; [exact V'|].
    cbn [cool]. eapply Z.le_trans. exact T'. apply cool_iter_mono.
    rewrite (tot_ext n _ _ B). replace (r1 <? chance) with false by lia.
    rewrite (tot_ext n _ (after n (arr_of s))) by (intros; unfold hot; cbn [andb]; lia).
    pose proof (inv_good _ _ _ HI V) as G.
    pose proof (after_sum n _ Hn G (i_ends _ _ _ V)). pose proof (xs_sum n _ Hn G).
    apply Z.div_le_lower_bound; lia.
Qed.
Lemma fades n chance I s is : 1 <= n -> 0 <= I <= 1727 -> sparkled n chance I s -> Forall (fair n) is -> quiet chance (k_last s) is ->
  (170 <= length is)%nat ->
  exists s', sparkle_runs n chance I s is = Some s' /\ forall led, heat n s' led = 0.
Proof.
  intros Hn HI H F Q L. assert (Hn1 : 1 <= n) by lia; pose proof (sparkled_inv n chance I s Hn1 HI H) as V.
  destruct (quiet_cools n chance I Hn HI is s V F Q) as (s' & E & V' & T). exists s'. split; [exact E|].
  assert (C0 : forall k, cool k 0 = 0).
  { intros k. induction k. reflexivity. rewrite cool_S. exact IHk. }
  assert (C : forall k, (170 <= k)%nat -> cool k 32749 = 0).
  { intros k Hk. replace k with (170 + (k - 170))%nat by lia. rewrite cool_add, cool_end. apply (C0 (k - 170)%nat). }
  assert (T0 : tot n (arr_of s) <= 32749) by (destruct V as [_ _ _ T1]; lia).
  pose proof (cool_iter_mono (length is) _ _ T0) as M. rewrite C in M by exact L.
  intros led. destruct (Z_le_gt_dec 0 led). destruct (Z_lt_ge_dec led n).
  - rewrite heat_arr by lia. destruct V' as [P _ _ _].
    pose proof (sum_one (arr_of s') (Z.to_nat (n + 4)) 0 (led + 2) P ltac:(lia)). pose proof (P (led + 2)). unfold tot in T at 1. lia.
  - unfold heat. replace ((0 <=? led) && (led <? n)) with false by lia. destruct (k_arr s'); reflexivity.
  - unfold heat. replace ((0 <=? led) && (led <? n)) with false by lia. destruct (k_arr s'); reflexivity.
Qed.

(** ** Blasts *)
Lemma left_spec fade now start : 2 <= fade -> left fade now start = 1000 - (now - start) mod 2 ^ 32 / fade.
Proof.
  intros F. unfold left, s32, u32. change (2 ^ 32) with 4294967296.
  set (T := (now - start) mod 4294967296). pose proof (Z.mod_pos_bound (now - start) 4294967296 ltac:(lia)) as B. fold T in B. clearbody T.
  assert (Q : 0 <= T / fade < 2147483648).
  { split. apply Z.div_pos; lia. apply Z.div_lt_upper_bound; [lia|]. nia. }
  set (q := T / fade) in *. clearbody q.
  destruct (Z_le_gt_dec q 1000).
  - rewrite Z.mod_small by lia. destruct (Z.ltb_spec (1000 - q) 2147483648); lia.
  - assert (E : (1000 - q) mod 4294967296 = 1000 - q + 4294967296).
    { symmetry. apply Z.mod_unique with (-1); lia. }
    rewrite E. destruct (Z.ltb_spec (1000 - q + 4294967296) 2147483648); lia.
Qed.
Lemma faded_range fade T : 1 <= fade -> 0 <= T -> 0 <= faded fade T <= 32768.
Proof.
  intros F H. unfold faded. destruct (Z.ltb_spec T (1000 * fade)); [|lia].
  assert (0 <= T / fade < 1000). { split. apply Z.div_pos; lia. apply Z.div_lt_upper_bound; lia. }
  split. apply Z.div_pos; lia. apply Z.div_le_upper_bound; lia.
Qed.
Lemma faded_left fade now b : 2 <= fade ->
  faded fade (age now b) = if left fade now (b_start b) >? 0 then Z.quot (32768 * left fade now (b_start b)) 1000 else 0.
Proof.
  intros F. unfold faded, age. rewrite left_spec by exact F.
  set (T := (now - b_start b) mod 2 ^ 32). assert (0 <= T) by (apply Z.mod_pos_bound; lia). clearbody T.
  assert (Q : 0 <= T / fade) by (apply Z.div_pos; lia).
  destruct (Z.ltb_spec T (1000 * fade)).
  - assert (T / fade < 1000) by (apply Z.div_lt_upper_bound; lia).
    destruct (Z.gtb_spec (1000 - T / fade) 0); [|lia]. rewrite Z.quot_div_nonneg by lia. reflexivity.
  - assert (1000 <= T / fade) by (apply Z.div_le_lower_bound; lia).
    destruct (Z.gtb_spec (1000 - T / fade) 0); [lia|]. reflexivity.
Qed.
Lemma age_pos now b : 0 <= age now b.
Proof. apply Z.mod_pos_bound. lia. Qed.
Lemma total_range fade now l : 2 <= fade -> 0 <= total (map (fun b => faded fade (age now b)) l) <= 32768 * Z.of_nat (length l).
Proof.
  intros F. induction l as [|b l IH]; cbn [map total fold_right length]. lia.
  pose proof (faded_range fade (age now b) ltac:(lia) (age_pos now b)). unfold total in IH. lia.
Qed.
Lemma imul_small a b : -2147483648 <= a * b <= 2147483647 -> imul a b = Some (a * b).
Proof. intros. unfold imul, int_ok in *. replace ((-2147483648 <=? a * b) && (a * b <=? 2147483647)) with true by lia. reflexivity. Qed.
Lemma iadd_small a b : -2147483648 <= a + b <= 2147483647 -> iadd a b = Some (a + b).
Proof. intros. unfold iadd, int_ok in *. replace ((-2147483648 <=? a + b) && (a + b <=? 2147483647)) with true by lia. reflexivity. Qed.
Lemma fadeout_sum_spec fade now : 2 <= fade -> forall l mix,
  0 <= mix -> mix + 32768 * Z.of_nat (length l) <= 2147483647 ->
  fadeout_sum fade now l mix = Some (mix + total (map (fun b => faded fade (age now b)) (mine l))).
Proof.
  intros F. induction l as [|b l IH]; intros mix M B; cbn [fadeout_sum mine filter].
  - cbn. f_equal. lia.
  - cbn [length] in B. destruct (b_mine b); cbn [negb].
    + cbn [map total fold_right]. rewrite faded_left by exact F.
      pose proof (faded_range fade (age now b) ltac:(lia) (age_pos now b)) as R. rewrite faded_left in R by exact F.
      pose proof (left_spec fade now (b_start b) F) as L.
      assert (L1 : left fade now (b_start b) <= 1000).
      { rewrite L. assert (0 <= (now - b_start b) mod 2 ^ 32 / fade). apply Z.div_pos; [apply Z.mod_pos_bound; lia|lia]. lia. }
      set (M0 := left fade now (b_start b)) in *. clearbody M0. destruct (Z.gtb_spec M0 0).
      * rewrite imul_small by lia. rewrite iadd_small by lia. rewrite IH by lia. unfold total, mine. f_equal. lia.
      * rewrite IH by lia. unfold total, mine. f_equal.
    + apply IH; lia.
Qed.
Lemma fadeout_spec fade now l : 2 <= fade -> (length l <= 10)%nat ->
  fadeout fade now l = Some (Z.min (total (map (fun b => faded fade (age now b)) (mine l))) 32768).
Proof. intros F L. unfold fadeout. rewrite fadeout_sum_spec by lia. rewrite Z.add_0_l. reflexivity. Qed.
Lemma faded_down fade T U : 1 <= fade -> 0 <= T <= U -> faded fade U <= faded fade T.
Proof.
  intros F H. unfold faded at 1. destruct (Z.ltb_spec U (1000 * fade)).
  - unfold faded. destruct (Z.ltb_spec T (1000 * fade)); [|lia].
    assert (T / fade <= U / fade) by (apply Z.div_le_mono; lia). apply Z.div_le_mono; lia.
  - apply faded_range; lia.
Qed.
Lemma age_later now d b : 0 <= d -> age now b + d < 2 ^ 32 -> age (now + d) b = age now b + d.
Proof.
  intros D H. unfold age in *. assert (P : 0 < 2 ^ 32) by lia.
  replace (now + d - b_start b) with (now - b_start b + d) by lia.
  rewrite <- Z.add_mod_idemp_l by lia. apply Z.mod_small. pose proof (Z.mod_pos_bound (now - b_start b) (2 ^ 32) P). lia.
Qed.
Lemma fadeout_down fade now d l : 2 <= fade -> 0 <= d -> (forall b, In b l -> age now b + d < 2 ^ 32) ->
  total (map (fun b => faded fade (age (now + d) b)) (mine l)) <= total (map (fun b => faded fade (age now b)) (mine l)).
Proof.
  intros F D. induction l as [|b l IH]; intros H; cbn [mine filter map total fold_right]. lia.
  assert (IH' := IH (fun b' Hb => H b' (or_intror Hb))). unfold total, mine in IH'.
  destruct (b_mine b); [|exact IH']. cbn [map total fold_right].
  rewrite age_later; [|exact D|apply H; left; reflexivity].
  pose proof (faded_down fade (age now b) (age now b + d) ltac:(lia)) as X. pose proof (age_pos now b). unfold total. lia.
Qed.

(** The wave. *)
Lemma hump_range h i : nth_error blast_hump i = Some h -> 0 <= h <= 255.
Proof.
  intros E. apply nth_error_In in E. unfold blast_hump in E. cbn [In] in E.
  repeat (destruct E as [<-|E]; [lia|]). destruct E.
Qed.
Lemma left_range fade now start : 2 <= fade -> left fade now start <= 1000.
Proof.
  intros F. rewrite left_spec by exact F.
  assert (0 <= (now - start) mod 2 ^ 32 / fade). apply Z.div_pos; [apply Z.mod_pos_bound; lia|lia]. lia.
Qed.
Lemma wave_sum_range fade size ms leds led now : 2 <= fade -> forall l mix v, 0 <= mix -> wave_sum fade size ms leds led now l mix = Some v ->
  mix <= v <= mix + 255 * Z.of_nat (length l).
Proof.
  intros F. induction l as [|b l IH]; intros mix v M; cbn [wave_sum length].
  - intros E. injection E as <-. lia.
  - destruct (negb (b_mine b)). { intros E. apply IH in E; lia. }
    pose proof (left_range fade now (b_start b) F) as L. set (M0 := left fade now (b_start b)) in *. clearbody M0.
    destruct (Z.gtb_spec M0 0); [|intros E; apply IH in E; lia].
    set (N := wave_n size ms leds led (b_loc b) (u32 (now - b_start b))). clearbody N.
    destruct (N <=? 32); [|intros E; apply IH in E; lia].
    destruct (nth_error blast_hump (Z.to_nat N)) as [h|] eqn:Eh; [|discriminate].
    pose proof (hump_range _ _ Eh) as HR.
    assert (P : 0 <= h * M0 <= 255000) by nia.
    rewrite imul_small by lia.
    assert (Q : 0 <= Z.quot (h * M0) 1000 <= 255).
    { rewrite Z.quot_div_nonneg by lia. split. apply Z.div_pos; lia. apply Z.div_le_upper_bound; lia. }
    unfold iadd. destruct (int_ok (mix + Z.quot (h * M0) 1000)); [|discriminate].
    intros E. apply IH in E; lia.
Qed.
Lemma wave_range fade size ms leds led now l v : 2 <= fade -> wave fade size ms leds led now l = Some v -> 0 <= v <= 32768.
Proof.
  intros F. unfold wave. destruct (wave_sum fade size ms leds led now l 0) as [x|] eqn:E; [|discriminate].
  rewrite Z.shiftl_mul_pow2 by lia. change (2 ^ 7) with 128. intros H. assert (Z.min (x * 128) 32768 = v) by congruence. apply wave_sum_range in E; [|exact F|lia]. lia.
Qed.
(** How far the LED is from the front of the wave, times WAVE_SIZE. *)
Lemma wave_one fade size ms leds led now b : 2 <= fade -> b_mine b = true -> age now b < 1000 * fade ->
  let N := wave_n size ms leds led (b_loc b) (age now b) in
  wave fade size ms leds led now [b] =
    if N <=? 32 then
      match nth_error blast_hump (Z.to_nat N) with
      | Some h => Some (128 * (h * (1000 - age now b / fade) / 1000))
      | None => None
      end
    else Some 0.
Proof.
  intros F Mi A N. unfold wave. cbn [wave_sum]. rewrite Mi. cbn [negb].
  change (u32 (now - b_start b)) with (age now b). fold N.
  rewrite left_spec by exact F. change ((now - b_start b) mod 2 ^ 32) with (age now b).
  pose proof (age_pos now b) as P.
  assert (Q : 0 <= age now b / fade < 1000). { split. apply Z.div_pos; lia. apply Z.div_lt_upper_bound; lia. }
  destruct (Z.gtb_spec (1000 - age now b / fade) 0); [|lia]. clearbody N.
  destruct (N <=? 32); [|reflexivity].
  destruct (nth_error blast_hump (Z.to_nat N)) as [h|] eqn:Eh; [|reflexivity].
  pose proof (hump_range _ _ Eh) as HR. set (M0 := 1000 - age now b / fade) in *.
  assert (P0 : 0 <= h * M0 <= 255000) by (clear - HR Q M0; subst M0; nia).
  rewrite imul_small by lia. rewrite Z.quot_div_nonneg by lia.
  assert (Q1 : 0 <= h * M0 / 1000 <= 255). { split. apply Z.div_pos; lia. apply Z.div_le_upper_bound; lia. }
  rewrite iadd_small by lia. cbv iota beta. rewrite Z.shiftl_mul_pow2 by lia. change (2 ^ 7) with 128. f_equal. lia.
Qed.
Lemma floor_in (q : Q) (k : Z) : (inject_Z k <= q)%Q -> (q < inject_Z (k + 1))%Q -> Qfloor q = k.
Proof.
  intros A B. assert (k <= Qfloor q). { rewrite <- (Qfloor_Z k). apply Qfloor_resp_le. exact A. }
  assert (Qfloor q < k + 1). { rewrite Zlt_Qlt. eapply Qle_lt_trans; [apply Qfloor_le|exact B]. }
  lia.
Qed.
Lemma floor_ge (q : Q) (k : Z) : (inject_Z k <= q)%Q -> k <= Qfloor q.
Proof. intros A. rewrite <- (Qfloor_Z k). apply Qfloor_resp_le. exact A. Qed.
Lemma floor_lt (q : Q) (k : Z) : (q < inject_Z k)%Q -> Qfloor q < k.
Proof. intros B. rewrite Zlt_Qlt. eapply Qle_lt_trans; [apply Qfloor_le|exact B]. Qed.

(** ** Noise *)
Lemma wander_range sp v r : 0 <= wander sp v r <= 32768.
Proof. unfold wander, clampi32. destruct (Z.ltb_spec (v + (r - sp)) 0); [lia|]. destruct (Z.gtb_spec (v + (r - sp)) 32768); lia. Qed.
Lemma wander_step sp v r : 0 <= v <= 32768 -> 0 <= r <= 2 * sp -> Z.abs (wander sp v r - v) <= sp.
Proof. intros. unfold wander, clampi32. destruct (Z.ltb_spec (v + (r - sp)) 0); [lia|]. destruct (Z.gtb_spec (v + (r - sp)) 32768); lia. Qed.
Lemma wander_fold sp : forall rs v, 0 <= v <= 32768 -> Forall (fun r => 0 <= r <= 2 * sp) rs ->
  0 <= fold_left (wander sp) rs v <= 32768 /\ Z.abs (fold_left (wander sp) rs v - v) <= sp * Z.of_nat (length rs).
Proof.
  induction rs as [|r rs IH]; intros v V F; cbn [fold_left length]. lia.
  inversion F; subst. destruct (IH (wander sp v r) (wander_range _ _ _) H2) as [A B]. split; [exact A|].
  pose proof (wander_step sp v r V H1). lia.
Qed.
Lemma brown_range grade rs : forall k led v x, 0 <= v <= 32768 -> In x (brown grade rs led k v) -> 0 <= x <= 32768.
Proof.
  induction k; intros led v x V; cbn [brown In]; [tauto|].
  pose proof (wander_range (grade led) v (rs led)) as W. rewrite u16_id by lia. intros [<-|H]; [exact W|]. eapply IHk; [|exact H]. exact W.
Qed.
Lemma brown_length grade rs : forall k led v, length (brown grade rs led k v) = k.
Proof. induction k; intros; cbn [brown length]; congruence. Qed.
Lemma brown_near grade rs : (forall i, 0 <= rs i <= 2 * grade i) -> forall k led v j, 0 <= v <= 32768 -> (S j < k)%nat ->
  Z.abs (nth (S j) (brown grade rs led k v) 0 - nth j (brown grade rs led k v) 0) <= grade (led + S j)%nat.
Proof.
  intros R. induction k; intros led v j V J; [lia|]. cbn [brown].
  pose proof (wander_range (grade led) v (rs led)) as W. rewrite u16_id by lia. set (w := wander (grade led) v (rs led)) in *.
  destruct j as [|j].
  - destruct k; [lia|]. cbn [brown nth]. rewrite u16_id by (pose proof (wander_range (grade (S led)) w (rs (S led))); lia).
    replace (led + 1)%nat with (S led) by lia. apply wander_step. exact W. apply R.
  - change (nth (S (S j)) (w :: brown grade rs (S led) k w) 0) with (nth (S j) (brown grade rs (S led) k w) 0).
    change (nth (S j) (w :: brown grade rs (S led) k w) 0) with (nth j (brown grade rs (S led) k w) 0).
    replace (led + S (S j))%nat with (S led + S j)%nat by lia. apply IHk. exact W. lia.
Qed.
Lemma blink_bit s led : 0 <= led -> blink_get s led = if Z.testbit (fst s (Z.to_nat (led / 16))) (led mod 16) then 32768 else 0.
Proof.
  intros H. unfold blink_get. rewrite (Z.shiftr_div_pow2 led 4) by lia. change (2 ^ 4) with 16.
  change 15 with (Z.ones 4). rewrite (Z.land_ones led 4) by lia. change (2 ^ 4) with 16.
  set (x := fst s (Z.to_nat (led / 16))). assert (0 <= led mod 16) by (apply Z.mod_pos_bound; lia). set (n := led mod 16) in *.
  change 1 with (Z.ones 1). rewrite Z.land_ones by lia. change (2 ^ 1) with 2.
  rewrite Z.shiftr_div_pow2 by lia. rewrite <- Z.testbit_spec' by lia. destruct (Z.testbit x n); reflexivity.
Qed.
Lemma u16_bit x i : 0 <= i < 16 -> Z.testbit (u16 x) i = Z.testbit x i.
Proof. intros. unfold u16. change 65536 with (2 ^ 16). apply Z.mod_pow2_bits_low. lia. Qed.

(** ** Times *)
Definition flash (fade t : Z) : Z := if t <? fade then 32768 - 32768 * t / fade else 0.
Lemma onspark_val s on m fade : 0 <= fade <= 131072 ->
  snd (onspark s on m fade) = flash fade (u32 (m - snd (fst (onspark s on m fade)))).
Proof.
  intros F. unfold onspark. destruct s as [on0 st]. cbn [fst snd].
  set (st' := if negb (eqb on0 on) && on then m else st). clearbody st'.
  unfold flash. assert (Uf : u32 fade = fade) by (unfold u32; apply Z.mod_small; lia). rewrite Uf.
  assert (T : 0 <= u32 (m - st')) by (unfold u32; apply Z.mod_pos_bound; lia).
  set (t := u32 (m - st')) in *. clearbody t. destruct (Z.ltb_spec t fade); [|reflexivity].
  assert (Ut : u32 (32768 * t) = 32768 * t) by (unfold u32; apply Z.mod_small; lia). rewrite Ut.
  assert (0 <= 32768 * t / fade <= 32768). { split. apply Z.div_pos; lia. apply Z.div_le_upper_bound; nia. }
  unfold s32, u32. rewrite Z.mod_small by lia. destruct (Z.ltb_spec (32768 - 32768 * t / fade) 2147483648); lia.
Qed.
Lemma flash_range fade t : 0 <= t -> 0 <= flash fade t <= 32768.
Proof.
  intros T. unfold flash. destruct (Z.ltb_spec t fade); [|lia].
  assert (0 <= 32768 * t / fade <= 32768). { split. apply Z.div_pos; lia. apply Z.div_le_upper_bound; nia. } lia.
Qed.
Lemma flash_down fade t u : 0 <= t <= u -> flash fade u <= flash fade t.
Proof.
  intros T. unfold flash at 1. destruct (Z.ltb_spec u fade).
  - unfold flash. destruct (Z.ltb_spec t fade); [|lia].
    assert (32768 * t / fade <= 32768 * u / fade) by (apply Z.div_le_mono; lia). lia.
  - apply flash_range. lia.
Qed.

Lemma u32_diff a b : 0 <= a - b < 4294967296 -> u32 (u32 a - u32 b) = a - b.
Proof. intros H. unfold u32. rewrite <- Zminus_mod. apply Z.mod_small. exact H. Qed.
Lemma answers_spec : forall calls t0 s0 L, L = s0 \/ L = t0 - 1000000000 -> s0 <= L <= t0 -> t0 - L <= 1000000000 -> paced t0 calls ->
  Forall2 right_answer (true_starts s0 calls) (answers (u32 L) calls).
Proof.
  induction calls as [|[t e] calls IH]; intros t0 s0 L HL B C P; cbn [answers true_starts]; [constructor|].
  destruct P as (P1 & P2 & P3). cbn [since].
  set (s := match e with Some s => s | None => s0 end).
  set (M := match e with Some s => s | None => L end).
  assert (EM : match option_map u32 e with Some s => s | None => u32 L end = u32 M) by (unfold M; destruct e; reflexivity).
  unfold since. rewrite EM.
  assert (Q : (M = s \/ (M = t0 - 1000000000 /\ s <= M)) /\ s <= M <= t /\ t - M < 4294967296).
  { unfold M, s. destruct e; lia. }
  clearbody M s. clear EM. destruct Q as (Q1 & Q2 & Q3).
  rewrite (u32_diff t M) by lia.
  constructor.
  - unfold right_answer. destruct (Z.leb_spec (t - s) 1000000000).
    + destruct Q1 as [->|[Q1 _]]; [reflexivity|]. assert (M = s \/ s < M) by lia. destruct H0 as [->|]; [reflexivity|].
      assert (t0 - s > 1000000000) by lia. lia.
    + destruct Q1 as [->|[Q1 Q4]].
      * split; [|lia]. apply Z.div_le_lower_bound; lia.
      * split. apply Z.div_le_lower_bound; lia. apply Z.div_le_mono; lia.
  - destruct (Z.gtb_spec (t - M) 1000000000).
    + replace (u32 (u32 t - 1000000000)) with (u32 (t - 1000000000)) by (unfold u32; rewrite Zminus_mod_idemp_l; reflexivity).
      apply (IH t); try lia. exact P3.
    + apply (IH t); try lia; try exact P3.
Qed.
