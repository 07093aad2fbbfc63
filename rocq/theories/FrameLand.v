From Coq Require Import ZArith List Bool Lia ZifyBool ZifyNat.
From Verif Require Import FrameModel FrameSpec FrameProofs FrameConv.
Import ListNotations.
Open Scope Z_scope.

(* one round of the transposition *)
Fixpoint visits (H : Z) (n : nat) (j k : Z) : list Z :=
  match n with
  | O => []
  | S n => if k <? H then k :: visits H n j (Z.ldiff (k + j + 1) j) else []
  end.
Definition exchange (H at_ : Z) (jm : Z * Z) (f : frame) (k : Z) : frame :=
  let (j, m) := jm in
  let a := f (at_ + k) in let b := f (at_ + k + j) in
  let t := Z.land (Z.lxor a (Z.shiftr b j)) m in
  put (put f (at_ + k) (Z.lxor a t)) (at_ + k + j) (Z.lxor b (Z.shiftl t j mod 2 ^ H)).
Definition tstep (H at_ : Z) (f : frame) (jm : Z * Z) : frame :=
  fold_left (exchange H at_ jm) (visits H (Z.to_nat H) (fst jm) 0) f.
Lemma inner_fold H at_ j m : forall n f k, transpose_inner H n at_ j m f k = fold_left (exchange H at_ (j, m)) (visits H n j k) f.
Proof. induction n as [|n IH]; intros; [reflexivity|]. cbn [transpose_inner visits]. destruct (k <? H); [|reflexivity]. cbn [fold_left]. rewrite IH. reflexivity. Qed.
Lemma transpose_fold H at_ : forall n j m f, transpose_loop H n at_ j m f = fold_left (tstep H at_) (stages H n j m) f.
Proof.
  induction n as [|n IH]; intros; [reflexivity|]. cbn [transpose_loop stages]. cbv zeta. cbn [fold_left]. rewrite inner_fold. destruct (Z.shiftr j 1 =? 0); [reflexivity|]. rewrite IH. reflexivity.
Qed.
(* which rows a round visits *)
Definition visits_ok (H : Z) (k : Z) : bool :=
  let j := 2 ^ k in let v := visits H (Z.to_nat H) j 0 in
  forallb (fun r => Bool.eqb (existsb (Z.eqb r) v) (negb (Z.testbit r k))) (range H) &&
  forallb (fun r => (0 <=? r) && (r + j <? H)) v &&
  (fix nd (l : list Z) := match l with [] => true | x :: l => negb (existsb (Z.eqb x) l) && nd l end) v.
Lemma visits_good H : height H -> forallb (visits_ok H) (levels H) = true.
Proof. intros [->|[->|[->| ->]]]; vm_compute; reflexivity. Qed.
Lemma visits_spec H k : height H -> In k (levels H) ->
  let v := visits H (Z.to_nat H) (2 ^ k) 0 in
  (forall r, 0 <= r < H -> (In r v <-> Z.testbit r k = false)) /\ (forall r, In r v -> 0 <= r /\ r + 2 ^ k < H) /\ NoDup v.
Proof.
  intros HH K. pose proof (visits_good H HH) as A. rewrite forallb_forall in A. specialize (A k K). unfold visits_ok in A. cbv zeta in A |- *.
  set (v := visits H (Z.to_nat H) (2 ^ k) 0) in *. clearbody v. rewrite !andb_true_iff in A. destruct A as ((A1 & A2) & A3). rewrite forallb_forall in A1, A2. split; [|split].
  - intros r R. specialize (A1 r (in_range _ _ R)). apply eqb_prop in A1. split.
    + intros I. assert (E : existsb (Z.eqb r) v = true) by (apply existsb_exists; exists r; split; [exact I|apply Z.eqb_refl]). rewrite E in A1. destruct (Z.testbit r k); [discriminate|reflexivity].
    + intros T. rewrite T in A1. cbn in A1. apply existsb_exists in A1 as (y & Y & E). apply Z.eqb_eq in E. subst. exact Y.
  - intros r R. specialize (A2 r R). lia.
  - clear -A3. induction v as [|x v IH]; [constructor|]. cbn in A3. apply andb_true_iff in A3 as (A & B). constructor; [|apply IH; exact B].
    intros I. apply negb_true_iff in A. apply Bool.not_true_iff_false in A. apply A. apply existsb_exists. exists x. split; [exact I|apply Z.eqb_refl].
Qed.

Definition words (H at_ : Z) (f : frame) : Prop := forall r, 0 <= r < H -> 0 <= f (at_ + r) < 2 ^ H.
(** Where bit b of row r comes from in the round for bit k. *)
Definition tsrc (k : Z) (p : Z * Z) : Z * Z :=
  if Bool.eqb (Z.testbit (fst p) k) (Z.testbit (snd p) k) then (Z.lxor (fst p) (2 ^ k), Z.lxor (snd p) (2 ^ k)) else p.
Lemma exchange_bits H at_ k jm f v : height H -> good H k jm -> words H at_ f -> Z.testbit v k = false -> 0 <= v -> v + 2 ^ k < H ->
  let f' := exchange H at_ jm f v in
  words H at_ f' /\ (forall i, i <> at_ + v -> i <> at_ + v + 2 ^ k -> f' i = f i) /\
  (forall r b, r = v \/ r = v + 2 ^ k -> 0 <= b < H -> Z.testbit (f' (at_ + r)) b = Z.testbit (f (at_ + fst (tsrc k (r, b)))) (snd (tsrc k (r, b)))).
Proof.
  intros HH (K & J & JH & M & B) WO T V0 VH. destruct jm as (j, m). cbn [fst snd] in *. subst j. cbv zeta. unfold exchange.
  assert (P : 0 < 2 ^ k) by (apply Z.pow_pos_nonneg; lia). assert (HP : 0 <= H) by lia.
  set (a := f (at_ + v)). set (b0 := f (at_ + v + 2 ^ k)). set (t := Z.land (Z.lxor a (Z.shiftr b0 (2 ^ k))) m).
  assert (Wa : 0 <= a < 2 ^ H) by (apply WO; lia). assert (Wb : 0 <= b0 < 2 ^ H) by (unfold b0; replace (at_ + v + 2 ^ k) with (at_ + (v + 2 ^ k)) by lia; apply WO; lia).
  assert (Wt : 0 <= t < 2 ^ H) by (apply land_word; [lia| |exact M]; apply lxor_word; [lia|exact Wa|apply shr_word; [lia|exact Wb]]).
  assert (Ta : forall i, 0 <= i < H -> Z.testbit t i = if Z.testbit i k then false else xorb (Z.testbit a i) (Z.testbit b0 (i + 2 ^ k))).
  { intros i I. unfold t. rewrite Z.land_spec, Z.lxor_spec, Z.shiftr_spec, B by lia. replace (i <? H) with true by lia. destruct (Z.testbit i k); cbn; [apply andb_false_r|apply andb_true_r]. }
  split; [|split].
  - intros r R. unfold put. destruct (Z.eqb_spec (at_ + r) (at_ + v + 2 ^ k)); [apply lxor_word; [lia|exact Wb|apply mod_word; lia]|].
    destruct (Z.eqb_spec (at_ + r) (at_ + v)); [apply lxor_word; [lia|exact Wa|exact Wt]|apply WO; exact R].
  - intros i N1 N2. rewrite !put_other by assumption. reflexivity.
  - assert (Tv : Z.testbit (v + 2 ^ k) k = true) by (rewrite <- flip_set by (try assumption; lia); rewrite Z.lxor_spec, T, Z.pow2_bits_true by lia; reflexivity).
    intros r b [->| ->] I.
    + rewrite put_other by lia. rewrite put_same. rewrite Z.lxor_spec, Ta by lia. unfold tsrc. cbn [fst snd]. rewrite T. destruct (Z.testbit b k) eqn:Tb; cbn [Bool.eqb fst snd].
      * rewrite xorb_false_r. reflexivity.
      * rewrite flip_set by lia. rewrite flip_set by (try assumption; lia). replace (at_ + (v + 2 ^ k)) with (at_ + v + 2 ^ k) by lia. fold b0. destruct (Z.testbit a b), (Z.testbit b0 (b + 2 ^ k)); reflexivity.
    + replace (at_ + (v + 2 ^ k)) with (at_ + v + 2 ^ k) by lia. rewrite put_same. rewrite Z.lxor_spec, shl_bits by lia. replace (b <? H) with true by lia. cbn [andb].
      unfold tsrc. cbn [fst snd]. rewrite Tv. destruct (Z.testbit b k) eqn:Tb; cbn [Bool.eqb fst snd].
      * destruct (flip_clear k b K ltac:(lia) Tb) as (E1 & L). destruct (flip_clear k (v + 2 ^ k) K ltac:(lia) Tv) as (E2 & _). rewrite E1, E2.
        replace (2 ^ k <=? b) with true by lia. cbn [andb]. rewrite Ta by lia.
        assert (E : Z.testbit (b - 2 ^ k) k = false) by (rewrite <- E1, Z.lxor_spec, Tb, Z.pow2_bits_true by lia; reflexivity).
        rewrite E. replace (b - 2 ^ k + 2 ^ k) with b by lia. replace (at_ + (v + 2 ^ k - 2 ^ k)) with (at_ + v) by lia. fold a. destruct (Z.testbit b0 b), (Z.testbit a (b - 2 ^ k)); reflexivity.
      * replace ((2 ^ k <=? b) && Z.testbit t (b - 2 ^ k)) with false; [replace (at_ + (v + 2 ^ k)) with (at_ + v + 2 ^ k) by lia; fold b0; apply xorb_false_r|].
        symmetry. destruct (Z.leb_spec (2 ^ k) b); [|reflexivity]. cbn [andb]. rewrite Ta by lia.
        assert (E : Z.testbit (b - 2 ^ k) k = true).
        { rewrite Z.testbit_true by lia. replace (b - 2 ^ k) with (b + (-1) * 2 ^ k) by lia. rewrite Z.div_add by lia. apply Z.testbit_false in Tb; [|lia].
          replace (b / 2 ^ k + -1) with (1 + (b / 2 ^ k / 2 - 1) * 2) by (pose proof (Z.div_mod (b / 2 ^ k) 2 ltac:(lia)); lia). rewrite Z.mod_add by lia. reflexivity. }
        rewrite E. reflexivity.
Qed.
Lemma tsrc_range K k p : 0 <= k < K -> 0 <= fst p < 2 ^ K -> 0 <= snd p < 2 ^ K -> 0 <= fst (tsrc k p) < 2 ^ K /\ 0 <= snd (tsrc k p) < 2 ^ K.
Proof. intros A B C. unfold tsrc. destruct (Bool.eqb _ _); [cbn [fst snd]; split; apply flip_range; assumption|split; assumption]. Qed.
Lemma tstep_bits H at_ k jm f : height H -> In k (levels H) -> good H k jm -> words H at_ f ->
  let f' := tstep H at_ f jm in
  words H at_ f' /\ (forall i, ~ (0 <= i - at_ < H) -> f' i = f i) /\
  (forall r b, 0 <= r < H -> 0 <= b < H -> Z.testbit (f' (at_ + r)) b = Z.testbit (f (at_ + fst (tsrc k (r, b)))) (snd (tsrc k (r, b)))).
Proof.
  intros HH KL G WO. cbv zeta. unfold tstep. pose proof G as (K & J & JH & _). rewrite J. destruct (visits_spec H k HH KL) as (V1 & V2 & V3). revert V1 V2 V3.
  assert (P : 0 < 2 ^ k) by (apply Z.pow_pos_nonneg; lia).
  generalize (visits H (Z.to_nat H) (2 ^ k) 0). intros v V1 V2 V3.
  assert (Q : forall v f, words H at_ f -> (forall r, In r v -> 0 <= r /\ r + 2 ^ k < H /\ Z.testbit r k = false) -> NoDup v ->
    let f' := fold_left (exchange H at_ jm) v f in
    words H at_ f' /\ (forall i, (forall r, In r v -> i <> at_ + r /\ i <> at_ + r + 2 ^ k) -> f' i = f i) /\
    (forall u r b, In u v -> r = u \/ r = u + 2 ^ k -> 0 <= b < H -> Z.testbit (f' (at_ + r)) b = Z.testbit (f (at_ + fst (tsrc k (r, b)))) (snd (tsrc k (r, b))))).
  { clear v V1 V2 V3 WO f. induction v as [|x v IH]; intros f WO V N; cbv zeta.
    - split; [exact WO|]. split; [reflexivity|]. intros ? ? ? [].
    - cbn [fold_left]. destruct (V x (or_introl eq_refl)) as (X0 & XH & XT). destruct (exchange_bits H at_ k jm f x HH G WO XT X0 XH) as (E1 & E2 & E3). inversion N as [|? ? NI N']; subst.
      destruct (IH (exchange H at_ jm f x) E1 ltac:(intros; apply V; right; assumption) N') as (F1 & F2 & F3).
      assert (TX : Z.testbit (x + 2 ^ k) k = true) by (rewrite <- flip_set by (try assumption; lia); rewrite Z.lxor_spec, XT, Z.pow2_bits_true by lia; reflexivity).
      assert (D : forall u, In u v -> u <> x /\ u <> x + 2 ^ k /\ u + 2 ^ k <> x).
      { intros u U. destruct (V u (or_intror U)) as (U0 & UH & UT). split; [intros ->; contradiction|]. split; [intros ->; rewrite TX in UT; discriminate|].
        intros E. assert (TU : Z.testbit (u + 2 ^ k) k = true) by (rewrite <- flip_set by (try assumption; lia); rewrite Z.lxor_spec, UT, Z.pow2_bits_true by lia; reflexivity). rewrite E, XT in TU. discriminate. }
      split; [exact F1|]. split.
      + intros i I. rewrite F2 by (intros r R; apply I; right; exact R). apply E2; apply (I x (or_introl eq_refl)).
      + intros u r b [<-|U] R B.
        * rewrite F2; [apply E3; assumption|]. intros w W'. destruct (D w W') as (D1 & D2 & D3). destruct R as [->| ->]; lia.
        * rewrite (F3 u r b U R B). destruct (D u U) as (D1 & D2 & D3). destruct (V u (or_intror U)) as (U0 & UH & UT).
          rewrite E2; [reflexivity| |].
          -- assert (S : fst (tsrc k (r, b)) = u \/ fst (tsrc k (r, b)) = u + 2 ^ k).
             { unfold tsrc. cbn [fst snd]. destruct (Bool.eqb (Z.testbit r k) (Z.testbit b k)); [|exact R]. cbn [fst].
               assert (UE : Z.lxor u (2 ^ k) = u + 2 ^ k) by (apply flip_set; assumption).
               destruct R as [->| ->]; [right; exact UE|left]. rewrite <- UE, Z.lxor_assoc, Z.lxor_nilpotent, Z.lxor_0_r. reflexivity. }
             destruct S as [-> | ->]; lia.
          -- assert (S : fst (tsrc k (r, b)) = u \/ fst (tsrc k (r, b)) = u + 2 ^ k).
             { unfold tsrc. cbn [fst snd]. destruct (Bool.eqb (Z.testbit r k) (Z.testbit b k)); [|exact R]. cbn [fst].
               assert (UE : Z.lxor u (2 ^ k) = u + 2 ^ k) by (apply flip_set; assumption).
               destruct R as [->| ->]; [right; exact UE|left]. rewrite <- UE, Z.lxor_assoc, Z.lxor_nilpotent, Z.lxor_0_r. reflexivity. }
             destruct S as [-> | ->]; lia. }
  destruct (Q v f WO) as (Q1 & Q2 & Q3); [|exact V3|].
  - intros r R. destruct (V2 r R) as (A & B). split; [exact A|]. split; [exact B|]. apply V1; [lia|exact R].
  - split; [exact Q1|]. split.
    + intros i I. apply Q2. intros r R. destruct (V2 r R). lia.
    + intros r b R B. destruct (Z.testbit r k) eqn:T.
      * destruct (flip_clear k r K ltac:(lia) T) as (E & L). apply (Q3 (r - 2 ^ k)); [|right; lia|exact B]. apply V1; [lia|]. rewrite <- E, Z.lxor_spec, T, Z.pow2_bits_true by lia. reflexivity.
      * apply (Q3 r); [apply V1; assumption|left; reflexivity|exact B].
Qed.
Definition tsrcs (ks : list Z) (p : Z * Z) : Z * Z := fold_right tsrc p ks.
Lemma tsrcs_range K ks p : (forall k, In k ks -> 0 <= k < K) -> 0 <= fst p < 2 ^ K -> 0 <= snd p < 2 ^ K -> 0 <= fst (tsrcs ks p) < 2 ^ K /\ 0 <= snd (tsrcs ks p) < 2 ^ K.
Proof.
  induction ks as [|k ks IH]; intros A B C; [split; assumption|]. cbn [tsrcs fold_right]. destruct IH; try assumption; [intros; apply A; right; assumption|]. apply tsrc_range; try assumption. apply A. left. reflexivity.
Qed.
Lemma transpose_fold_bits H at_ K : height H -> H = 2 ^ K -> forall ks l, Forall2 (good H) ks l -> (forall k, In k ks -> In k (levels H) /\ 0 <= k < K) -> forall f, words H at_ f ->
  let f' := fold_left (tstep H at_) l f in
  words H at_ f' /\ (forall i, ~ (0 <= i - at_ < H) -> f' i = f i) /\
  (forall r b, 0 <= r < H -> 0 <= b < H -> Z.testbit (f' (at_ + r)) b = Z.testbit (f (at_ + fst (tsrcs ks (r, b)))) (snd (tsrcs ks (r, b)))).
Proof.
  intros HH HK ks l F. induction F as [|k jm ks l G F IH]; intros A f WO; cbv zeta.
  - split; [exact WO|]. split; reflexivity.
  - cbn [fold_left]. destruct (tstep_bits H at_ k jm f HH (proj1 (A k (or_introl eq_refl))) G WO) as (T1 & T2 & T3).
    destruct (IH ltac:(intros; apply A; right; assumption) (tstep H at_ f jm) T1) as (I1 & I2 & I3). split; [exact I1|]. split.
    + intros i I. rewrite I2, T2 by exact I. reflexivity.
    + intros r b R B. rewrite I3 by assumption. cbn [tsrcs fold_right]. fold (tsrcs ks (r, b)). destruct (tsrcs_range K ks (r, b)) as (R1 & R2); [intros x X; apply (A x (or_intror X))|cbn; lia|cbn; lia|].
      rewrite T3 by lia. rewrite <- surjective_pairing. reflexivity.
Qed.
Lemma tsrcs_bits ks : NoDup ks -> (forall k, In k ks -> 0 <= k) -> forall p n, 0 <= n ->
  Z.testbit (fst (tsrcs ks p)) n = (if existsb (Z.eqb n) ks then negb (Z.testbit (snd p) n) else Z.testbit (fst p) n) /\
  Z.testbit (snd (tsrcs ks p)) n = (if existsb (Z.eqb n) ks then negb (Z.testbit (fst p) n) else Z.testbit (snd p) n).
Proof.
  induction ks as [|k ks IH]; intros N A p n P; [split; reflexivity|]. inversion N as [|? ? NI N']; subst. cbn [tsrcs fold_right existsb]. fold (tsrcs ks p).
  destruct (IH N' ltac:(intros; apply A; right; assumption) p n P) as (I1 & I2).
  assert (K0 : 0 <= k) by (apply A; left; reflexivity).
  destruct (IH N' ltac:(intros; apply A; right; assumption) p k K0) as (J1 & J2).
  replace (existsb (Z.eqb k) ks) with false in J1, J2 by (symmetry; apply Bool.not_true_is_false; rewrite existsb_exists; intros (y & Y & E); apply Z.eqb_eq in E; subst; contradiction).
  unfold tsrc. destruct (Z.eqb_spec n k) as [->|E]; cbn [orb].
  - rewrite J1, J2. destruct (Bool.eqb _ _) eqn:EB; cbn [fst snd].
    + apply eqb_prop in EB. rewrite !Z.lxor_spec, Z.pow2_bits_true, J1, J2 by lia. rewrite EB, !xorb_true_r. split; reflexivity.
    + rewrite J1, J2. destruct (Z.testbit (fst p) k), (Z.testbit (snd p) k); try discriminate; split; reflexivity.
  - destruct (Bool.eqb _ _); cbn [fst snd]; [|split; assumption]. rewrite !Z.lxor_spec, Z.pow2_bits_false, !xorb_false_r by lia. split; assumption.
Qed.
Lemma tsrcs_all H r b : height H -> 0 <= r < H -> 0 <= b < H -> tsrcs (levels H) (r, b) = (H - 1 - b, H - 1 - r).
Proof.
  intros HH R B. destruct (pow_levels H HH) as (P & L). set (K := Z.of_nat (length (levels H))) in *.
  assert (X : forall n, 0 <= n -> existsb (Z.eqb n) (levels H) = (n <? K)).
  { intros n N. apply Bool.eq_true_iff_eq. rewrite existsb_exists. split; [intros (k & A & E); apply L in A; lia|]. intros A. exists n. split; [apply L; lia|apply Z.eqb_refl]. }
  assert (Q : forall n, 0 <= n -> _) by (intros n N; exact (tsrcs_bits (levels H) (levels_nodup H HH) ltac:(intros k J; apply L in J; lia) (r, b) n N)).
  assert (U : forall i n, 0 <= i < H -> 0 <= n -> Z.testbit (H - 1 - i) n = if n <? K then negb (Z.testbit i n) else Z.testbit i n).
  { intros i n I N. replace (H - 1 - i) with (2 ^ K - 1 - i) by lia. rewrite bnot_bits by lia. destruct (n <? K); [apply xorb_true_r|apply xorb_false_r]. }
  assert (Z0 : forall i n, 0 <= i < H -> K <= n -> Z.testbit i n = false) by (intros i n I N; apply (proj2 (proj1 (word_bits K i ltac:(lia)) ltac:(lia))); exact N).
  rewrite (surjective_pairing (tsrcs (levels H) (r, b))). f_equal; apply Z.bits_inj'; intros n N; destruct (Q n N) as (Q1 & Q2); cbn [fst snd] in Q1, Q2.
  - rewrite Q1, X, U by lia. destruct (Z.ltb_spec n K); [reflexivity|]. rewrite !Z0 by lia. reflexivity.
  - rewrite Q2, X, U by lia. destruct (Z.ltb_spec n K); [reflexivity|]. rewrite !Z0 by lia. reflexivity.
Qed.
Lemma transpose_ok H at_ f : height H -> words H at_ f ->
  let f' := transpose H at_ f in
  words H at_ f' /\ (forall i, ~ (0 <= i - at_ < H) -> f' i = f i) /\
  (forall r b, 0 <= r < H -> 0 <= b < H -> Z.testbit (f' (at_ + r)) b = Z.testbit (f (at_ + (H - 1 - b))) (H - 1 - r)).
Proof.
  intros HH WO. cbv zeta. unfold transpose. rewrite transpose_fold. destruct (pow_levels H HH) as (P & L).
  destruct (transpose_fold_bits H at_ _ HH P _ _ (stages_forall H HH) ltac:(intros k J; split; [exact J|apply L; exact J]) f WO) as (A & B & C).
  split; [exact A|]. split; [exact B|]. intros r b R B'. specialize (C r b R B'). rewrite tsrcs_all in C by assumption. exact C.
Qed.
Lemma transpose_all_ok H : height H -> forall n f at_, (forall i, 0 <= i < H * Z.of_nat n -> 0 <= f (at_ + i) < 2 ^ H) ->
  let f' := transpose_all H f at_ n in
  (forall i, 0 <= i < H * Z.of_nat n -> 0 <= f' (at_ + i) < 2 ^ H) /\ (forall i, ~ (0 <= i - at_ < H * Z.of_nat n) -> f' i = f i) /\
  (forall k r b, 0 <= k < Z.of_nat n -> 0 <= r < H -> 0 <= b < H -> Z.testbit (f' (at_ + k * H + r)) b = Z.testbit (f (at_ + k * H + (H - 1 - b))) (H - 1 - r)).
Proof.
  intros HH. assert (HP : 0 < H) by (destruct HH as [->|[->|[->| ->]]]; lia).
  induction n as [|n IH]; intros f at_ WO; cbv zeta; cbn [transpose_all].
  - split; [intros; lia|]. split; [reflexivity|]. intros; lia.
  - assert (W1 : words H at_ f) by (intros r R; apply WO; nia). destruct (transpose_ok H at_ f HH W1) as (T1 & T2 & T3). set (g := transpose H at_ f) in *.
    destruct (IH g (at_ + H)) as (I1 & I2 & I3).
    { intros i I. rewrite T2 by lia. replace (at_ + H + i) with (at_ + (H + i)) by lia. apply WO. nia. }
    split; [|split].
    + intros i I. destruct (Z_lt_le_dec i H); [rewrite I2 by lia; apply T1; lia|]. replace (at_ + i) with (at_ + H + (i - H)) by lia. apply I1. nia.
    + intros i I. rewrite I2 by nia. apply T2. nia.
    + intros k r b K R B. destruct (Z.eq_dec k 0) as [->|NK].
      * replace (at_ + 0 * H + r) with (at_ + r) by lia. rewrite I2 by lia. rewrite T3 by assumption. f_equal. f_equal. lia.
      * replace (at_ + k * H + r) with (at_ + H + (k - 1) * H + r) by lia. rewrite I3 by lia. rewrite T2 by nia. f_equal. f_equal. lia.
Qed.
