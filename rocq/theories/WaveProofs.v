From Coq Require Import ZArith List Bool QArith Qround Lia Lqa ZifyBool ZifyNat.
From Verif Require Import ArithModel TransModel SparkModel PovModel PovProofs WaveModel WaveSpec.
Import ListNotations.
Local Open Scope Z_scope.

(** ** wave.h *)

(** The frames come in time: none is later than the length of the transition after the first. *)
Definition within (t0 L : Z) (fs : list frame) : Prop := Forall (fun f => since t0 (now f) <= L) fs.

Lemma u32_since : forall a b, u32 (a - b) = since b a.
Proof. reflexivity. Qed.
Lemma since_range : forall a b, 0 <= since a b < 4294967296.
Proof. intros a b. unfold since. apply Z.mod_pos_bound. lia. Qed.
Lemma since_self : forall a, since a a = 0.
Proof. intros a. unfold since. rewrite Z.sub_diag. reflexivity. Qed.

Lemma i32_id : forall x, -2147483648 <= x < 2147483648 -> i32 x = x.
Proof. intros x H. unfold i32. rewrite Z.mod_small by lia. lia. Qed.
Lemma u32_id : forall x, 0 <= x < 4294967296 -> u32 x = x.
Proof. intros x H. unfold u32. apply Z.mod_small. exact H. Qed.

(** The state while the transition that began with frame [f0] goes on. *)
Definition live (f0 : frame) (m : ms) (w : wv) : Prop :=
  w_base w = Base false (now f0) (u32 (ms_value f0 m)) /\
  w_center w = val f0 1%nat /\ w_size w = val f0 2%nat.

Lemma update_live : forall f n b t0 L, b = Base false t0 L -> 0 < L < 131072 -> since t0 (now f) <= L ->
  b_update f (Plain n) b 32768 = (b, share (since t0 (now f)) L).
Proof.
  intros f n b t0 L -> HL H. unfold b_update, b_done. cbn [len start restart].
  replace (L =? 0) with false by lia. rewrite u32_since. cbv zeta.
  replace (since t0 (now f) >? L) with false by lia.
  pose proof (since_range t0 (now f)). cbn [bend].
  rewrite (u32_id (32768 * _)) by lia. unfold share.
  rewrite (Z.mul_comm 32768). rewrite i32_id; auto.
  split. { assert (0 <= since t0 (now f) * 32768 / L) by (apply Z.div_pos; lia). lia. }
  assert (since t0 (now f) * 32768 / L <= 32768); [|lia].
  apply Z.div_le_upper_bound; lia.
Qed.

Lemma wave_first : forall f0 n w,
  0 < u32 (val f0 n) < 131072 -> 0 < val f0 3%nat <= 2147483647 ->
  exists w', wave_run f0 (Plain n) (w_begin w) = Some w' /\ live f0 (Plain n) w' /\
    w_mix w' = 32768 /\ w_leds w' = leds f0 /\ w_offset w' = 0.
Proof.
  intros f0 n w HL HM. unfold wave_run, w_begin, b_begin, b_run. cbn [restart w_base ms_value].
  rewrite (update_live f0 n _ (now f0) (u32 (val f0 n)) eq_refl) by (rewrite ?since_self; lia).
  rewrite (u32_id (val f0 3%nat)) by lia.
  replace (val f0 3%nat =? 0) with false by lia.
  eexists; split; [reflexivity|]. unfold live. cbn [w_base w_center w_size w_mix w_leds w_offset start ms_value].
  rewrite since_self, Z.sub_diag. change (u32 (u32 0 * 32768)) with 0.
  rewrite Z.div_0_l by lia. unfold share. rewrite Z.mul_0_l, Z.div_0_l by lia.
  repeat split; reflexivity.
Qed.

Lemma wave_next : forall f0 n f w, live f0 (Plain n) w ->
  0 < u32 (val f0 n) < 131072 -> 0 < val f 3%nat <= 2147483647 ->
  since (now f0) (now f) <= u32 (val f0 n) ->
  exists w', wave_run f (Plain n) w = Some w' /\ live f0 (Plain n) w' /\
    w_mix w' = 32768 - share (since (now f0) (now f)) (u32 (val f0 n)) /\ w_leds w' = leds f /\
    w_offset w' = i32 (travelled (since (now f0) (now f)) (val f 3%nat)).
Proof.
  intros f0 n f w (B & C & S0) HL HM HT. unfold wave_run. rewrite B. cbn [restart].
  unfold b_run. cbn [restart].
  cbn [ms_value].
  rewrite (update_live f n _ (now f0) (u32 (val f0 n)) eq_refl) by lia.
  rewrite (u32_id (val f 3%nat)) by lia.
  replace (val f 3%nat =? 0) with false by lia.
  eexists; split; [reflexivity|]. unfold live. cbn [w_base w_center w_size w_mix w_leds w_offset start ms_value].
  rewrite u32_since. pose proof (since_range (now f0) (now f)).
  rewrite (u32_id (since _ _ * 32768)) by lia.
  repeat split; auto.
Qed.

Definition timely (f0 : frame) (n : nat) (fs : list frame) : Prop :=
  Forall (fun f => 0 < val f 3%nat <= 2147483647 /\ since (now f0) (now f) <= u32 (val f0 n)) fs.

Lemma wave_mid : forall f0 n fs w, live f0 (Plain n) w -> 0 < u32 (val f0 n) < 131072 -> timely f0 n fs ->
  exists w', wave_runs (Plain n) w fs = Some w' /\ live f0 (Plain n) w'.
Proof.
  intros f0 n fs. induction fs as [|f fs IH]; intros w L HL HT; cbn [wave_runs].
  - eauto.
  - inversion HT as [|? ? [H1 H2] H3]; subst.
    destruct (wave_next f0 n f w L HL H1 H2) as (w1 & E & L1 & _). rewrite E. cbn [ibind].
    apply IH; auto.
Qed.

Lemma wave_runs_app : forall m fs gs w,
  wave_runs m w (fs ++ gs) = ibind (wave_runs m w fs) (fun w => wave_runs m w gs).
Proof.
  intros m fs. induction fs as [|f fs IH]; intros gs w; cbn [app wave_runs ibind]; auto.
  destruct (wave_run f m w); cbn [ibind]; auto.
Qed.

(** What the wave is at frame [f], any number of frames after [f0]. *)
Lemma wave_at : forall f0 n fs f w,
  0 < u32 (val f0 n) < 131072 -> 0 < val f0 3%nat <= 2147483647 -> timely f0 n (fs ++ [f]) ->
  exists w', wave_runs (Plain n) (w_begin w) (f0 :: fs ++ [f]) = Some w' /\ live f0 (Plain n) w' /\
    w_mix w' = 32768 - share (since (now f0) (now f)) (u32 (val f0 n)) /\ w_leds w' = leds f /\
    w_offset w' = i32 (travelled (since (now f0) (now f)) (val f 3%nat)).
Proof.
  intros f0 n fs f w HL HM HT. cbn [wave_runs].
  destruct (wave_first f0 n w HL HM) as (w1 & E1 & L1 & _). rewrite E1. cbn [ibind].
  unfold timely in HT. rewrite Forall_app in HT. destruct HT as [T1 T2].
  destruct (wave_mid f0 n fs w1 L1 HL T1) as (w2 & E2 & L2).
  rewrite wave_runs_app, E2. cbn [ibind wave_runs].
  inversion T2 as [|? ? [H1 H2] _]; subst.
  destruct (wave_next f0 n f w2 L2 HL H1 H2) as (w3 & E3 & R). rewrite E3. cbn [ibind].
  exists w3. split; auto.
Qed.

(** The table *)
Lemma hump_some : forall N, 0 <= N < 32 -> exists h, nth_error blast_hump (Z.to_nat N) = Some h /\ 0 < h <= 255.
Proof.
  intros N H. assert (K : In (Z.to_nat N) (seq 0 32)) by (apply in_seq; lia).
  revert K. generalize (Z.to_nat N). intros k K. cbn in K.
  repeat (destruct K as [<-|K]; [eexists; split; [reflexivity|lia]|]). destruct K.
Qed.
Lemma hump_less : forall i j h k, (i <= j)%nat -> nth_error blast_hump i = Some h -> nth_error blast_hump j = Some k -> k <= h.
Proof.
  intros i j h k L A B.
  assert (Ki : In i (seq 0 32)) by (apply in_seq; assert (i < length blast_hump)%nat by (apply nth_error_Some; congruence); cbn in *; lia).
  assert (Kj : In j (seq 0 32)) by (apply in_seq; assert (j < length blast_hump)%nat by (apply nth_error_Some; congruence); cbn in *; lia).
  assert (T : forallb (fun i => forallb (fun j => if (i <=? j)%nat then nth j blast_hump 0 <=? nth i blast_hump 0 else true) (seq 0 32)) (seq 0 32) = true) by reflexivity.
  rewrite forallb_forall in T. specialize (T i Ki). rewrite forallb_forall in T. specialize (T j Kj).
  replace (i <=? j)%nat with true in T by (symmetry; apply Nat.leb_le; lia).
  rewrite (nth_error_nth _ _ 0 A), (nth_error_nth _ _ 0 B) in T. lia.
Qed.

Lemma int_ok : forall x, -2147483648 <= x <= 2147483647 -> int x = Some x.
Proof. intros x H. unfold int. replace (_ && _) with true by lia. reflexivity. Qed.
Lemma int_inv : forall x y, int x = Some y -> y = x.
Proof. intros x y. unfold int. destruct (_ && _); congruence. Qed.

(** Where the arithmetic is exact. *)
Definition sane (w : wv) (led : Z) : Prop :=
  0 <= led < w_leds w /\ w_leds w <= 65535 /\ 0 <= w_center w <= 32768 /\ 0 <= w_size w /\
  0 <= w_offset w <= 2000000000 /\ (w_offset w + 32768) * w_size w <= 2147483647.

Lemma place_range : forall leds led, 0 <= led < leds -> 0 <= place leds led < 32768.
Proof.
  intros leds led H. unfold place. split. apply Z.div_pos; lia. apply Z.div_lt_upper_bound; lia.
Qed.

Lemma dist_sane : forall w led, sane w led ->
  w_dist w led = Some (from_front (w_leds w) (w_center w) (w_offset w) led * w_size w / 32768) /\
  0 <= from_front (w_leds w) (w_center w) (w_offset w) led <= w_offset w + 32768.
Proof.
  intros w led (H1 & H2 & H3 & H4 & H5 & H6). unfold w_dist.
  pose proof (place_range (w_leds w) led H1) as P.
  rewrite int_ok by lia. cbn [ibind]. replace (w_leds w =? 0) with false by lia.
  rewrite Z.quot_div_nonneg by lia. fold (place (w_leds w) led).
  unfold from_front. set (p := place (w_leds w) led) in *.
  rewrite int_ok by lia. cbn [ibind]. rewrite int_ok by lia. cbn [ibind].
  rewrite int_ok by lia. cbn [ibind]. rewrite int_ok by lia. cbn [ibind].
  set (e := Z.abs (Z.abs (w_center w - p) - w_offset w)).
  assert (E : 0 <= e <= w_offset w + 32768) by (unfold e; lia).
  rewrite int_ok by nia. cbn [ibind]. rewrite Z.shiftr_div_pow2 by lia. split; auto.
Qed.

Lemma mix_sane : forall w led, sane w led -> 0 <= w_mix w <= 32768 ->
  exists v, wave_mix w led = Some v /\ 0 <= v <= 255 * w_mix w / 256 /\
    (v <> 0 -> from_front (w_leds w) (w_center w) (w_offset w) led * w_size w < 32 * 32768).
Proof.
  intros w led H M. destruct (dist_sane w led H) as [E R]. unfold wave_mix. rewrite E. cbn [ibind].
  destruct H as (H1 & H2 & H3 & H4 & H5 & H6).
  set (e := from_front _ _ _ _) in *.
  assert (P : 0 <= e * w_size w) by (apply Z.mul_nonneg_nonneg; lia).
  assert (D : 0 <= e * w_size w / 32768) by (apply Z.div_pos; lia).
  destruct (e * w_size w / 32768 <? 32) eqn:C.
  - replace (e * w_size w / 32768 <? 0) with false by lia.
    destruct (hump_some (e * w_size w / 32768)) as (h & Eh & Rh); [lia|]. rewrite Eh. cbn [ibind].
    eexists; split; [reflexivity|]. rewrite Z.shiftr_div_pow2 by lia. change (2 ^ 8) with 256.
    split. { split. apply Z.div_pos; nia. apply Z.div_le_mono; nia. }
    intros _. apply Z.ltb_lt in C. pose proof (Z.div_mod (e * w_size w) 32768). pose proof (Z.mod_pos_bound (e * w_size w) 32768). lia.
  - eexists; split; [reflexivity|]. split; [|congruence].
    split; [lia|]. apply Z.div_pos; lia.
Qed.

(** Nearer to the front is brighter. *)
Lemma mix_mono : forall w a b va vb, sane w a -> sane w b -> 0 <= w_mix w <= 32768 ->
  from_front (w_leds w) (w_center w) (w_offset w) a <= from_front (w_leds w) (w_center w) (w_offset w) b ->
  wave_mix w a = Some va -> wave_mix w b = Some vb -> vb <= va.
Proof.
  intros w a b va vb Ha Hb M L Ea Eb.
  destruct (dist_sane w a Ha) as [Da Ra]. destruct (dist_sane w b Hb) as [Db Rb].
  destruct (mix_sane w a Ha M) as (va' & Ea' & Va & _). rewrite Ea in Ea'. injection Ea' as <-.
  unfold wave_mix in Ea, Eb. rewrite Da in Ea. rewrite Db in Eb. cbn [ibind] in *.
  destruct Ha as (_ & _ & _ & Hs & _).
  set (ea := from_front _ _ _ a) in *. set (eb := from_front _ _ _ b) in *.
  assert (Q : ea * w_size w / 32768 <= eb * w_size w / 32768)
    by (apply Z.div_le_mono; [lia|apply Z.mul_le_mono_nonneg_r; lia]).
  assert (0 <= ea * w_size w / 32768) by (apply Z.div_pos; [apply Z.mul_nonneg_nonneg; lia|lia]).
  destruct (eb * w_size w / 32768 <? 32) eqn:Cb; [|injection Eb as <-; lia].
  replace (ea * w_size w / 32768 <? 32) with true in Ea by lia.
  replace (ea * w_size w / 32768 <? 0) with false in Ea by lia.
  replace (eb * w_size w / 32768 <? 0) with false in Eb by lia.
  destruct (nth_error blast_hump (Z.to_nat (ea * w_size w / 32768))) as [h|] eqn:Na; [|discriminate].
  destruct (nth_error blast_hump (Z.to_nat (eb * w_size w / 32768))) as [k|] eqn:Nb; [|discriminate].
  cbn [ibind] in Ea, Eb. injection Ea as <-. injection Eb as <-.
  assert (LE : (Z.to_nat (ea * w_size w / 32768) <= Z.to_nat (eb * w_size w / 32768))%nat) by lia.
  pose proof (hump_less _ _ _ _ LE Na Nb).
  rewrite !Z.shiftr_div_pow2 by lia. apply Z.div_le_mono; [lia|]. apply Z.mul_le_mono_nonneg_r; lia.
Qed.

(** After its time the wave is gone. *)
Lemma wave_after : forall f0 n f w, live f0 (Plain n) w -> u32 (val f0 n) < since (now f0) (now f) ->
  u32 (val f 3%nat) <> 0 ->
  exists w', wave_run f (Plain n) w = Some w' /\ w_mix w' = 0 /\ b_done (w_base w') = true.
Proof.
  intros f0 n f w (B & C & S0) HT HM. unfold wave_run. rewrite B. unfold b_run. cbn [restart ms_value].
  unfold b_update, b_done. cbn [len start restart]. rewrite u32_since.
  destruct (u32 (val f0 n) =? 0) eqn:Z0.
  - replace (u32 (val f 3%nat) =? 0) with false by lia.
    eexists; split; [reflexivity|]. cbn. split; [reflexivity|]. cbn. lia.
  - replace (since (now f0) (now f) >? u32 (val f0 n)) with true by lia.
    replace (u32 (val f 3%nat) =? 0) with false by lia.
    eexists; split; [reflexivity|]. cbn. split; reflexivity.
Qed.
Lemma mix_zero : forall w led v, w_mix w = 0 -> wave_mix w led = Some v -> v = 0.
Proof.
  intros w led v E. unfold wave_mix. rewrite E. destruct (w_dist w led) as [N|]; [|discriminate]. cbn [ibind].
  destruct (N <? 32); [|congruence]. destruct (N <? 0); [discriminate|].
  destruct (nth_error _ _); [|discriminate]. cbn [ibind]. rewrite Z.mul_0_r. cbn. congruence.
Qed.

(** ** TrSparkX *)
Lemma spark_first : forall f0 n w, 0 < u32 (val f0 n) < 131072 ->
  live f0 (Plain n) (spark_run f0 (Plain n) (w_begin w)).
Proof.
  intros f0 n w HL. unfold spark_run, w_begin, b_begin, b_run. cbn [restart w_base ms_value].
  rewrite (update_live f0 n _ (now f0) (u32 (val f0 n)) eq_refl) by (rewrite ?since_self; lia).
  repeat split; reflexivity.
Qed.
Lemma spark_next : forall f0 n f w, live f0 (Plain n) w -> 0 < u32 (val f0 n) < 131072 ->
  since (now f0) (now f) <= u32 (val f0 n) ->
  let w' := spark_run f (Plain n) w in
  live f0 (Plain n) w' /\ w_leds w' = leds f /\ w_offset w' = share (since (now f0) (now f)) (u32 (val f0 n)).
Proof.
  intros f0 n f w (B & C & S0) HL HT. unfold spark_run. rewrite B. unfold b_run. cbn [restart ms_value].
  rewrite (update_live f n _ (now f0) (u32 (val f0 n)) eq_refl) by lia.
  cbv zeta. unfold live. cbn. repeat split; auto.
Qed.
Lemma spark_runs_app : forall m fs gs w, spark_runs m w (fs ++ gs) = spark_runs m (spark_runs m w fs) gs.
Proof. intros m fs. induction fs as [|f fs IH]; intros gs w; cbn [app spark_runs]; auto. Qed.
Lemma spark_at : forall f0 n fs f w, 0 < u32 (val f0 n) < 131072 ->
  Forall (fun f => since (now f0) (now f) <= u32 (val f0 n)) (fs ++ [f]) ->
  let w' := spark_runs (Plain n) (w_begin w) (f0 :: fs ++ [f]) in
  live f0 (Plain n) w' /\ w_leds w' = leds f /\ w_offset w' = share (since (now f0) (now f)) (u32 (val f0 n)).
Proof.
  intros f0 n fs f w HL HT. cbn [spark_runs]. rewrite Forall_app in HT. destruct HT as [T1 T2].
  rewrite spark_runs_app. cbn [spark_runs].
  assert (L : live f0 (Plain n) (spark_runs (Plain n) (spark_run f0 (Plain n) (w_begin w)) fs)).
  { pose proof (spark_first f0 n w HL) as L. revert L. generalize (spark_run f0 (Plain n) (w_begin w)).
    induction fs as [|g fs IH]; intros w1 L; cbn [spark_runs]; auto.
    inversion T1; subst. apply IH; auto. apply spark_next; auto. }
  inversion T2; subst. apply spark_next; auto.
Qed.
Lemma spark_sane : forall w led, sane w led ->
  exists v, spark_mix w led = Some v /\ 0 <= v <= 32640 /\
    (v <> 0 <-> from_front (w_leds w) (w_center w) (w_offset w) led * w_size w < 32 * 32768).
Proof.
  intros w led H. destruct (dist_sane w led H) as [E R]. unfold spark_mix. rewrite E. cbn [ibind].
  destruct H as (H1 & H2 & H3 & H4 & H5 & H6).
  set (e := from_front _ _ _ _) in *.
  assert (P : 0 <= e * w_size w) by (apply Z.mul_nonneg_nonneg; lia).
  assert (D : 0 <= e * w_size w / 32768) by (apply Z.div_pos; lia).
  pose proof (Z.div_mod (e * w_size w) 32768 ltac:(lia)). pose proof (Z.mod_pos_bound (e * w_size w) 32768 ltac:(lia)).
  destruct (e * w_size w / 32768 <? 32) eqn:C.
  - replace (e * w_size w / 32768 <? 0) with false by lia.
    destruct (hump_some (e * w_size w / 32768)) as (h & Eh & Rh); [lia|]. rewrite Eh. cbn [ibind].
    eexists; split; [reflexivity|]. rewrite Z.shiftl_mul_pow2 by lia. change (2 ^ 7) with 128. lia.
  - eexists; split; [reflexivity|]. lia.
Qed.

(** ** colorcycle.h *)

Lemma count_app : forall p n k a, count p a (n + k) = count p a n + count p (a + Z.of_nat n) k.
Proof.
  intros p n. induction n as [|n IH]; intros k a; cbn [count Nat.add].
  - rewrite Z.add_0_r. lia.
  - rewrite IH. replace (a + 1 + Z.of_nat n) with (a + Z.of_nat (S n)) by lia. lia.
Qed.
Lemma count_ext : forall p q n a, (forall u, a <= u < a + Z.of_nat n -> p u = q u) -> count p a n = count q a n.
Proof.
  intros p q n. induction n as [|n IH]; intros a H; cbn [count]; auto.
  rewrite (H a) by lia. rewrite IH; auto. intros u Hu. apply H. lia.
Qed.
Lemma count_between : forall s e n a,
  count (fun u => (s <=? u) && (u <? e)) a n = Z.max 0 (Z.min e (a + Z.of_nat n) - Z.max s a).
Proof.
  intros s e n. induction n as [|n IH]; intros a; cbn [count].
  - lia.
  - rewrite IH. destruct ((s <=? a) && (a <? e)) eqn:E; lia.
Qed.
Lemma count_or : forall p q n a, (forall u, p u && q u = false) ->
  count (fun u => p u || q u) a n = count p a n + count q a n.
Proof.
  intros p q n. induction n as [|n IH]; intros a H; cbn [count]; auto.
  rewrite IH by auto. specialize (H a). destruct (p a), (q a); try discriminate; cbn [orb]; lia.
Qed.

(** The arc as one range or two. *)
Lemma arc_one : forall num s l u, 0 <= s < num -> 0 <= l -> s + l <= num -> 0 <= u < num ->
  in_arc num s l u = ((s <=? u) && (u <? s + l)).
Proof.
  intros num s l u Hs Hl H Hu. unfold in_arc. destruct (Z_le_gt_dec s u).
  - rewrite Z.mod_small by lia. lia.
  - rewrite <- (Z.mod_unique (u - s) num (-1) (u - s + num)) by lia. lia.
Qed.
Lemma arc_two : forall num s l u, 0 <= s < num -> num <= s + l -> l <= num -> 0 <= u < num ->
  in_arc num s l u = (((0 <=? u) && (u <? s + l - num)) || ((s <=? u) && (u <? num))).
Proof.
  intros num s l u Hs Hl H Hu. unfold in_arc. destruct (Z_le_gt_dec s u).
  - rewrite Z.mod_small by lia. lia.
  - rewrite <- (Z.mod_unique (u - s) num (-1) (u - s + num)) by lia. lia.
Qed.

Lemma size_between : forall s e a n, 0 <= s -> 0 <= a -> e < 4294967296 -> 
  r_size (r_and (Range s e) (Range a (a + Z.of_nat n))) = count (fun u => (s <=? u) && (u <? e)) a n.
Proof.
  intros s e a n Hs Ha He. rewrite count_between. unfold r_size, r_and. cbn [r_start r_end].
  destruct (Z.max s a >=? Z.min e (a + Z.of_nat n)) eqn:E; [lia|]. rewrite u32_id; lia.
Qed.

Lemma mix_one : forall c led, 0 <= led -> (led + 1) * 16384 <= y_num c -> y_num c < 4294967296 ->
  0 <= y_start c <= y_end c -> y_start c < y_num c -> y_end c <= y_num c ->
  y_mix c led = lit (y_num c) (y_start c) (y_end c - y_start c) led.
Proof.
  intros c led H0 H1 H2 H3 H4 H5. unfold y_mix, lit. replace (y_start c <=? y_end c) with true by lia.
  rewrite !u32_id by lia.
  replace (led * 16384 + 16384) with (led * 16384 + Z.of_nat (Z.to_nat 16384)) by lia.
  rewrite size_between by lia. apply count_ext. intros u Hu. rewrite arc_one by lia.
  replace (y_start c + (y_end c - y_start c)) with (y_end c) by lia. reflexivity.
Qed.
Lemma mix_two_arcs : forall c led, 0 <= led -> (led + 1) * 16384 <= y_num c -> y_num c < 4294967296 ->
  0 <= y_end c < y_start c -> y_start c < y_num c ->
  y_mix c led = lit (y_num c) (y_start c) (y_end c - y_start c + y_num c) led.
Proof.
  intros c led H0 H1 H2 H3 H4. unfold y_mix, lit. replace (y_start c <=? y_end c) with false by lia.
  rewrite (u32_id (led * 16384)) by lia. rewrite (u32_id (led * 16384 + 16384)) by lia.
  replace (led * 16384 + 16384) with (led * 16384 + Z.of_nat (Z.to_nat 16384)) by lia.
  rewrite !size_between by lia. rewrite u32_id by (rewrite !count_between; lia).
  rewrite <- count_or by (intros u; lia). apply count_ext. intros u Hu.
  rewrite arc_two by lia.
  replace (y_start c + (y_end c - y_start c + y_num c) - y_num c) with (y_end c) by lia. reflexivity.
Qed.

(** The whole blade. *)
Lemma lit_total : forall num s l, 0 <= s < num -> 0 <= l <= num -> lit_all num s l = l.
Proof.
  intros num s l Hs Hl. unfold lit_all. destruct (Z_le_gt_dec (s + l) num).
  - rewrite (count_ext _ (fun u => (s <=? u) && (u <? s + l))).
    + rewrite count_between. lia.
    + intros u Hu. apply arc_one; lia.
  - rewrite (count_ext _ (fun u => ((0 <=? u) && (u <? s + l - num)) || ((s <=? u) && (u <? num)))).
    + rewrite count_or by (intros u; lia). rewrite !count_between. lia.
    + intros u Hu. apply arc_two; lia.
Qed.
Fixpoint sum_leds (g : Z -> Z) (n : nat) : Z := match n with O => 0 | S n => sum_leds g n + g (Z.of_nat n) end.
Lemma lit_sum : forall num s l n, num = Z.of_nat n * 16384 -> sum_leds (lit num s l) n = lit_all num s l.
Proof.
  intros num s l n E. unfold lit_all.
  assert (G : forall k, sum_leds (lit num s l) k = count (in_arc num s l) 0 (k * Z.to_nat 16384)).
  { induction k as [|k IH]; [reflexivity|]. cbn [sum_leds]. rewrite IH. unfold lit.
    replace (S k * Z.to_nat 16384)%nat with (k * Z.to_nat 16384 + Z.to_nat 16384)%nat by lia.
    rewrite count_app. f_equal. f_equal. lia. }
  rewrite G. f_equal. lia.
Qed.

(** One frame. *)
Lemma run_num : forall r0 r1 f us m c, y_num (y_run r0 r1 f us m c) = u32 (leds f * 16384).
Proof.
  intros. unfold y_run. destruct (b_updateq _ _ _) as [b fade].
  destruct (Qeq_bool fade 1); [reflexivity|]. destruct (Qeq_bool fade 0); reflexivity.
Qed.
Lemma run_pos : forall r0 r1 f us m c, let p := y_pos (y_run r0 r1 f us m c) in (0 <= p)%Q /\ (p < 1)%Q.
Proof.
  intros. unfold p, y_run. destruct (b_updateq _ _ _) as [b fade].
  destruct (Qeq_bool fade 1); [|destruct (Qeq_bool fade 0)]; cbn [y_pos]; apply fract_range.
Qed.

Lemma fract_floor : forall x, exists k, (fract x == x - inject_Z k)%Q.
Proof. intros x. exists (Qfloor x). unfold fract. reflexivity. Qed.
Lemma inject_lt_int : forall a b, (inject_Z a < inject_Z b)%Q -> a < b.
Proof. intros a b H. rewrite <- Zlt_Qlt in H. exact H. Qed.
Lemma inject_le_int : forall a b, (inject_Z a <= inject_Z b)%Q -> a <= b.
Proof. intros a b H. rewrite <- Zle_Qle in H. exact H. Qed.

Lemma run_arc : forall r0 r1 f us m c, let c' := y_run r0 r1 f us m c in
  let num := leds f * 16384 in let fade := y_fade c' in
  0 < leds f -> num < 4294967296 ->
  (fade == 1 \/ (0 <= fade /\ fade * inject_Z num <= inject_Z (num - 1)))%Q ->
  exists s l, 0 <= s < num /\ 0 <= l <= num /\
    (inject_Z l - 1 < fade * inject_Z num)%Q /\ (fade * inject_Z num < inject_Z l + 1)%Q /\
    (forall led, 0 <= led < leds f -> y_mix c' led = lit num s l led) /\
    ((fade == 0)%Q -> l = 0) /\ ((fade == 1)%Q -> l = num).
Proof.
  intros r0 r1 f us m c c' num fade HL HN HF.
  pose proof (run_num r0 r1 f us m c) as EN. fold c' in EN. rewrite u32_id in EN by lia. fold num in EN.
  assert (N0 : (1 <= inject_Z num)%Q) by (change 1%Q with (inject_Z 1); rewrite <- Zle_Qle; unfold num; lia).
  assert (K : forall led, 0 <= led < leds f -> 0 <= led /\ (led + 1) * 16384 <= num) by (intros; unfold num; lia).
  revert HF. unfold fade in *. clear fade. unfold c' in *. unfold y_run in *.
  destruct (b_updateq _ _ _) as [b fade]. cbv zeta in *.
  rewrite (u32_id (leds f * 16384)) in * by lia. fold num in EN |- *.
  destruct (Qeq_bool fade 1) eqn:F1.
  - apply Qeq_bool_iff in F1. intros _. cbn [y_fade y_num] in *. exists 0, num.
    repeat split; try lia.
    + rewrite F1. lra.
    + rewrite F1. lra.
    + intros led Hled. destruct (K led Hled). rewrite mix_one; cbn [y_num y_start y_end]; try lia. f_equal. lia.
    + intros F0. exfalso. rewrite F1 in F0. lra.
  - destruct (Qeq_bool fade 0) eqn:F0.
    + apply Qeq_bool_iff in F0. intros _. cbn [y_fade y_num] in *. exists 0, 0.
      repeat split; try lia.
      * rewrite F0. change (inject_Z 0) with 0%Q. lra.
      * rewrite F0. change (inject_Z 0) with 0%Q. lra.
      * intros led Hled. destruct (K led Hled). rewrite mix_one; cbn [y_num y_start y_end]; try lia; reflexivity.
      * intros F. exfalso. rewrite F0 in F. lra.
    + assert (N1 : ~ (fade == 1)%Q) by (intros F; apply Qeq_bool_iff in F; congruence).
      assert (N2 : ~ (fade == 0)%Q) by (intros F; apply Qeq_bool_iff in F; congruence).
      cbn [y_fade y_num]. intros [HF|[HF1 HF2]]; [contradiction|].
      set (pos := fract (y_pos c + _)%Q).
      destruct (fract_range (y_pos c + inject_Z (if u32 (us - y_last c) >? 1000000 then 1 else u32 (us - y_last c)) / 60000000 * (inject_Z r0 * (1 - fade) + inject_Z r1 * fade))%Q) as [P0 P1].
      fold pos in P0, P1. clearbody pos.
      destruct (fract_range (pos + fade)%Q) as [E0 E1].
      destruct (fract_floor (pos + fade)%Q) as [k Ek].
      set (q := fract (pos + fade)%Q) in *. clearbody q.
      assert (X0 : (0 <= pos * inject_Z num)%Q) by nra.
      assert (X1 : (0 <= q * inject_Z num)%Q) by nra.
      destruct (to_int_floor _ X0) as [FS S0]. destruct (to_int_floor _ X1) as [FE S1].
      set (s := to_int (pos * inject_Z num)%Q) in *. set (e := to_int (q * inject_Z num)%Q) in *.
      unfold PovSpec.floor_of in FS, FE. destruct FS as [FS1 FS2]. destruct FE as [FE1 FE2].
      assert (Ls : s < num) by (apply inject_lt_int; nra).
      assert (Le : e < num) by (apply inject_lt_int; nra).
      assert (M1 : (inject_Z (num - 1) == inject_Z num - 1)%Q)
        by (unfold Z.sub; rewrite inject_Z_plus; reflexivity).
      assert (FL : (fade < 1)%Q) by nra.
      assert (K0 : -1 < k) by (apply inject_lt_int; change (inject_Z (-1)) with (-1)%Q; nra).
      assert (K1 : k < 2) by (apply inject_lt_int; change (inject_Z 2) with 2%Q; nra).
      assert (D : (inject_Z (e - s) == inject_Z e - inject_Z s)%Q)
        by (unfold Z.sub; rewrite inject_Z_plus, inject_Z_opp; reflexivity).
      assert (Hk : k = 0 \/ k = 1) by lia. destruct Hk as [-> | ->].
      * change (inject_Z 0) with 0%Q in Ek.
        assert (Q1 : (q * inject_Z num == pos * inject_Z num + fade * inject_Z num)%Q) by (rewrite Ek; ring).
        assert (s <= e). { assert (s < e + 1); [|lia]. apply inject_lt_int. rewrite inject_Z_plus. change (inject_Z 1) with 1%Q. nra. }
        exists s, (e - s). repeat split; try lia.
        { rewrite D. lra. } { rewrite D. lra. }
        { intros led Hled. destruct (K led Hled). rewrite mix_one; cbn [y_num y_start y_end]; lia. }
        { intros F. contradiction. } { intros F. contradiction. }
      * change (inject_Z 1) with 1%Q in Ek.
        assert (Q1 : (q * inject_Z num == pos * inject_Z num + fade * inject_Z num - inject_Z num)%Q) by (rewrite Ek; ring).
        assert (e < s). { apply inject_lt_int. 
          assert (Z1 : (inject_Z e < inject_Z (s + 1))%Q) by (rewrite inject_Z_plus; change (inject_Z 1) with 1%Q; lra).
          apply inject_lt_int in Z1. rewrite <- Zlt_Qlt.
          assert (Z2 : e <> s) by (intros ->; lra). lia. }
        assert (D2 : (inject_Z (e - s + num) == inject_Z e - inject_Z s + inject_Z num)%Q)
          by (rewrite inject_Z_plus, D; reflexivity).
        exists s, (e - s + num). repeat split; try lia.
        { rewrite D2. lra. } { rewrite D2. lra. }
        { intros led Hled. destruct (K led Hled). rewrite mix_two_arcs; cbn [y_num y_start y_end]; lia. }
        { intros F. contradiction. } { intros F. contradiction. }
Qed.

(** Many frames. *)
Definition ylive (f0 : frame) (n : nat) (c : cyc) : Prop :=
  y_base c = Base false (now f0) (u32 (val f0 n)).
Definition ontime (f0 : frame) (n : nat) (fs : list (frame * Z)) : Prop :=
  Forall (fun fu => since (now f0) (now (fst fu)) <= u32 (val f0 n)) fs.

Lemma run_fade : forall r0 r1 f us m c,
  let r := b_updateq f m (b_run f m (y_base c)) in
  y_fade (y_run r0 r1 f us m c) = snd r /\ y_base (y_run r0 r1 f us m c) = fst r /\
  y_last (y_run r0 r1 f us m c) = us.
Proof.
  intros. unfold r, y_run. destruct (b_updateq _ _ _) as [b fade].
  destruct (Qeq_bool fade 1); [|destruct (Qeq_bool fade 0)]; repeat split; reflexivity.
Qed.
Lemma y_next : forall r0 r1 f0 n f us c, ylive f0 n c -> 0 < u32 (val f0 n) ->
  since (now f0) (now f) <= u32 (val f0 n) ->
  let c' := y_run r0 r1 f us (Plain n) c in
  ylive f0 n c' /\ y_fade c' = (inject_Z (since (now f0) (now f)) / inject_Z (u32 (val f0 n)))%Q.
Proof.
  intros r0 r1 f0 n f us c L HL HT c'. destruct (run_fade r0 r1 f us (Plain n) c) as (F & B & _).
  unfold c', ylive. rewrite F, B. unfold ylive in L. rewrite L. unfold b_run. cbn [restart].
  unfold b_updateq, b_done. cbn [len start restart]. replace (u32 (val f0 n) =? 0) with false by lia.
  rewrite u32_since. cbv zeta. replace (since (now f0) (now f) >? u32 (val f0 n)) with false by lia.
  split; reflexivity.
Qed.
Lemma y_first : forall r0 r1 f0 n us c, 0 < u32 (val f0 n) ->
  let c' := y_run r0 r1 f0 us (Plain n) (y_begin c) in
  ylive f0 n c' /\ y_fade c' = (inject_Z 0 / inject_Z (u32 (val f0 n)))%Q.
Proof.
  intros r0 r1 f0 n us c HL c'. destruct (run_fade r0 r1 f0 us (Plain n) (y_begin c)) as (F & B & _).
  unfold c', ylive. rewrite F, B. unfold y_begin, b_begin, b_run. cbn [y_base restart ms_value].
  unfold b_updateq, b_done. cbn [len start restart]. replace (u32 (val f0 n) =? 0) with false by lia.
  rewrite u32_since, since_self. cbv zeta. replace (0 >? u32 (val f0 n)) with false by lia.
  split; reflexivity.
Qed.
Lemma y_runs_app : forall r0 r1 m fs gs c, y_runs r0 r1 m c (fs ++ gs) = y_runs r0 r1 m (y_runs r0 r1 m c fs) gs.
Proof. intros r0 r1 m fs. induction fs as [|[f us] fs IH]; intros gs c; cbn [app y_runs]; auto. Qed.
Lemma y_mid : forall r0 r1 f0 n fs c, ylive f0 n c -> 0 < u32 (val f0 n) -> ontime f0 n fs ->
  ylive f0 n (y_runs r0 r1 (Plain n) c fs).
Proof.
  intros r0 r1 f0 n fs. induction fs as [|[f us] fs IH]; intros c L HL HT; cbn [y_runs]; auto.
  inversion HT as [|? ? H1 H2]; subst. apply IH; auto. apply y_next; auto.
Qed.

Lemma fade_gap : forall t L num, 0 <= t <= L -> 0 < L <= num ->
  let fade := (inject_Z t / inject_Z L)%Q in
  (fade == 1 \/ (0 <= fade /\ fade * inject_Z num <= inject_Z (num - 1)))%Q.
Proof.
  intros t L num HT HL fade. assert (L0 : (0 < inject_Z L)%Q) by (change 0%Q with (inject_Z 0); rewrite <- Zlt_Qlt; lia).
  assert (F : (fade * inject_Z L == inject_Z t)%Q) by (unfold fade; field; lra).
  assert (T0 : (0 <= inject_Z t)%Q) by (change 0%Q with (inject_Z 0); rewrite <- Zle_Qle; lia).
  destruct (Z.eq_dec t L) as [->|N].
  - left. unfold fade. field. lra.
  - right. split; [nra|].
    assert (T1 : (inject_Z t <= inject_Z L - 1)%Q).
    { assert (t <= L - 1) by lia. assert (Q1 : (inject_Z t <= inject_Z (L - 1))%Q) by (rewrite <- Zle_Qle; lia).
      unfold Z.sub in Q1. rewrite inject_Z_plus in Q1. change (inject_Z (-(1))) with (-1)%Q in Q1. lra. }
    assert (N1 : (inject_Z L <= inject_Z num)%Q) by (rewrite <- Zle_Qle; lia).
    unfold Z.sub. rewrite inject_Z_plus. change (inject_Z (-(1))) with (-1)%Q.
    assert (G : ((1 - fade) * inject_Z L >= 1)%Q) by lra.
    assert (H : (fade <= 1)%Q) by nra.
    assert (G2 : (0 <= (1 - fade) * (inject_Z num - inject_Z L))%Q) by (apply Qmult_le_0_compat; lra).
    lra.
Qed.

(** Positions. *)
Lemma pos_turn : forall r f us m c, same_turn (y_pos (y_run r r f us m c))
  (y_pos c + inject_Z (if u32 (us - y_last c) >? 1000000 then 1 else u32 (us - y_last c)) * inject_Z r / 60000000)%Q.
Proof.
  intros r f us m c. unfold y_run. destruct (b_updateq _ _ _) as [b fade].
  assert (G : forall d, same_turn (fract (y_pos c + inject_Z d / 60000000 * (inject_Z r * (1 - fade) + inject_Z r * fade)))%Q
     (y_pos c + inject_Z d * inject_Z r / 60000000)%Q).
  { intros d. unfold same_turn, fract. eexists (- Qfloor _). rewrite inject_Z_opp. 
    match goal with |- (_ - inject_Z ?k == _)%Q => set (kk := k) end.
    instantiate (1 := (y_pos c + inject_Z d / 60000000 * (inject_Z r * (1 - fade) + inject_Z r * fade))%Q).
    subst kk. field. }
  destruct (Qeq_bool fade 1); [|destruct (Qeq_bool fade 0)]; cbn [y_pos]; apply G.
Qed.
Lemma turns_total : forall r m fs c, no_gap (y_last c) (map snd fs) ->
  same_turn (y_pos (y_runs r r m c fs))
    (y_pos c + inject_Z (us_total (y_last c) (map snd fs)) * inject_Z r / 60000000)%Q.
Proof.
  intros r m fs. induction fs as [|[f us] fs IH]; intros c H; cbn [y_runs map snd us_total no_gap] in *.
  - exists 0. change (inject_Z 0) with 0%Q. field.
  - destruct H as [H1 H2]. destruct (run_fade r r f us m c) as (_ & _ & EL).
    destruct (IH (y_run r r f us m c)) as [k Ek]. { rewrite EL. exact H2. }
    rewrite EL in Ek. destruct (pos_turn r f us m c) as [j Ej].
    rewrite u32_since in Ej. replace (since (y_last c) us >? 1000000) with false in Ej by lia.
    exists (k + j). rewrite Ek, Ej, !inject_Z_plus. field.
Qed.

(** ** Together *)

Definition frames_ok (f0 : frame) (n : nat) (fs : list frame) (f : frame) : Prop :=
  0 < u32 (val f0 n) < 131072 /\ 0 < val f0 3%nat <= 2147483647 /\ timely f0 n (fs ++ [f]).
Definition sizes_ok (f0 f : frame) (way : Z) : Prop :=
  leds f <= 65535 /\ 0 <= val f0 1%nat <= 32768 /\ 0 <= val f0 2%nat /\
  0 <= way <= 2000000000 /\ (way + 32768) * val f0 2%nat <= 2147483647.

Lemma wave_state : forall f0 n fs f w, frames_ok f0 n fs f ->
  let way := travelled (since (now f0) (now f)) (val f 3%nat) in sizes_ok f0 f way ->
  exists w', wave_runs (Plain n) (w_begin w) (f0 :: fs ++ [f]) = Some w' /\
    w_mix w' = 32768 - share (since (now f0) (now f)) (u32 (val f0 n)) /\ 0 <= w_mix w' <= 32768 /\
    w_leds w' = leds f /\ w_center w' = val f0 1%nat /\ w_size w' = val f0 2%nat /\ w_offset w' = way /\
    forall led, 0 <= led < leds f -> sane w' led.
Proof.
  intros f0 n fs f w (HL & HM & HT) way (S1 & S2 & S3 & S4 & S5).
  destruct (wave_at f0 n fs f w HL HM HT) as (w' & E & (B & C & Z0) & M & D & O).
  fold way in O. rewrite i32_id in O by lia.
  assert (T : since (now f0) (now f) <= u32 (val f0 n)).
  { unfold timely in HT. rewrite Forall_app in HT. destruct HT as [_ T]. inversion T; tauto. }
  pose proof (since_range (now f0) (now f)) as R.
  assert (Q : 0 <= share (since (now f0) (now f)) (u32 (val f0 n)) <= 32768).
  { unfold share. split; [apply Z.div_pos; lia|]. apply Z.div_le_upper_bound; lia. }
  exists w'. repeat split; auto; try lia. all: rewrite ?D, ?C, ?Z0, ?O; lia.
Qed.

Lemma mix_front : forall w led, sane w led -> 0 <= w_mix w <= 32768 ->
  from_front (w_leds w) (w_center w) (w_offset w) led * w_size w < 2 * 32768 ->
  wave_mix w led = Some (255 * w_mix w / 256).
Proof.
  intros w led H M F. destruct (dist_sane w led H) as [E R]. unfold wave_mix. rewrite E. cbn [ibind].
  destruct H as (H1 & H2 & H3 & H4 & H5 & H6). set (e := from_front _ _ _ _) in *.
  assert (P : 0 <= e * w_size w) by (apply Z.mul_nonneg_nonneg; lia).
  assert (D : 0 <= e * w_size w / 32768) by (apply Z.div_pos; lia).
  assert (D2 : e * w_size w / 32768 < 2) by (apply Z.div_lt_upper_bound; lia).
  replace (e * w_size w / 32768 <? 32) with true by lia.
  replace (e * w_size w / 32768 <? 0) with false by lia.
  assert (K : e * w_size w / 32768 = 0 \/ e * w_size w / 32768 = 1) by lia.
  destruct K as [-> | ->]; cbn [Z.to_nat Pos.to_nat nth_error blast_hump ibind];
    [|change (Pos.to_nat 1) with 1%nat; cbn [nth_error blast_hump ibind]];
    rewrite Z.shiftr_div_pow2 by lia; reflexivity.
Qed.

(** The speed goes evenly from the one to the other. *)
Lemma pos_speed : forall r0 r1 f us m c, since (y_last c) us <= 1000000 ->
  same_turn (y_pos (y_run r0 r1 f us m c))
    (y_pos c + inject_Z (since (y_last c) us) *
       (inject_Z r0 * (1 - y_fade (y_run r0 r1 f us m c)) + inject_Z r1 * y_fade (y_run r0 r1 f us m c)) / 60000000)%Q.
Proof.
  intros r0 r1 f us m c H. destruct (run_fade r0 r1 f us m c) as (F & _). rewrite F. clear F.
  unfold y_run. destruct (b_updateq _ _ _) as [b fade]. cbn [snd]. rewrite u32_since.
  replace (since (y_last c) us >? 1000000) with false by lia.
  assert (G : same_turn (fract (y_pos c + inject_Z (since (y_last c) us) / 60000000 * (inject_Z r0 * (1 - fade) + inject_Z r1 * fade)))%Q
     (y_pos c + inject_Z (since (y_last c) us) * (inject_Z r0 * (1 - fade) + inject_Z r1 * fade) / 60000000)%Q).
  { exists (- Qfloor (y_pos c + inject_Z (since (y_last c) us) / 60000000 * (inject_Z r0 * (1 - fade) + inject_Z r1 * fade))%Q).
    unfold fract. rewrite inject_Z_opp. field. }
  destruct (Qeq_bool fade 1); [|destruct (Qeq_bool fade 0)]; cbn [y_pos]; apply G.
Qed.
