(** Lemmas about mixing and volume. *)
From Coq Require Import ZArith List Bool Lia ZifyBool ZifyNat.
From Verif Require Import Machine ArithModel ArithProofs MixModel MixSpec.
Import ListNotations.
Open Scope Z_scope.

Lemma clamp_clip x : clamptoi16 x = clip16 x.
Proof. unfold clamptoi16, clampi32, clip16. destruct (Z.ltb_spec x (-32768)); destruct (Z.gtb_spec x 32767); lia. Qed.
Lemma clip_range x : sample (clip16 x). Proof. unfold sample, clip16. lia. Qed.
Lemma louder_eq w : 0 <= w -> w - (w + 255) / 256 = w * 255 / 256.
Proof.
  intros W. pose proof (Z.div_mod w 256 ltac:(lia)) as D. pose proof (Z.mod_pos_bound w 256 ltac:(lia)) as B. set (q := w / 256) in *. set (r := w mod 256) in *.
  replace (w + 255) with (r + 255 + q * 256) by lia. rewrite Z.div_add by lia. replace (w * 255) with (r * 255 + 255 * q * 256) by lia. rewrite Z.div_add by lia.
  assert (E : (r + 255) / 256 = r - r * 255 / 256); [|lia].
  destruct (Z.eq_dec r 0) as [->|NZ]; [reflexivity|]. replace (r * 255) with (256 - r + (r - 1) * 256) by lia. rewrite Z.div_add by lia. rewrite (Z.div_small (256 - r)) by lia.
  replace (r + 255) with (r - 1 + 1 * 256) by lia. rewrite Z.div_add, (Z.div_small (r - 1)) by lia. lia.
Qed.
Definition level_ok (M l : Z) : Prop := 0 <= l <= 255 * M.
Lemma louder_ok M l v : 0 <= M -> level_ok M l -> Z.abs v <= M -> level_ok M (louder l v).
Proof. unfold level_ok, louder. intros. split; [apply Z.div_pos; lia|]. apply Z.div_le_upper_bound; lia. Qed.
Lemma quot_sgn a b : 0 < b -> Z.quot a b = Z.sgn a * (Z.abs a / b).
Proof. intros B. rewrite Z.quot_div by lia. rewrite (Z.sgn_pos b) by lia. rewrite (Z.abs_eq b) by lia. lia. Qed.
Lemma mix_step_ok volume M l q v : 0 <= M -> 255 * M < 536870912 -> M * Z.abs volume <= 2147483647 -> level_ok M l -> 0 <= q <= 46340 -> Z.abs v <= M ->
  exists q', 0 <= q' <= 46340 /\
  mix_step volume (Mixer l q) v = Some (Mixer (louder l v) q', clip16 (Z.sgn (v * volume) * (Z.abs (v * volume) / (Z.sqrt (louder l v) + 100)))).
Proof.
  intros M0 M1 MV L Q V. unfold mix_step. cbn [vol last_square]. pose proof (louder_ok M l v M0 L V) as LL. unfold level_ok in *.
  assert (I1 : int_ok (- v) = true) by (unfold int_ok; lia). rewrite I1. cbn [negb].
  assert (E : (((l + Z.abs v) mod 4294967296) - ((l + Z.abs v) mod 4294967296 + 255) mod 4294967296 / 256) mod 4294967296 = louder l v).
  { rewrite (Z.mod_small (l + Z.abs v)) by lia. rewrite (Z.mod_small (l + Z.abs v + 255)) by lia. rewrite louder_eq by lia. fold (louder l v). apply Z.mod_small. lia. }
  rewrite E. replace ((louder l v + 2147483648) mod 4294967296 - 2147483648) with (louder l v) by (rewrite Z.mod_small; lia).
  rewrite my_sqrt_ok by lia. assert (I2 : int_ok (v * volume) = true). { assert (Z.abs (v * volume) <= 2147483647) by (rewrite Z.abs_mul; nia). unfold int_ok. lia. }
  rewrite I2. cbn [negb]. exists (my_sqrt_last q (louder l v)). split.
  - unfold my_sqrt_last. destruct (louder l v <=? 0); [exact Q|]. rewrite my_sqrt_ok by lia. apply sqrt_small. lia.
  - rewrite clamp_clip, quot_sgn; [reflexivity|]. pose proof (Z.sqrt_nonneg (louder l v)). lia.
Qed.
Lemma mix_all_ok volume M vs : 0 <= M -> 255 * M < 536870912 -> M * Z.abs volume <= 2147483647 -> Forall (fun v => Z.abs v <= M) vs -> forall l q, level_ok M l -> 0 <= q <= 46340 ->
  exists l' q', mix_all volume (Mixer l q) vs = Some (Mixer l' q', mixed volume l vs) /\ level_ok M l' /\ 0 <= q' <= 46340 /\ l' = fold_left louder vs l.
Proof.
  intros M0 M1 MV. induction vs as [|v vs IH]; intros F l q L Q; cbn [mix_all mixed fold_left].
  - exists l, q. auto.
  - inversion F; subst. destruct (mix_step_ok volume M l q v) as (q' & Q' & E); auto. rewrite E. destruct (IH ltac:(assumption) (louder l v) q' (louder_ok M l v M0 L ltac:(assumption)) Q') as (l2 & q2 & E2 & L2 & Q2 & EQ).
    rewrite E2. exists l2, q2. auto.
Qed.
Lemma mixed_app volume a b : forall l, mixed volume l (a ++ b) = mixed volume l a ++ mixed volume (fold_left louder a l) b.
Proof. induction a as [|v a IH]; intros l; cbn [app mixed fold_left]; [reflexivity|]. rewrite IH. reflexivity. Qed.
Lemma sum_total ss i : sum_at ss i = total ss i.
Proof. unfold sum_at. induction ss; cbn; [reflexivity|]. rewrite IHss. reflexivity. Qed.
Lemma total_bound ss i : Forall (Forall sample) ss -> Z.abs (total ss i) <= 32768 * Z.of_nat (length ss).
Proof.
  induction 1 as [|s ss S F IH]; cbn [total length]; [lia|].
  assert (sample (nth i s 0)). { destruct (Nat.lt_ge_cases i (length s)); [apply (proj1 (Forall_forall _ _) S), nth_In; assumption|]. rewrite nth_overflow by lia. unfold sample. lia. }
  unfold sample in *. lia.
Qed.

(** ** Ramps *)
Lemma advance_after c t s k : 0 <= s -> advance (Ramp (volume_after c t s k) t s) = Ramp (volume_after c t s (S k)) t s.
Proof.
  intros S0. unfold advance, volume_after. cbn [current target speed]. replace (Z.of_nat (S k)) with (Z.of_nat k + 1) by lia. set (j := Z.of_nat k). assert (0 <= j) by (unfold j; lia). clearbody j.
  destruct (Z.leb_spec c t).
  - destruct (Z.gtb_spec (Z.min t (c + j * s)) t); [lia|]. destruct (Z.ltb_spec (Z.min t (c + j * s)) t); f_equal; nia.
  - destruct (Z.gtb_spec (Z.max t (c - j * s)) t); [f_equal; nia|]. destruct (Z.ltb_spec (Z.max t (c - j * s)) t); [lia|]. f_equal. nia.
Qed.
Lemma after_0 c t s : volume_after c t s 0 = c.
Proof. unfold volume_after. cbn. destruct (Z.leb_spec c t); lia. Qed.
Lemma after_range c t s k : 0 <= s -> 0 <= c <= 65535 -> 0 <= t <= 65535 -> 0 <= volume_after c t s k <= 65535.
Proof. unfold volume_after. intros. destruct (Z.leb_spec c t); nia. Qed.
Lemma scaled_ok x g : sample x -> 0 <= g <= 65535 -> scaled x g = Some (scaled_by x g).
Proof. intros X G. unfold scaled. assert (I : int_ok (x * g) = true) by (unfold int_ok, sample in *; nia). rewrite I, clamp_clip. reflexivity. Qed.
Lemma ramp_samples_ok c t s xs : 0 <= s -> 0 <= c <= 65535 -> 0 <= t <= 65535 -> Forall sample xs -> forall k,
  ramp_samples (Ramp (volume_after c t s k) t s) xs = Some (Ramp (volume_after c t s (k + length xs)) t s, ramped c t s k xs).
Proof.
  intros S0 C T. induction 1 as [|x xs X F IH]; intros k; cbn [ramp_samples ramped length].
  - rewrite Nat.add_0_r. reflexivity.
  - cbn [current]. rewrite scaled_ok by (auto; apply after_range; auto). rewrite advance_after by exact S0. rewrite IH. rewrite Nat.add_succ_r. reflexivity.
Qed.
Lemma const_samples_ok g xs : 0 <= g <= 65535 -> Forall sample xs -> const_samples g xs = Some (map (fun x => scaled_by x g) xs).
Proof. intros G. induction 1 as [|x xs X F IH]; cbn [const_samples map]; [reflexivity|]. rewrite scaled_ok by assumption. rewrite IH. reflexivity. Qed.
Lemma after_const t s k : volume_after t t s k = Z.min t (t + Z.of_nat k * s). Proof. unfold volume_after. rewrite Z.leb_refl. reflexivity. Qed.
Lemma ramped_const c t s xs : 0 <= s -> forall k, volume_after c t s k = t -> ramped c t s k xs = map (fun x => scaled_by x t) xs.
Proof.
  intros S0. induction xs as [|x xs IH]; intros k E; cbn [ramped map]; [reflexivity|]. rewrite E. f_equal. apply IH.
  revert E. unfold volume_after. replace (Z.of_nat (S k)) with (Z.of_nat k + 1) by lia. destruct (Z.leb_spec c t); nia.
Qed.
Lemma after_stays c t s k j : 0 <= s -> volume_after c t s k = t -> volume_after c t s (k + j) = t.
Proof. intros S0 E. revert E. unfold volume_after. rewrite Nat2Z.inj_add. destruct (Z.leb_spec c t); nia. Qed.
Lemma scaled_full x : sample x -> scaled_by x 16384 = x.
Proof. intros X. unfold scaled_by. rewrite Z.div_mul by lia. unfold clip16, sample in *. lia. Qed.
Lemma scaled_zero x : scaled_by x 0 = 0. Proof. unfold scaled_by. rewrite Z.mul_0_r. reflexivity. Qed.
(** One block: whatever branch is taken, the samples follow the ramp. *)
Lemma ov_read_ok c t s k stop xs : 0 <= s -> 0 <= c <= 65535 -> 0 <= t <= 65535 -> Forall sample xs ->
  exists o' halted, ov_read (Overlay (Ramp (volume_after c t s k) t s) stop) xs = Some (o', ramped c t s k xs, halted) /\
    halted = (stop && (t =? 0) && (volume_after c t s k =? 0)) /\
    stop_when_zero o' = stop /\ target (ov_ramp o') = t /\ current (ov_ramp o') = volume_after c t s (k + length xs) /\ (halted = false -> speed (ov_ramp o') = s).
Proof.
  intros S0 C T F. unfold ov_read, isConstant. cbn [ov_ramp current target stop_when_zero]. set (g := volume_after c t s k) in *.
  pose proof (after_range c t s k S0 C T) as G. fold g in G.
  destruct (Z.eqb_spec g t) as [E|E].
  - assert (RC : ramped c t s k xs = map (fun x => scaled_by x t) xs) by (apply ramped_const; [exact S0|exact E]).
    assert (AF : volume_after c t s (k + length xs) = t) by (apply after_stays; assumption).
    rewrite RC, AF. destruct (Z.eqb_spec g kMaxVolume) as [E1|E1].
    + eexists _, _. split; [f_equal; f_equal; f_equal|].
      { rewrite <- E, E1. symmetry. rewrite <- (map_id xs) at 2. apply map_ext_in. intros x I. apply scaled_full. apply (proj1 (Forall_forall _ _) F). exact I. }
      unfold kMaxVolume in E1. cbn. repeat split; auto. replace (g =? 0) with false by lia. rewrite andb_false_r. reflexivity.
    + destruct (Z.eqb_spec g 0) as [E2|E2].
      * assert (Z0 : map (fun _ => 0) xs = map (fun x => scaled_by x t) xs) by (apply map_ext; intros; rewrite <- E, E2, scaled_zero; reflexivity).
        destruct stop; eexists _, _; (split; [rewrite Z0; reflexivity|]); cbn; repeat split; auto; try (intros; discriminate). replace (t =? 0) with true by lia. reflexivity.
      * rewrite const_samples_ok by auto. eexists _, _. split; [rewrite E; reflexivity|]. cbn. repeat split; auto. rewrite andb_false_r. reflexivity.
  - unfold g. rewrite ramp_samples_ok by assumption. eexists _, _. split; [reflexivity|]. cbn [stop_when_zero target ov_ramp current speed]. repeat split; auto. fold g. destruct (Z.eqb_spec t 0); [|rewrite andb_false_r; reflexivity]. replace (g =? 0) with false by lia. rewrite andb_false_r. reflexivity.
Qed.
Lemma ramped_app c t s a b : forall k, ramped c t s k (a ++ b) = ramped c t s k a ++ ramped c t s (k + length a) b.
Proof. induction a as [|x a IH]; intros k; cbn [app ramped length]; [rewrite Nat.add_0_r; reflexivity|]. rewrite IH, Nat.add_succ_r. reflexivity. Qed.
(** Which blocks stop the stream: those that begin when the volume has reached zero. *)
Fixpoint stops (stop : bool) (c t s : Z) (k : nat) (bs : list (list Z)) : list bool :=
  match bs with [] => [] | b :: bs => (stop && (t =? 0) && (volume_after c t s k =? 0)) :: stops stop c t s (k + length b) bs end.
Fixpoint outs (c t s : Z) (k : nat) (bs : list (list Z)) : list (list Z) :=
  match bs with [] => [] | b :: bs => ramped c t s k b :: outs c t s (k + length b) bs end.
Lemma blocks_ok c t s bs : 0 <= s -> 0 <= c <= 65535 -> 0 <= t <= 65535 -> Forall (Forall sample) bs -> forall k stop o,
  target (ov_ramp o) = t -> current (ov_ramp o) = volume_after c t s k -> stop_when_zero o = stop -> (speed (ov_ramp o) = s \/ (0 <= speed (ov_ramp o) /\ volume_after c t s k = t)) ->
  exists o', blocks o bs = Some (o', combine (outs c t s k bs) (stops stop c t s k bs)).
Proof.
  intros S0 C T. induction 1 as [|b bs B F IH]; intros k stop o OT OC OS OV; cbn [blocks outs stops combine]; [eexists; reflexivity|].
  destruct o as [[cu ta sp] st]. cbn [ov_ramp current target speed stop_when_zero] in *. subst ta cu st.
  destruct OV as [->|(SP & E)].
  - destruct (ov_read_ok c t s k stop b S0 C T B) as (o' & h & R & H & P1 & P2 & P3 & P4). rewrite R.
    destruct (IH (k + length b)%nat stop o' P2 P3 P1) as (o2 & R2).
    { destruct h eqn:EH; [|left; apply P4; reflexivity]. right. assert (ZZ : volume_after c t s k = t) by lia. split; [|apply after_stays; assumption].
      (* the speed is the default or s *) destruct (ov_read (Overlay (Ramp (volume_after c t s k) t s) stop) b) as [[[o3 y3] h3]|] eqn:R3; [|discriminate]. injection R as -> -> ->.
      revert R3. unfold ov_read, isConstant. cbn [ov_ramp current target stop_when_zero]. rewrite ZZ, Z.eqb_refl. destruct (t =? kMaxVolume); [intros X; injection X as <- _ ?; cbn; lia|]. destruct (t =? 0); [destruct stop; intros X; injection X as <- _; cbn; unfold kDefaultSpeed; lia|]. destruct (const_samples t b); intros X; [injection X as <- _ ?; cbn; lia|discriminate]. }
    rewrite R2, H. eexists. reflexivity.
  - (* the target has been reached: read with the other speed *)
    destruct (ov_read_ok t t sp 0 stop b SP T T B) as (o' & h & R & H & P1 & P2 & P3 & P4). rewrite after_0 in R, H. rewrite E, R.
    assert (RR : ramped t t sp 0 b = ramped c t s k b). { rewrite (ramped_const t t sp b SP 0) by apply after_0. rewrite (ramped_const c t s b S0 k E). reflexivity. }
    assert (A0 : volume_after t t sp (0 + length b) = t) by (apply after_stays; [exact SP|apply after_0]).
    destruct (IH (k + length b)%nat stop o' P2) as (o2 & R2).
    { rewrite P3, A0. symmetry. apply after_stays; assumption. }
    { exact P1. }
    { right. split; [|apply after_stays; assumption]. revert R. unfold ov_read, isConstant. cbn [ov_ramp current target stop_when_zero]. rewrite Z.eqb_refl.
      destruct (t =? kMaxVolume); [intros X; injection X as <- _ ?; cbn; lia|]. destruct (t =? 0); [destruct stop; intros X; injection X as <- _; cbn; unfold kDefaultSpeed; lia|]. destruct (const_samples t b); intros X; [injection X as <- _ ?; cbn; lia|discriminate]. }
    rewrite R2, RR, H. eexists. reflexivity.
Qed.
Lemma outs_concat c t s bs : forall k, concat (outs c t s k bs) = ramped c t s k (concat bs).
Proof. induction bs as [|b bs IH]; intros k; cbn [outs concat]; [reflexivity|]. rewrite ramped_app, IH. reflexivity. Qed.
Lemma outs_stops_length c t s stop bs : forall k, length (outs c t s k bs) = length (stops stop c t s k bs).
Proof. induction bs as [|b bs IH]; intros k; cbn; [reflexivity|]. rewrite (IH (k + length b)%nat). reflexivity. Qed.
Lemma map_fst_combine {A B} (a : list A) (b : list B) : length a = length b -> map fst (combine a b) = a.
Proof. revert b; induction a as [|x a IH]; intros [|y b] L; try discriminate; cbn; [reflexivity|]. rewrite IH; [reflexivity|]. cbn in L. lia. Qed.

(** Any history of reads and volume changes. *)
Fixpoint history (o : overlay) (ps : list ov_op) : option (overlay * list (list Z * bool)) :=
  match ps with
  | [] => Some (o, [])
  | ORead xs :: ps => match ov_read o xs with
                      | None => None
                      | Some (o, ys, stop) => match history o ps with None => None | Some (o, r) => Some (o, (ys, stop) :: r) end
                      end
  | p :: ps => history (ov_set o p) ps
  end.
Definition op_ok (p : ov_op) : Prop :=
  match p with
  | ORead xs => Forall sample xs
  | OVolume v | OVolumeNow v => 0 <= v <= 65535
  | OSpeed v => 0 <= v
  | _ => True
  end.
Definition ov_ok (o : overlay) : Prop := 0 <= current (ov_ramp o) <= 65535 /\ 0 <= target (ov_ramp o) <= 65535 /\ 0 <= speed (ov_ramp o).
Lemma ramped_length c t s xs : forall k, length (ramped c t s k xs) = length xs.
Proof. induction xs; intros; cbn; [reflexivity|]. rewrite IHxs. reflexivity. Qed.
Lemma ramped_range c t s xs : forall k, Forall sample (ramped c t s k xs).
Proof. induction xs; intros; cbn; constructor; auto. apply clip_range. Qed.
Lemma ov_read_speed o xs o' ys h : ov_read o xs = Some (o', ys, h) -> speed (ov_ramp o') = speed (ov_ramp o) \/ speed (ov_ramp o') = kDefaultSpeed.
Proof.
  unfold ov_read. destruct o as [[c t s] st]. cbn [ov_ramp current stop_when_zero target speed]. destruct (isConstant _).
  - destruct (c =? kMaxVolume); [intros X; injection X as <- _ _; auto|]. destruct (c =? 0); [destruct st; intros X; injection X as <- _ _; auto|]. destruct (const_samples c xs); intros X; [injection X as <- _ _; auto|discriminate].
  - assert (RS : forall r r' l, ramp_samples r xs = Some (r', l) -> speed r' = speed r).
    { induction xs as [|x xs IH]; intros r r' l; cbn [ramp_samples]; [intros X; injection X as <- _; reflexivity|]. destruct (scaled x (current r)); [|discriminate]. destruct (ramp_samples (advance r) xs) as [[r2 l2]|] eqn:E; [|discriminate]. intros X; injection X as <- _. rewrite (IH _ _ _ E). unfold advance. destruct (_ >? _); [reflexivity|]. destruct (_ <? _); reflexivity. }
    destruct (ramp_samples _ xs) as [[r2 l2]|] eqn:E; [|discriminate]. intros X; injection X as <- _ _. left. apply (RS _ _ _ E).
Qed.
Lemma ov_read_keeps o xs : ov_ok o -> Forall sample xs ->
  exists o' h, ov_read o xs = Some (o', ramped (current (ov_ramp o)) (target (ov_ramp o)) (speed (ov_ramp o)) 0 xs, h) /\ ov_ok o' /\
    current (ov_ramp o') = volume_after (current (ov_ramp o)) (target (ov_ramp o)) (speed (ov_ramp o)) (length xs) /\ target (ov_ramp o') = target (ov_ramp o).
Proof.
  destruct o as [[c t s] st]. unfold ov_ok. cbn [ov_ramp current target speed]. intros (C & T & S0) F.
  destruct (ov_read_ok c t s 0 st xs S0 C T F) as (o' & h & R & _ & _ & P2 & P3 & _). rewrite after_0 in R. exists o', h. split; [exact R|]. cbn [plus] in P3. rewrite P2, P3. split; [|auto]. split; [apply after_range; auto|]. split; [exact T|].
  destruct (ov_read_speed _ _ _ _ _ R) as [->| ->]; cbn; unfold kDefaultSpeed; lia.
Qed.
Lemma history_ok ps : forall o, ov_ok o -> Forall op_ok ps -> exists o' rs, history o ps = Some (o', rs) /\ ov_ok o' /\ Forall (fun r => Forall sample (fst r)) rs.
Proof.
  induction ps as [|p ps IH]; intros o OK F; cbn [history]; [exists o, []; auto|]. inversion F as [|? ? P F']; subst.
  destruct p; try (apply IH; [|exact F']; revert OK P; destruct o as [[c t s] st]; unfold ov_ok; cbn [ov_set ov_ramp current target speed op_ok]; intros OK P; try (rewrite Z.mod_small by lia); unfold kDefaultSpeed; intuition lia).
  destruct (ov_read_keeps o xs OK P) as (o' & h & R & OK' & _). rewrite R. destruct (IH o' OK' F') as (o2 & rs & E & OK2 & FS). rewrite E. eexists o2, (_ :: rs). split; [reflexivity|]. split; [exact OK2|]. constructor; [apply ramped_range|exact FS].
Qed.
Lemma history_blocks bs : forall o, history o (map ORead bs) = blocks o bs.
Proof. induction bs as [|b bs IH]; intros o; cbn; [reflexivity|]. destruct (ov_read o b) as [[[o' ys] st]|]; [|reflexivity]. rewrite IH. reflexivity. Qed.
