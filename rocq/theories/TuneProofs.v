From Coq Require Import ZArith QArith List Bool Lia Lqa ZifyBool.
From Verif Require Import ArithModel ArithProofs TuneModel TuneSpec.
Import ListNotations.
Local Open Scope Z_scope.

Definition at_pos (s : lens) (p : Z) : lens := Lens (mem s) (disk s) (card s) (leds s) (made s) (saved_len s) p.

Lemma turned_spec blades b s d n : 1 <= b <= blades -> leds s b = n -> 1 <= n <= 65535 ->
  turned blades b s d = Some (at_pos s ((pos s + (if d then 1 else -1)) mod n)).
Proof.
  intros B L N. unfold turned, size, GetMaxBladeLength, is_blade.
  replace ((1 <=? b) && (b <=? blades)) with true by lia. rewrite L.
  assert (U : u16 n = n) by (unfold u16; apply Z.mod_small; lia). rewrite U.
  destruct (Z.eqb_spec n 0); [lia|]. unfold at_pos. do 2 f_equal. rewrite MOD_correct by lia.
  replace (if d then pos s + 1 else pos s - 1) with (pos s + (if d then 1 else -1)) by (destruct d; lia).
  unfold u16. apply Z.mod_small. pose proof (Z.mod_pos_bound (pos s + (if d then 1 else -1)) n ltac:(lia)). lia.
Qed.
Lemma turns_spec blades b n : 1 <= b <= blades -> 1 <= n <= 65535 ->
  forall l s, leds s b = n -> exists p, turns blades b s l = Some (at_pos s p) /\
    (0 <= pos s < n -> p = (pos s + net l) mod n) /\
    (l <> [] -> p = (pos s + net l) mod n) /\ (l = [] -> p = pos s).
Proof.
  intros B N. induction l as [|d l IH]; intros s L.
  - exists (pos s). cbn [turns net fold_right]. split; [destruct s; reflexivity|]. split; [|split; [congruence|reflexivity]].
    intros P. rewrite Z.add_0_r. symmetry. apply Z.mod_small. lia.
  - cbn [turns]. rewrite (turned_spec blades b s d n B L N).
    destruct (IH (at_pos s ((pos s + (if d then 1 else -1)) mod n)) L) as (p & E & P1 & _). exists p.
    assert (R : p = (pos s + net (d :: l)) mod n).
    { rewrite P1 by (cbn [pos at_pos]; apply Z.mod_pos_bound; lia). cbn [pos at_pos net fold_right]. fold (net l).
      rewrite Zplus_mod_idemp_l. f_equal. lia. }
    split; [rewrite E; reflexivity|]. split; [intros _; exact R|]. split; [intros _; exact R|discriminate].
Qed.
Lemma upd_same f i v : upd f i v i = v.
Proof. unfold upd. rewrite Z.eqb_refl. reflexivity. Qed.
Lemma upd_other f i v j : j <> i -> upd f i v j = f j.
Proof. unfold upd. intros H. destruct (Z.eqb_spec j i); [contradiction|reflexivity]. Qed.

Lemma activate_spec blades b s : 1 <= b <= blades ->
  let s1 := activate blades b s in
  saved_len s1 = mem s b /\ pos s1 = u16 (real (leds s b) (mem s b) - 1) /\ disk s1 = disk s /\ card s1 = card s /\
  leds s1 = leds s /\ made s1 = made s /\ mem s1 = upd (mem s) b (leds s b).
Proof.
  intros B. unfold activate, SetBladeLength, GetBladeLength, GetMaxBladeLength, is_blade, real.
  replace ((1 <=? b) && (b <=? blades)) with true by lia. cbn. repeat split.
Qed.
Lemma cancel_spec blades b s l s2 : 1 <= b <= blades -> in_step s -> turns blades b (activate blades b s) l = Some s2 -> 1 <= leds s b <= 65535 ->
  let s3 := exit blades b s2 in
  (forall j, mem s3 j = mem s j) /\ disk s3 = disk s /\ (forall j, made s3 j = real (leds s j) (mem s j)).
Proof.
  intros B I T N. destruct (activate_spec blades b s B) as (A1 & A2 & A3 & A4 & A5 & A6 & A7).
  destruct (turns_spec blades b (leds s b) B N l (activate blades b s)) as (p & E & _); [rewrite A5; reflexivity|].
  rewrite E in T. injection T as <-. unfold exit, SetBladeLength, is_blade.
  replace ((1 <=? b) && (b <=? blades)) with true by lia. unfold UpdateStyle, ReadState, at_pos. cbn.
  rewrite A3, A4, A5. split; [|split; [reflexivity|]].
  - intros j. rewrite (I j). destruct (card s); reflexivity.
  - intros j. unfold real. pose proof (I j) as H. destruct (card s); rewrite <- ?H;
      destruct (Z.eqb_spec (mem s j) (-1)) as [M|M]; cbn; rewrite ?H in *; try reflexivity; try lia;
      destruct (Z.eqb_spec (disk s j) (leds s j)); cbn; congruence.
Qed.
Lemma select_spec blades b s l s2 : 1 <= b <= blades -> in_step s -> card s = true ->
  turns blades b (activate blades b s) l = Some s2 -> 1 <= leds s b <= 65535 ->
  1 <= real (leds s b) (mem s b) <= leds s b ->
  let n := (real (leds s b) (mem s b) - 1 + net l) mod leds s b + 1 in
  let s3 := select blades b s2 in
  made s3 b = n /\ disk s3 b = n /\ mem s3 b = n /\
  (forall j, j <> b -> made s3 j = real (leds s j) (mem s j) /\ disk s3 j = disk s j /\ mem s3 j = mem s j) /\
  getLength s2 = n /\ disk s2 = disk s.
Proof.
  intros B I C T N R. destruct (activate_spec blades b s B) as (A1 & A2 & A3 & A4 & A5 & A6 & A7).
  destruct (turns_spec blades b (leds s b) B N l (activate blades b s)) as (p & E & P & _); [rewrite A5; reflexivity|].
  rewrite E in T. injection T as <-.
  assert (U : u16 (real (leds s b) (mem s b) - 1) = real (leds s b) (mem s b) - 1) by (unfold u16; apply Z.mod_small; lia).
  rewrite A2, U in P. specialize (P ltac:(lia)).
  set (m := real (leds s b) (mem s b) - 1 + net l) in *. pose proof (Z.mod_pos_bound m (leds s b) ltac:(lia)) as MB.
  unfold select, SetBladeLength, is_blade.
  replace ((1 <=? b) && (b <=? blades)) with true by lia. unfold SaveState, UpdateStyle, ReadState, at_pos, getLength. cbn.
  rewrite A4, C. cbn. rewrite A5. rewrite A7, upd_same, <- P.
  split. { destruct (Z.eqb_spec (p + 1) (-1)); [lia|]. cbn. destruct (Z.eqb_spec (p + 1) (leds s b)); cbn; lia. }
  split; [reflexivity|]. split; [reflexivity|]. split; [|split; [reflexivity|exact A3]].
  intros j J. rewrite A3 || idtac. rewrite !upd_other by exact J. pose proof (I j) as H. rewrite C in H.
  split; [|split; [symmetry; symmetry; congruence|congruence]].
  unfold real. destruct (Z.eqb_spec (mem s j) (-1)); cbn; [reflexivity|].
  destruct (Z.eqb_spec (mem s j) (leds s j)); cbn; congruence.
Qed.

(** Variations. *)
Lemma sv_run l : forall s, let s1 := fold_left sv_turned l s in
  (0 <= variation s < 4294967296 -> variation s1 = (variation s + net l) mod 4294967296) /\ mode s1 = mode s /\ v_saved s1 = v_saved s /\
  changes s1 = changes s + Z.of_nat (length l) /\ entered s1 = entered s /\ exited s1 = exited s.
Proof.
  induction l as [|d l IH]; intros s; cbn [fold_left].
  - cbn. repeat split; lia.
  - destruct (IH (sv_turned s d)) as (I1 & I2 & I3 & I4 & I5 & I6). cbv zeta. rewrite I2, I3, I4, I5, I6. cbn [sv_turned UpdateVariation mode v_saved changes entered exited].
    repeat split.
    + intros V. rewrite I1 by (cbn; apply Z.mod_pos_bound; lia). cbn [sv_turned UpdateVariation variation net fold_right]. fold (net l).
      unfold u32. rewrite Zplus_mod_idemp_l. f_equal. lia.
    + cbn [length]. lia.
Qed.
(** Thresholds. *)
Lemma cut_nonneg r : (0 <= r)%Q -> (inject_Z (cut r) <= r /\ r < inject_Z (cut r + 1))%Q /\ 0 <= cut r.
Proof.
  destruct r as [a d]. unfold Qle, Qlt, cut, inject_Z. cbn [Qnum Qden]. intros H.
  assert (A : 0 <= a) by lia. rewrite Z.quot_div_nonneg by lia.
  pose proof (Z.div_mod a (Zpos d) ltac:(lia)) as E. pose proof (Z.mod_pos_bound a (Zpos d) ltac:(lia)) as B.
  assert (0 <= a / Zpos d) by (apply Z.div_pos; lia).
  repeat split; try lia.
Qed.
Lemma cut_unique r z : (0 <= r)%Q -> (inject_Z z <= r)%Q -> (r < inject_Z (z + 1))%Q -> cut r = z.
Proof.
  intros R A B. destruct (cut_nonneg r R) as [[C D] _].
  assert (E : (inject_Z (cut r) < inject_Z (z + 1))%Q) by lra. assert (F : (inject_Z z < inject_Z (cut r + 1))%Q) by lra.
  rewrite <- Zlt_Qlt in E, F. lia.
Qed.
Lemma bent_cut v : 0 <= v -> cut (inject_Z v / 32768 * (inject_Z v / 32768) * 16) = v * v * 16 / 1073741824.
Proof.
  intros V. assert (E : (inject_Z v / 32768 * (inject_Z v / 32768) * 16 == inject_Z (v * v * 16) / inject_Z 1073741824)%Q).
  { rewrite !inject_Z_mult. change (inject_Z 1073741824) with 1073741824%Q. change (inject_Z 16) with 16%Q. field. }
  assert (N : 0 <= v * v * 16) by nia. set (n := v * v * 16) in *. clearbody n.
  pose proof (Z.div_mod n 1073741824 ltac:(lia)) as D. pose proof (Z.mod_pos_bound n 1073741824 ltac:(lia)) as B.
  assert (0 <= n / 1073741824) by (apply Z.div_pos; lia).
  apply cut_unique; rewrite E; clear E.
  - apply Qle_shift_div_l; [reflexivity|]. rewrite Qmult_0_l. change 0%Q with (inject_Z 0). rewrite <- Zle_Qle. lia.
  - apply Qle_shift_div_l; [reflexivity|]. rewrite <- inject_Z_mult, <- Zle_Qle. lia.
  - apply Qlt_shift_div_r; [reflexivity|]. rewrite <- inject_Z_mult, <- Zlt_Qlt. lia.
Qed.
