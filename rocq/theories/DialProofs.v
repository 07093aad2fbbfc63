From Coq Require Import ZArith QArith Qround Qabs List Bool Lia Lqa.
From Verif Require Import Machine DialModel DialSpec.
Import ListNotations.
Open Scope Q_scope.

Lemma leb_iff : forall a b, Qle_bool a b = true <-> a <= b.
Proof. intros; apply Qle_bool_iff. Qed.
Lemma leb_false : forall a b, Qle_bool a b = false -> b < a.
Proof.
  intros a b H. apply Qnot_le_lt. intro L. apply leb_iff in L. congruence.
Qed.
Lemma leb_t : forall a b, a <= b -> Qle_bool a b = true.
Proof. intros; apply leb_iff; auto. Qed.
Lemma leb_f : forall a b, b < a -> Qle_bool a b = false.
Proof. intros a b H. destruct (Qle_bool a b) eqn:E; auto. apply leb_iff in E. lra. Qed.
Lemma ltb_t : forall a b, a < b -> Qltb a b = true.
Proof. intros. unfold Qltb. rewrite leb_f; auto. Qed.
Lemma ltb_f : forall a b, b <= a -> Qltb a b = false.
Proof. intros. unfold Qltb. rewrite leb_t; auto. Qed.
Lemma ltb_lt : forall a b, Qltb a b = true -> a < b.
Proof. unfold Qltb. intros a b H. destruct (Qle_bool b a) eqn:E; [discriminate|]. apply leb_false in E. auto. Qed.
Lemma ltb_le : forall a b, Qltb a b = false -> b <= a.
Proof. unfold Qltb. intros a b H. destruct (Qle_bool b a) eqn:E; [|discriminate]. apply leb_iff; auto. Qed.

(** TRUNC *)
Lemma trunc_cases : forall f, (PI <= f /\ TRUNC f = f - PI * 2) \/ (f < - PI /\ TRUNC f = f + PI * 2) \/
  (- PI <= f < PI /\ TRUNC f = f).
Proof.
  intros f. unfold TRUNC. destruct (Qle_bool PI f) eqn:E.
  - apply leb_iff in E. auto.
  - apply leb_false in E. destruct (Qltb f (- PI)) eqn:F.
    + apply ltb_lt in F. auto.
    + apply ltb_le in F. right; right; split; [split; auto|reflexivity].
Qed.
Lemma trunc_id : forall f, - (16384) <= f < 16384 -> TRUNC f = f.
Proof. intros f H. destruct (trunc_cases f) as [[A B]|[[A B]|[A B]]]; auto; unfold PI in *; lra. Qed.
Lemma trunc_range : forall f, - (49152) <= f < 49152 -> - (16384) <= TRUNC f < 16384.
Proof. intros f H. destruct (trunc_cases f) as [[A B]|[[A B]|[A B]]]; rewrite B; unfold PI in *; lra. Qed.
Lemma trunc_mod : forall f, exists n : Z, TRUNC f == f + inject_Z n * 32768.
Proof.
  intros f. destruct (trunc_cases f) as [[A B]|[[A B]|[A B]]]; rewrite B.
  - exists (-1)%Z. unfold PI. change (inject_Z (-1)) with (-1#1). lra.
  - exists 1%Z. unfold PI. change (inject_Z 1) with (1#1). lra.
  - exists 0%Z. change (inject_Z 0) with (0#1). lra.
Qed.
(** Two representatives in the same half-open turn are equal. *)
Lemma inj_lt : forall a b : Z, inject_Z a < inject_Z b -> (a < b)%Z.
Proof. intros a b H. rewrite <- Zlt_Qlt in H. auto. Qed.
Lemma inj_le : forall a b : Z, inject_Z a <= inject_Z b -> (a <= b)%Z.
Proof. intros a b H. rewrite <- Zle_Qle in H. auto. Qed.
Lemma rep_unique : forall x y (n : Z), - (16384) <= x < 16384 -> - (16384) <= y < 16384 ->
  x == y + inject_Z n * 32768 -> x == y.
Proof.
  intros x y n X Y E.
  assert (A : inject_Z n < inject_Z 1) by (change (inject_Z 1) with 1; lra).
  assert (B : inject_Z (-1) < inject_Z n) by (change (inject_Z (-1)) with (-1#1); lra).
  apply inj_lt in A. apply inj_lt in B.
  assert (n = 0%Z) by lia. subst n. change (inject_Z 0) with 0 in E. lra.
Qed.

Lemma delta_turn : forall prev last d a,
  - (16384) <= last < 16384 -> (exists m : Z, last == prev + inject_Z m * 32768) ->
  turns prev d a -> TRUNC (TRUNC a - last) == d.
Proof.
  intros prev l d a L (m & M) (D & A & n & N).
  assert (R : - (16384) <= TRUNC a < 16384) by (apply trunc_range; lra).
  assert (R2 : - (16384) <= TRUNC (TRUNC a - l) < 16384) by (apply trunc_range; lra).
  destruct (trunc_mod a) as (p & P). destruct (trunc_mod (TRUNC a - l)) as (q & Q0).
  apply (rep_unique _ _ (q + p + n - m)); auto.
  rewrite Q0, P, M, N. unfold Z.sub. rewrite !inject_Z_plus, inject_Z_opp. ring.
Qed.

(** to_int *)
Lemma floor_bounds : forall q, inject_Z (Qfloor q) <= q /\ q < inject_Z (Qfloor q) + 1.
Proof.
  intros q. split; [apply Qfloor_le|].
  assert (H := Qlt_floor q). rewrite inject_Z_plus in H. exact H.
Qed.
Lemma to_int_pos : forall q, 0 <= q -> inject_Z (to_int q) <= q < inject_Z (to_int q) + 1.
Proof. intros q H. unfold to_int. rewrite leb_t by auto. apply floor_bounds. Qed.
Lemma to_int_neg : forall q, q < 0 -> q <= inject_Z (to_int q) < q + 1.
Proof.
  intros q H. unfold to_int. rewrite leb_f by auto. destruct (floor_bounds (- q)). rewrite inject_Z_opp. lra.
Qed.
Lemma to_int_near : forall q, within1 (to_int q) q.
Proof.
  intros q. unfold within1. destruct (Qlt_le_dec q 0).
  - apply to_int_neg in q0. lra.
  - apply to_int_pos in q0. lra.
Qed.
Lemma to_int_inject : forall z, to_int (inject_Z z) = z.
Proof.
  intros z. unfold to_int. destruct (Qle_bool 0 (inject_Z z)).
  - apply Qfloor_Z.
  - rewrite <- inject_Z_opp, Qfloor_Z. lia.
Qed.
Lemma to_int_comp : forall a b, a == b -> to_int a = to_int b.
Proof.
  intros a b E. unfold to_int.
  assert (X : Qle_bool 0 a = Qle_bool 0 b).
  { destruct (Qle_bool 0 a) eqn:A; symmetry.
    - apply leb_iff in A. apply leb_t. lra.
    - apply leb_false in A. apply leb_f. lra. }
  rewrite X. assert (Y : - a == - b) by (rewrite E; reflexivity).
  destruct (Qle_bool 0 b); [|f_equal]; apply Qfloor_comp; auto.
Qed.
Lemma to_int_mono : forall a b, a <= b -> (to_int a <= to_int b)%Z.
Proof.
  intros a b H. unfold to_int. destruct (Qle_bool 0 a) eqn:A; destruct (Qle_bool 0 b) eqn:B.
  - apply Qfloor_resp_le; auto.
  - apply leb_iff in A. apply leb_false in B. lra.
  - apply leb_false in A. apply leb_iff in B.
    assert (0 <= Qfloor (- a))%Z. { change 0%Z with (Qfloor 0). apply Qfloor_resp_le. lra. }
    assert (0 <= Qfloor b)%Z. { change 0%Z with (Qfloor 0). apply Qfloor_resp_le. lra. } lia.
  - assert (Qfloor (- b) <= Qfloor (- a))%Z by (apply Qfloor_resp_le; lra). lia.
Qed.
Lemma clampi_range : forall x, in_range (clampi x 0 32767).
Proof. intros x. unfold clampi, in_range. destruct (Z.ltb_spec x 0); [lia|]. destruct (Z.ltb_spec 32767 x); lia. Qed.
Lemma clampi_mono : forall x y, (x <= y)%Z -> (clampi x 0 32767 <= clampi y 0 32767)%Z.
Proof.
  intros x y H. unfold clampi. repeat match goal with |- context[Z.ltb ?a ?b] => destruct (Z.ltb_spec a b) end; lia.
Qed.
Lemma clampi_id : forall x, in_range x -> clampi x 0 32767 = x.
Proof. intros x H. unfold clampi, in_range in *. destruct (Z.ltb_spec x 0); [lia|]. destruct (Z.ltb_spec 32767 x); lia. Qed.

(** fixed *)
Lemma fixed_near : forall a, - (16384) <= a < 16384 -> within1 (fixed a) (a + 16384).
Proof.
  intros a H. unfold fixed. assert (N := to_int_near a). unfold within1 in *.
  assert (in_range (to_int a + 16384)).
  { unfold in_range. assert (A : inject_Z (to_int a) < inject_Z 16385 ) by (change (inject_Z 16385) with (16385#1); lra).
    assert (B : inject_Z (-16385) < inject_Z (to_int a)) by (change (inject_Z (-16385)) with (-16385#1); lra).
    apply inj_lt in A. apply inj_lt in B.
    destruct (Qlt_le_dec a 0).
    - assert (q' := to_int_neg a q). assert (C : inject_Z (to_int a) < inject_Z 1) by (change (inject_Z 1) with 1; lra).
      apply inj_lt in C. assert (D : inject_Z (-16384) <= inject_Z (to_int a)) by (change (inject_Z (-16384)) with (-16384#1); lra).
      apply inj_le in D. lia.
    - assert (q' := to_int_pos a q). assert (C : inject_Z (to_int a) < inject_Z 16384) by (change (inject_Z 16384) with (16384#1); lra).
      apply inj_lt in C. lia. }
  rewrite clampi_id by auto. rewrite inject_Z_plus. change (inject_Z 16384) with (16384#1). lra.
Qed.
Lemma fixed_exact : forall v a, in_range v -> a == inject_Z v - 16384 -> fixed a = v.
Proof.
  intros v a H E. unfold fixed.
  rewrite (to_int_comp a (inject_Z (v - 16384))).
  - rewrite to_int_inject. rewrite clampi_id; [lia|]. unfold in_range in *. lia.
  - rewrite E. unfold Z.sub. rewrite inject_Z_plus. rewrite inject_Z_opp. change (inject_Z 16384) with (16384#1). ring.
Qed.

Section G.
Variable X : Type.
Variable get : X -> Z.
Variable set : X -> Z -> X.
Variable k : kind.
Variable rev : Q.
Hypothesis REV : 1 <= rev.
Notation loop := (loop X set k rev).
Notation activate := (activate X get k).
Notation step := (step X get set k rev).

Lemma scale : forall d, - (16384) <= d < 16384 -> - (16384) <= d / rev < 16384.
Proof.
  intros d H. split.
  - apply Qle_shift_div_l; [lra|]. apply Qle_trans with (- (16384) * 1); [|lra].
    assert (- (16384) * rev <= - (16384) * 1) by nra. lra.
  - apply Qlt_shift_div_r; [lra|]. nra.
Qed.
Lemma scale_sum : forall a b, (a + b) / rev == a / rev + b / rev.
Proof. intros. field. lra. Qed.

Lemma trunc_eq : forall a b, a == b -> TRUNC a == TRUNC b.
Proof.
  intros a b E. destruct (trunc_cases a) as [[A B]|[[A B]|[A B]]]; destruct (trunc_cases b) as [[C D]|[[C D]|[C D]]];
  rewrite B, D; unfold PI in *; lra.
Qed.
Lemma move : forall s prev d a, - (16384) <= last s < 16384 ->
  (exists m : Z, last s == prev + inject_Z m * 32768) -> turns prev d a ->
  TRUNC (delta X s a / rev) == d / rev.
Proof.
  intros s prev d a L M T. unfold delta.
  assert (E := delta_turn _ _ _ _ L M T). destruct T as (D & _).
  rewrite (trunc_eq _ (d / rev)) by (rewrite E; reflexivity).
  rewrite trunc_id by (apply scale; auto). reflexivity.
Qed.
Lemma last_ok : forall a, - (16384) <= a <= 16384 ->
  - (16384) <= TRUNC a < 16384 /\ exists m : Z, TRUNC a == a + inject_Z m * 32768.
Proof. intros a H. split; [apply trunc_range; lra|apply trunc_mod]. Qed.
End G.

(** Every value set is in range. *)
Lemma loop_set : forall X set k rev s a, exists v, in_range v /\ store (fst (loop X set k rev s a)) = set (store s) v.
Proof.
  intros. unfold loop. destruct k.
  - cbn. eexists. split; [|reflexivity]. apply clampi_range.
  - destruct (increment (angle s) (TRUNC (delta X s a / rev))). cbn. eexists. split; [|reflexivity]. apply clampi_range.
Qed.
Lemma loop_saved : forall X set k rev s a, saved (fst (loop X set k rev s a)) = saved s.
Proof. intros. unfold loop. destruct k; [reflexivity|]. destruct (increment (angle s) (TRUNC (delta X s a / rev))). reflexivity. Qed.
Lemma loop_last : forall X set k rev s a, last (fst (loop X set k rev s a)) = TRUNC a.
Proof. intros. unfold loop. destruct k; [reflexivity|]. destruct (increment (angle s) (TRUNC (delta X s a / rev))). reflexivity. Qed.
Lemma run_sets : forall X get set k rev ops s,
  exists vs, Forall in_range vs /\ store (run (step X get set k rev) s ops) = fold_left set vs (store s) /\
             saved (run (step X get set k rev) s ops) = saved s.
Proof.
  intros X get set k rev. induction ops as [|o ops IH]; intros s; [exists []; auto|].
  change (run (step X get set k rev) s (o :: ops)) with (run (step X get set k rev) (step X get set k rev s o) ops).
  destruct (IH (step X get set k rev s o)) as (vs & F & E & S).
  destruct o as [a|a|l]; cbn [step] in *.
  - exists vs. auto.
  - destruct (loop_set X set k rev s a) as (v & V & W). exists (v :: vs). split; [constructor; auto|]. rewrite E, W, S, loop_saved. auto.
  - exists vs. auto.
Qed.
Lemma all_sets : forall X get set k rev ops s a,
  let s1 := run (step X get set k rev) (activate X get k s false a) ops in
  exists vs, Forall in_range vs /\ store s1 = fold_left set vs (store s) /\
             store (select X s1) = store s1 /\
             store (exit X set s1) = set (store s1) (get (store s)).
Proof.
  intros. destruct (run_sets X get set k rev ops (activate X get k s false a)) as (vs & F & E & S).
  exists vs. split; [auto|]. split; [exact E|]. split; [reflexivity|].
  unfold exit, s1. cbn [store]. rewrite S. reflexivity.
Qed.

(** Wrap-around. *)
Section W.
Variable X : Type.
Variable get : X -> Z.
Variable set : X -> Z -> X.
Variable rev : Q.
Hypothesis REV : 1 <= rev.
Notation loop := (loop X set Wrap rev).
Notation run1 := (run (fun s a => fst (loop s a))).

Lemma wrap_run : forall rs ds s prev, turned prev ds rs ->
  - (16384) <= last s < 16384 -> (exists m : Z, last s == prev + inject_Z m * 32768) ->
  - (16384) <= angle s < 16384 ->
  let s' := run1 s rs in
  - (16384) <= angle s' < 16384 /\
  (exists n : Z, angle s' == angle s + total ds / rev + inject_Z n * 32768) /\
  (rs = [] \/ exists x, store s' = set x (fixed (angle s'))).
Proof.
  induction rs as [|a rs IH]; intros ds s prev T L M A.
  - destruct ds; [|contradiction]. cbn. split; [auto|]. split; [|auto]. exists 0%Z. change (inject_Z 0) with 0.
    assert (0 / rev == 0) by (field; lra). lra.
  - destruct ds as [|d ds]; [contradiction|]. destruct T as [T T2].
    assert (MV := move X rev REV s prev d a L M T).
    change (run1 s (a :: rs)) with (run1 (fst (loop s a)) rs).
    set (s1 := fst (loop s a)).
    assert (A1 : angle s1 = TRUNC (angle s + TRUNC (delta X s a / rev))) by reflexivity.
    assert (L1 : last s1 = TRUNC a) by reflexivity.
    destruct T as (D & RA & n & N). destruct (last_ok a RA) as (LO & LM).
    assert (AR : - (16384) <= angle s1 < 16384).
    { rewrite A1. apply trunc_range. rewrite MV. assert (SC := scale rev REV d D). lra. }
    destruct (IH ds s1 a T2) as (B & (n2 & C) & E); [rewrite L1; auto|rewrite L1; auto|auto|].
    split; [auto|]. split.
    + destruct (trunc_mod (angle s + TRUNC (delta X s a / rev))) as (n1 & N1). exists (n1 + n2)%Z.
      rewrite C, A1, N1, MV. cbn [total fold_right]. rewrite (scale_sum rev REV), inject_Z_plus.
      unfold total. ring.
    + right. destruct E as [->|E]; [|exact E]. exists (store s). reflexivity.
Qed.

Theorem wrap_value : register get set -> forall s a0 ds rs,
  in_range (get (store s)) -> - (16384) <= a0 <= 16384 -> turned a0 ds rs ->
  let v0 := get (store s) in
  let v := get (store (run1 (activate X get Wrap s false a0) rs)) in
  (exists n : Z, within1 v (inject_Z v0 + total ds / rev + inject_Z n * 32768)) /\
  (forall n : Z, total ds == inject_Z n * 32768 * rev -> v = v0).
Proof.
  intros REG s a0 ds rs R RA T v0 v.
  destruct (last_ok a0 RA) as (LO & LM).
  set (s0 := activate X get Wrap s false a0) in *.
  assert (A0 : angle s0 == inject_Z v0 - 16384).
  { change (angle s0) with (fromFixed v0). unfold fromFixed. rewrite trunc_id; [reflexivity|].
    unfold in_range in R. fold v0 in R. destruct R as [R1 R2]. rewrite Zle_Qle in R1, R2.
    change (inject_Z 0) with 0 in R1. change (inject_Z 32767) with (32767#1) in R2. lra. }
  assert (V0 : 0 <= inject_Z v0 <= 32767#1).
  { unfold in_range in R. fold v0 in R. destruct R as [R1 R2]. rewrite Zle_Qle in R1, R2. split; auto. }
  destruct (wrap_run rs ds s0 a0 T LO LM) as (B & (n & C) & E).
  { rewrite A0. lra. }
  destruct E as [->|(x & E)].
  - destruct ds; [|contradiction]. cbn in v. split; [|reflexivity].
    exists 0%Z. change (inject_Z 0) with 0. unfold v, v0, within1, total. cbn [fold_right].
    assert (0 / rev == 0) by (field; lra). lra.
  - assert (V : v = fixed (angle (run1 s0 rs))).
    { unfold v. rewrite E. apply REG. apply clampi_range. }
    split.
    + exists n. rewrite V. assert (F := fixed_near _ B). unfold within1 in *. set (q := total ds / rev) in *. lra.
    + intros j J. rewrite V. apply fixed_exact; auto.
      apply (rep_unique _ _ (n + j)); [auto|lra|].
      rewrite C, A0, J, inject_Z_plus. field. lra.
Qed.
End W.

(** Guard rails. *)
Section R.
Variable X : Type.
Variable get : X -> Z.
Variable set : X -> Z -> X.
Variable m rev : Q.
Hypothesis REV : 1 <= rev.
Hypothesis M0 : 0 <= m.
Notation loop := (loop X set (Rails m) rev).
Notation run1 := (run (fun s a => fst (loop s a))).

Lemma inc_range : forall a d, - (16384) <= fst (increment a d) <= 16384.
Proof.
  intros. unfold increment. destruct (Qle_bool PI (a + d)) eqn:E; cbn; [unfold PI; lra|].
  apply leb_false in E. destruct (Qltb (a + d) (- PI)) eqn:F; cbn; [unfold PI; lra|].
  apply ltb_le in F. unfold PI in *. lra.
Qed.
Lemma inc_mono : forall a d, - (16384) <= a <= 16384 -> (0 <= d -> a <= fst (increment a d)) /\ (d <= 0 -> fst (increment a d) <= a).
Proof.
  intros a d H. unfold increment. destruct (Qle_bool PI (a + d)) eqn:E; cbn; [apply leb_iff in E; unfold PI in *; lra|].
  apply leb_false in E. destruct (Qltb (a + d) (- PI)) eqn:F; cbn; [apply ltb_lt in F; unfold PI in *; lra|].
  apply ltb_le in F. unfold PI in *. lra.
Qed.
Lemma inc_bump : forall a d, let r := increment a d in
  (snd r = 1%Z /\ fst r = PI /\ PI <= a + d) \/ (snd r = (-1)%Z /\ fst r = - PI /\ a + d < - PI) \/
  (snd r = 0%Z /\ fst r = a + d /\ - PI <= a + d < PI).
Proof.
  intros a d. unfold increment. destruct (Qle_bool PI (a + d)) eqn:E; cbn; [apply leb_iff in E; auto|].
  apply leb_false in E. destruct (Qltb (a + d) (- PI)) eqn:F; cbn; [apply ltb_lt in F; auto|].
  apply ltb_le in F. auto 7.
Qed.
Lemma fm_mono : forall a b, a <= b -> (fixed_with_margin a m <= fixed_with_margin b m)%Z.
Proof.
  intros a b H. unfold fixed_with_margin. apply clampi_mono, to_int_mono.
  assert (E : 16384 * (1 + m) / PI == 1 + m) by (unfold PI; field). rewrite E. nra.
Qed.
Lemma fm_top : fixed_with_margin PI m = 32767%Z.
Proof.
  unfold fixed_with_margin. set (q := PI * (16384 * (1 + m) / PI) + 16384).
  assert (Q1 : 32768 <= q). { assert (E : q == 16384 * (1 + m) + 16384) by (unfold q, PI; field). rewrite E. lra. }
  assert (H : (to_int (inject_Z 32768) <= to_int q)%Z) by (apply to_int_mono; exact Q1).
  rewrite to_int_inject in H. unfold clampi. destruct (Z.ltb_spec (to_int q) 0); [lia|].
  destruct (Z.ltb_spec 32767 (to_int q)); lia.
Qed.
Lemma fm_bot : fixed_with_margin (- PI) m = 0%Z.
Proof.
  unfold fixed_with_margin. set (q := - PI * (16384 * (1 + m) / PI) + 16384).
  assert (Q1 : q <= 0). { assert (E : q == - (16384 * (1 + m)) + 16384) by (unfold q, PI; field). rewrite E. lra. }
  assert (H : (to_int q <= to_int (inject_Z 0))%Z) by (apply to_int_mono; exact Q1).
  rewrite to_int_inject in H. unfold clampi. destruct (Z.ltb_spec (to_int q) 0); [lia|].
  destruct (Z.ltb_spec 32767 (to_int q)); lia.
Qed.
Lemma loop_rails : forall s a, let r := increment (angle s) (TRUNC (delta X s a / rev)) in
  loop s a = (Smooth (set (store s) (fixed_with_margin (fst r) m)) (TRUNC a) (fst r) (saved s), snd r).
Proof. intros. unfold loop, r. destruct (increment (angle s) (TRUNC (delta X s a / rev))); reflexivity. Qed.

(** After a loop that read [prev]. *)
Definition after (prev : Q) (s : smooth X) : Prop :=
  last s = TRUNC prev /\ - (16384) <= prev <= 16384 /\ - (16384) <= angle s <= 16384 /\
  exists x, store s = set x (fixed_with_margin (angle s) m).
Lemma after_loop : forall s a, - (16384) <= a <= 16384 -> after a (fst (loop s a)).
Proof.
  intros s a H. rewrite loop_rails. cbn [fst]. unfold after. cbn [last angle store].
  split; [auto|]. split; [auto|]. split; [apply inc_range|]. eexists; reflexivity.
Qed.
Lemma after_step : forall prev s d a, after prev s -> turns prev d a ->
  let s' := fst (loop s a) in
  after a s' /\ (0 <= d -> angle s <= angle s') /\ (d <= 0 -> angle s' <= angle s) /\
  let r := snd (loop s a) in
  (r = 1%Z /\ angle s' = PI) \/ (r = (-1)%Z /\ angle s' = - PI) \/ (r = 0%Z /\ angle s' == angle s + d / rev).
Proof.
  intros prev s d a (L & P & A & _) T s'.
  assert (TT := T). destruct T as (D & RA & _).
  assert (MV : TRUNC (delta X s a / rev) == d / rev).
  { apply (move X rev REV s prev); auto; rewrite L; apply last_ok; auto. }
  split; [apply after_loop; auto|].
  assert (E : angle s' = fst (increment (angle s) (TRUNC (delta X s a / rev)))) by (unfold s'; rewrite loop_rails; reflexivity).
  destruct (inc_mono (angle s) (TRUNC (delta X s a / rev)) A) as [U V].
  assert (SG : (0 <= d -> 0 <= d / rev) /\ (d <= 0 -> d / rev <= 0)).
  { split; intro G; [apply Qle_shift_div_l|apply Qle_shift_div_r]; lra. }
  split; [rewrite E; intro G; apply U; rewrite MV; apply SG; auto|].
  split; [rewrite E; intro G; apply V; rewrite MV; apply SG; auto|].
  rewrite loop_rails. cbn [snd]. rewrite E.
  destruct (inc_bump (angle s) (TRUNC (delta X s a / rev))) as [(B & C & _)|[(B & C & _)|(B & C & _)]]; rewrite B, C; auto.
  right; right. split; auto. rewrite MV. reflexivity.
Qed.
Lemma after_get : register get set -> forall p s, after p s -> get (store s) = fixed_with_margin (angle s) m.
Proof. intros REG p s (_ & _ & _ & x & E). rewrite E. apply REG. apply clampi_range. Qed.

Theorem rails_dir : register get set -> forall s a d b, - (16384) <= a <= 16384 -> turns a d b ->
  let s1 := fst (loop s a) in let s2 := fst (loop s1 b) in
  (0 <= d -> (get (store s1) <= get (store s2))%Z) /\ (d <= 0 -> (get (store s2) <= get (store s1))%Z).
Proof.
  intros REG s a d b RA T s1 s2.
  assert (AF : after a s1) by (apply after_loop; auto).
  destruct (after_step a s1 d b AF T) as (A2 & U & V & _). fold s2 in A2, U, V.
  rewrite (after_get REG a s1 AF), (after_get REG b s2 A2).
  split; intro G; apply fm_mono; auto.
Qed.
Theorem rails_bump : register get set -> forall s a, - (16384) <= a <= 16384 ->
  let (s1, b) := loop s a in (b = 1%Z -> get (store s1) = 32767%Z) /\ (b = (-1)%Z -> get (store s1) = 0%Z).
Proof.
  intros REG s a RA. rewrite loop_rails. cbn [store]. rewrite REG by apply clampi_range.
  destruct (inc_bump (angle s) (TRUNC (delta X s a / rev))) as [(B & C & _)|[(B & C & _)|(B & C & _)]]; rewrite B, C;
  (split; intro G; try discriminate G); [apply fm_top|apply fm_bot].
Qed.

(** The bumps seen along a list of readings. *)
Notation bumps := (run_outs (fun s a => loop s a)).

Lemma rails_run : forall rs ds s prev, turned prev ds rs -> after prev s ->
  exists p, after p (run1 s rs) /\
  (Forall (fun d => 0 <= d) ds -> angle s <= angle (run1 s rs) /\
     (angle (run1 s rs) == PI \/ angle (run1 s rs) == angle s + total ds / rev)) /\
  (Forall (fun d => d <= 0) ds -> angle (run1 s rs) <= angle s /\
     (angle (run1 s rs) == - PI \/ angle (run1 s rs) == angle s + total ds / rev)) /\
  (Forall (fun b => b = 0%Z) (run_outs loop s rs) -> angle (run1 s rs) == angle s + total ds / rev).
Proof.
  induction rs as [|a rs IH]; intros ds s prev T A.
  - destruct ds; [|contradiction]. exists prev. cbn. assert (0 / rev == 0) by (field; lra).
    split; [auto|]. split; [intros; split; [lra|right; lra]|]. split; [intros; split; [lra|right; lra]|intros; lra].
  - destruct ds as [|d ds]; [contradiction|]. destruct T as [T T2].
    destruct (after_step prev s d a A T) as (A1 & U & V & B).
    change (run1 s (a :: rs)) with (run1 (fst (loop s a)) rs).
    assert (RO : run_outs loop s (a :: rs) = snd (loop s a) :: run_outs loop (fst (loop s a)) rs).
    { cbn [run_outs]. destruct (loop s a); reflexivity. }
    rewrite RO. set (s1 := fst (loop s a)) in *. cbv zeta in B. revert B. generalize (snd (loop s a)); intros b B.
    destruct (IH ds s1 a T2 A1) as (p & P & Q1 & Q2 & Q3).
    exists p. split; [auto|]. cbn [total fold_right]. change (fold_right Qplus 0 ds) with (total ds).
    assert (SS := scale_sum rev REV d (total ds)).
    assert (A1' : - (16384) <= angle s1 <= 16384) by apply A1.
    assert (P' : - (16384) <= angle (run1 s1 rs) <= 16384) by apply P.
    split; [|split].
    + intros F. inversion F as [|? ? F1 F2]; subst. destruct (Q1 F2) as [Q4 Q5]. specialize (U F1).
      split; [lra|]. destruct Q5 as [Q5|Q5]; [auto|].
      destruct B as [[_ B]|[[_ B]|[_ B]]].
      * left. rewrite B in Q4. unfold PI in *. lra.
      * (* bottom rail while turning up: then the angle was the bottom before, and stays *)
        rewrite B in U. unfold PI in *.
        assert (EA : angle s == - (16384)) by (destruct A as (_ & _ & A & _); lra).
        assert (HD : 0 <= d / rev) by (apply Qle_shift_div_l; lra).
        assert (HB := loop_rails s a). cbv zeta in HB.
        assert (MV : TRUNC (delta X s a / rev) == d / rev).
        { destruct A as (L & PP & _ & _). apply (move X rev REV s prev); auto; rewrite L; apply last_ok; auto. }
        destruct (inc_bump (angle s) (TRUNC (delta X s a / rev))) as [(I1 & I2 & I3)|[(I1 & I2 & I3)|(I1 & I2 & I3)]].
        -- left. assert (angle s1 = PI) by (unfold s1; rewrite HB; cbn; exact I2). rewrite H in B. unfold PI in B. discriminate.
        -- unfold PI in *. rewrite MV in I3. lra.
        -- right. assert (angle s1 == angle s + d / rev) by (unfold s1; rewrite HB; cbn [fst angle]; rewrite I2, MV; reflexivity). lra.
      * right. lra.
    + intros F. inversion F as [|? ? F1 F2]; subst. destruct (Q2 F2) as [Q4 Q5]. specialize (V F1).
      split; [lra|]. destruct Q5 as [Q5|Q5]; [auto|].
      destruct B as [[_ B]|[[_ B]|[_ B]]].
      * rewrite B in V. unfold PI in *.
        assert (EA : angle s == 16384) by (destruct A as (_ & _ & A & _); lra).
        assert (HB := loop_rails s a). cbv zeta in HB.
        assert (MV : TRUNC (delta X s a / rev) == d / rev).
        { destruct A as (L & PP & _ & _). apply (move X rev REV s prev); auto; rewrite L; apply last_ok; auto. }
        assert (HD : d / rev <= 0) by (apply Qle_shift_div_r; lra).
        destruct (inc_bump (angle s) (TRUNC (delta X s a / rev))) as [(I1 & I2 & I3)|[(I1 & I2 & I3)|(I1 & I2 & I3)]].
        -- unfold PI in *. rewrite MV in I3. assert (d / rev == 0) by lra. right. rewrite B in Q5. lra.
        -- left. assert (angle s1 = - PI) by (unfold s1; rewrite HB; cbn; exact I2). rewrite H in B. discriminate.
        -- right. assert (angle s1 == angle s + d / rev) by (unfold s1; rewrite HB; cbn [fst angle]; rewrite I2, MV; reflexivity). lra.
      * left. rewrite B in Q4. unfold PI in *. lra.
      * right. lra.
    + intros F. inversion F as [|? ? F1 F2]; subst. specialize (Q3 F2).
      destruct B as [[B _]|[[B _]|[_ B]]]; try discriminate. lra.
Qed.

Theorem rails_ends : register get set -> forall s a ds rs, - (16384) <= a <= 16384 -> turned a ds rs ->
  let s' := run1 (fst (loop s a)) rs in
  (Forall (fun d => 0 <= d) ds -> 32768 * rev <= total ds -> get (store s') = 32767%Z) /\
  (Forall (fun d => d <= 0) ds -> total ds <= - (32768 * rev) -> get (store s') = 0%Z).
Proof.
  intros REG s a ds rs RA T s'.
  destruct (rails_run rs ds _ a T (after_loop s a RA)) as (p & P & Q1 & Q2 & _). fold s' in P, Q1, Q2.
  rewrite (after_get REG p s' P).
  assert (A0 := after_loop s a RA). destruct A0 as (_ & _ & A0 & _).
  assert (A1 : - (16384) <= angle s' <= 16384) by apply P.
  split; intros F H.
  - destruct (Q1 F) as [_ [E|E]].
    + rewrite <- fm_top. apply Z.le_antisymm; apply fm_mono; lra.
    + assert (32768 <= total ds / rev) by (apply Qle_shift_div_l; lra).
      rewrite <- fm_top. apply Z.le_antisymm; apply fm_mono; unfold PI; lra.
  - destruct (Q2 F) as [_ [E|E]].
    + rewrite <- fm_bot. apply Z.le_antisymm; apply fm_mono; lra.
    + assert (total ds / rev <= - (32768)) by (apply Qle_shift_div_r; lra).
      rewrite <- fm_bot. apply Z.le_antisymm; apply fm_mono; unfold PI; lra.
Qed.

Lemma fm_inner : forall a, (0 < fixed_with_margin a m < 32767)%Z ->
  inject_Z (fixed_with_margin a m) <= a * (1 + m) + 16384 < inject_Z (fixed_with_margin a m) + 1.
Proof.
  intros a. unfold fixed_with_margin.
  assert (E : a * (16384 * (1 + m) / PI) + 16384 == a * (1 + m) + 16384) by (unfold PI; field).
  rewrite (to_int_comp _ _ E). set (q := a * (1 + m) + 16384).
  unfold clampi. destruct (Z.ltb_spec (to_int q) 0); [lia|]. destruct (Z.ltb_spec 32767 (to_int q)); [lia|].
  intros H1. apply to_int_pos. destruct (Qlt_le_dec q 0); auto.
  assert (q1 := to_int_neg q q0). assert (X0 : inject_Z (to_int q) < inject_Z 1) by (change (inject_Z 1) with 1; lra).
  apply inj_lt in X0. lia.
Qed.
Theorem rails_turn : register get set -> forall s a ds rs, - (16384) <= a <= 16384 -> turned a ds rs ->
  let s0 := fst (loop s a) in let s' := run1 s0 rs in
  Forall (fun b => b = 0%Z) (run_outs loop s0 rs) ->
  (0 < get (store s0) < 32767)%Z -> (0 < get (store s') < 32767)%Z ->
  within1 (get (store s')) (inject_Z (get (store s0)) + total ds / rev * (1 + m)).
Proof.
  intros REG s a ds rs RA T s0 s' NB V0 V1.
  assert (A0 := after_loop s a RA). fold s0 in A0.
  destruct (rails_run rs ds s0 a T A0) as (p & P & _ & _ & Q3). fold s' in P, Q3. specialize (Q3 NB).
  rewrite (after_get REG a s0 A0) in *. rewrite (after_get REG p s' P) in *.
  apply fm_inner in V0. apply fm_inner in V1. unfold within1.
  assert (E : angle s' * (1 + m) == angle s0 * (1 + m) + total ds / rev * (1 + m)) by (rewrite Q3; ring).
  lra.
Qed.
End R.

(** Opening such a setting and not turning. *)
Theorem rails_drift : forall X get set (rev : Q) s a, 1 <= rev -> register get set -> - (16384) <= a <= 16384 ->
  (0 < get (store s) < 32767)%Z ->
  get (store (fst (loop X set (Rails (2#100)) rev (activate X get (Rails (2#100)) s false a) a))) =
  Z.max 0 (get (store s) - 328).
Proof.
  intros X get set rev s a REV REG RA V. set (s0 := activate X get (Rails (2#100)) s false a).
  rewrite (loop_rails X set (2#100) rev). cbn [fst store].
  rewrite REG by apply clampi_range.
  assert (Z0 : TRUNC (delta X s0 a / rev) == 0).
  { assert (E : delta X s0 a == 0).
    { unfold delta. change (last s0) with (TRUNC a). rewrite (trunc_eq _ 0) by ring. rewrite trunc_id; [reflexivity|lra]. }
    rewrite (trunc_eq _ 0). { rewrite trunc_id; [reflexivity|lra]. }
    rewrite E. field. lra. }
  set (v := get (store s)) in *.
  assert (V1 : 0 < inject_Z v < 32767#1).
  { destruct V as [V1 V2]. rewrite Zlt_Qlt in V1, V2. split; auto. }
  assert (A0 : angle s0 == (inject_Z v - 16384 * (1 + (2#100))) / (1 + (2#100)) /\ - (16384) <= angle s0 < 16384).
  { change (angle s0) with (fromFixedWithMargin v (2#100)). unfold fromFixedWithMargin.
    destruct (Z.leb_spec 32767 v); [lia|]. destruct (Z.leb_spec v 0); [lia|].
    set (q := (inject_Z v - 16384 * (1 + (2 # 100))) * (PI / (16384 * (1 + (2 # 100))))).
    assert (Q1 : q == (inject_Z v - 16384 * (1 + (2#100))) / (1 + (2#100))) by (unfold q, PI; field).
    assert (Q2 : - (16384) <= q < 16384).
    { rewrite Q1. split; [apply Qle_shift_div_l; lra|apply Qlt_shift_div_r; lra]. }
    rewrite trunc_id by auto. auto. }
  destruct A0 as [A0 A1].
  destruct (inc_bump (angle s0) (TRUNC (delta X s0 a / rev))) as [(B & C & D)|[(B & C & D)|(B & C & D)]];
    unfold PI in D; try lra.
  rewrite C. unfold fixed_with_margin.
  assert (E : (angle s0 + TRUNC (delta X s0 a / rev)) * (16384 * (1 + (2 # 100)) / PI) + 16384 == inject_Z v - (32768 # 100)).
  { rewrite Z0, A0. unfold PI. field. }
  rewrite (to_int_comp _ _ E).
  destruct (Z.le_gt_cases 328 v) as [G|G].
  - assert (G1 : inject_Z 328 <= inject_Z v) by (rewrite <- Zle_Qle; auto). change (inject_Z 328) with (328#1) in G1.
    assert (H : 0 <= inject_Z v - (32768#100)) by lra. apply to_int_pos in H.
    assert (to_int (inject_Z v - (32768#100)) = v - 328)%Z.
    { set (t := to_int (inject_Z v - (32768 # 100))) in *.
      assert (inject_Z t < inject_Z (v - 327)) by (unfold Z.sub; rewrite inject_Z_plus; change (inject_Z (- (327))) with (-327#1); lra).
      assert (inject_Z (v - 329) < inject_Z t) by (unfold Z.sub; rewrite inject_Z_plus; change (inject_Z (- (329))) with (-329#1); lra).
      apply inj_lt in H0. apply inj_lt in H1. lia. }
    rewrite H0, clampi_id by (unfold in_range; lia). lia.
  - assert (G1 : inject_Z v <= inject_Z 327) by (rewrite <- Zle_Qle; lia). change (inject_Z 327) with (327#1) in G1.
    assert (H : inject_Z v - (32768#100) < 0) by lra. assert (H' := to_int_neg _ H).
    assert (H0 : inject_Z (to_int (inject_Z v - (32768#100))) < inject_Z 1) by (change (inject_Z 1) with 1; lra).
    apply inj_lt in H0. unfold clampi. destruct (Z.ltb_spec (to_int (inject_Z v - (32768 # 100))) 0); [lia|].
    destruct (Z.ltb_spec 32767 (to_int (inject_Z v - (32768 # 100)))); lia.
Qed.

(** Stepped modes. *)
Section S.
Variables spr dz : Z.
Hypothesis SPR : (4 <= spr)%Z.
Hypothesis DZ : (0 <= dz <= 100)%Z.
Notation st := (stepsize spr).
Notation tw := (twistsize spr dz).
Notation sloop := (stepped_loop spr dz).

Lemma st_bounds : 0 < st <= 8192.
Proof.
  unfold stepsize, PI. assert (4 <= inject_Z spr) by (change 4 with (inject_Z 4); rewrite <- Zle_Qle; auto).
  split; [apply Qlt_shift_div_l; lra|apply Qle_shift_div_r; lra].
Qed.
Lemma tw_eq : tw == st / 2 + st * inject_Z dz / 400.
Proof. unfold twistsize. field. Qed.
Lemma dz_bounds : 0 <= inject_Z dz <= 100.
Proof. destruct DZ as [A B]. rewrite Zle_Qle in A, B. split; auto. Qed.
Lemma tw_bounds : st * (1 # 2) <= tw <= st * (3 # 4).
Proof. rewrite tw_eq. assert (A := st_bounds). assert (B := dz_bounds).
  assert (C : 0 <= st * inject_Z dz) by (apply Qmult_le_0_compat; lra).
  assert (D : 0 <= st * (100 - inject_Z dz)) by (apply Qmult_le_0_compat; lra).
  assert (E : st * (100 - inject_Z dz) == st * 100 - st * inject_Z dz) by ring.
  set (p := st * inject_Z dz) in *. set (q := st) in *. unfold Qdiv. change (/ 2) with (1#2). change (/ 400) with (1#400). lra. Qed.

(** The signed size of the steps taken. *)
Definition moved (e : Q) (o : option dir) : Q := match o with None => 0 | Some Next => e | Some Prev => - e end.

(** One loop in unwrapped coordinates: [x] = how far the hilt is ahead of the position. *)
Lemma sloop_step : forall prev angle x d a g e,
  e = accelerated spr g -> 0 < e <= st -> - e <= d <= e ->
  - (16384) <= prev <= 16384 -> - (16384) <= angle < 16384 ->
  near x 0 tw -> (exists n : Z, angle + x == prev + inject_Z n * 32768) -> turns prev d a ->
  let (angle', o) := sloop angle (a, g) in
  - (16384) <= angle' < 16384 /\
  near (x + d - moved e o) 0 tw /\ (exists n : Z, angle' + (x + d - moved e o) == a + inject_Z n * 32768) /\
  (o = Some Next <-> tw < x + d) /\ (o = Some Prev <-> x + d < - tw).
Proof.
  intros prev angle x d a g e EE E D P A NX (n & N) (D' & RA & n2 & N2).
  assert (SB := st_bounds). assert (TB := tw_bounds). unfold near in NX.
  assert (DF : TRUNC (TRUNC a - angle) == x + d).
  { assert (R : - (16384) <= TRUNC a < 16384) by (apply trunc_range; lra).
    destruct (trunc_mod a) as (p & PP). destruct (trunc_mod (TRUNC a - angle)) as (q & QQ).
    apply (rep_unique _ _ (q + p + n2 - n)%Z); [apply trunc_range; lra|lra|].
    rewrite QQ, PP, N2. assert (angle == prev + inject_Z n * 32768 - x) by lra. rewrite H.
    unfold Z.sub. rewrite !inject_Z_plus, inject_Z_opp. ring. }
  assert (TE : TRUNC e = e) by (apply trunc_id; lra).
  unfold stepped_loop. rewrite <- EE, TE. set (df := TRUNC (TRUNC a - angle)) in *.
  destruct (Qltb tw (if Qle_bool 0 df then df else - df)) eqn:C.
  - apply ltb_lt in C. destruct (Qltb 0 df) eqn:F.
    + apply ltb_lt in F. rewrite (leb_t 0 df) in C by lra.
      split; [apply trunc_range; lra|]. cbn [moved].
      split; [unfold near; lra|]. split.
      * destruct (trunc_mod (angle + e)) as (q & QQ). exists (n - n2 + q)%Z. rewrite QQ, N2.
        unfold Z.sub. rewrite !inject_Z_plus, inject_Z_opp. lra.
      * split; split; intro H; try discriminate H; try reflexivity; lra.
    + apply ltb_le in F.
      assert (C' : tw < - df).
      { destruct (Qle_bool 0 df) eqn:L; [|auto]. apply leb_iff in L. lra. }
      split; [apply trunc_range; lra|]. cbn [moved].
      split; [unfold near; lra|]. split.
      * destruct (trunc_mod (angle - e)) as (q & QQ). exists (n - n2 + q)%Z. rewrite QQ, N2.
        unfold Z.sub. rewrite !inject_Z_plus, inject_Z_opp. lra.
      * split; split; intro H; try discriminate H; try reflexivity; lra.
  - apply ltb_le in C.
    assert (C1 : df <= tw /\ - tw <= df).
    { destruct (Qle_bool 0 df) eqn:L; [apply leb_iff in L; lra|apply leb_false in L; lra]. }
    split; [auto|]. cbn [moved]. split; [unfold near; lra|]. split.
    + exists (n - n2)%Z. rewrite N2. unfold Z.sub. rewrite !inject_Z_plus, inject_Z_opp. lra.
    + split; split; intro H; try discriminate H; lra.
Qed.

Lemma moved_sign : forall e o, moved e o == inject_Z (sign is_next o) * e.
Proof. intros e [[|]|]; cbn [moved sign is_next]; [change (inject_Z 1) with 1|change (inject_Z (-1)) with (-1#1)|change (inject_Z 0) with 0]; ring. Qed.
Lemma st_of : st == step_of spr.
Proof. unfold stepsize, step_of, PI. assert (4 <= inject_Z spr) by (change 4 with (inject_Z 4); rewrite <- Zle_Qle; auto). field. lra. Qed.
Lemma tw_of : tw == reach spr dz.
Proof. unfold twistsize, reach. rewrite st_of. field. Qed.
Lemma acc_of : forall g, 0 <= g -> accelerated spr g == fast_step spr g /\ 0 < accelerated spr g <= st.
Proof.
  intros g G. assert (SB := st_bounds). unfold accelerated, fast_step.
  destruct (Qlt_le_dec 360 g).
  - assert (L : 1 < g / 360) by (apply Qlt_shift_div_l; lra). rewrite (ltb_t _ _ L).
    assert (Q2 : 1 < g / 360 * (g / 360)) by nra.
    split; [rewrite st_of; field; lra|].
    split; [apply Qlt_shift_div_l; lra|apply Qle_shift_div_r; [lra|nra]].
  - assert (L : g / 360 <= 1) by (apply Qle_shift_div_r; lra). rewrite (ltb_f _ _ L).
    split; [apply st_of|lra].
Qed.

Definition sinv (prev angle x : Q) : Prop :=
  - (16384) <= prev <= 16384 /\ - (16384) <= angle < 16384 /\ near x 0 tw /\
  exists n : Z, angle + x == prev + inject_Z n * 32768.
Notation allowed := (allowed spr).

Lemma sinv_step : forall prev angle x d i, sinv prev angle x -> allowed d i -> turns prev d (fst i) ->
  let (angle', o) := sloop angle i in
  sinv (fst i) angle' (x + d - moved (accelerated spr (snd i)) o) /\
  (o = Some Next <-> tw < x + d) /\ (o = Some Prev <-> x + d < - tw).
Proof.
  intros prev angle x d [a g] (P & A & N & M) (G & D) T. cbn [fst snd] in *.
  destruct (acc_of g G) as [EQ B]. rewrite <- EQ in D.
  assert (H := sloop_step prev angle x d a g (accelerated spr g) eq_refl B D P A N M T).
  destruct (sloop angle (a, g)) as [angle' o]. destruct H as (H1 & H2 & H3 & H4 & H5).
  split; [|split; auto]. split; [apply T|]. split; auto.
Qed.
Lemma sinv_start : forall a0, - (16384) <= a0 <= 16384 -> sinv a0 (stepped_activate a0) 0.
Proof.
  intros a0 H. assert (SB := st_bounds). assert (TB := tw_bounds). unfold sinv, stepped_activate. split; [auto|].
  split; [apply trunc_range; lra|]. split; [unfold near; lra|].
  destruct (trunc_mod a0) as (n & N). exists n. rewrite N. ring.
Qed.
Lemma sinv_run : forall is ds prev angle x, sinv prev angle x -> turned prev ds (map fst is) -> Forall2 allowed ds is ->
  exists prev' x', sinv prev' (run_state sloop angle is) x' /\
    x' == x + total ds - weighted is_next (map (fun i => fast_step spr (snd i)) is) (run_outs sloop angle is) /\
    (is <> [] -> prev' = List.last (map fst is) 0) /\ (is = [] -> prev' = prev).
Proof.
  induction is as [|i is IH]; intros ds prev angle x V T F.
  - inversion F; subst. exists prev, x. split; [auto|]. split; [cbn; lra|]. split; [congruence|auto].
  - inversion F as [|d ? ds' ? A F']; subst. cbn [map] in T. destruct T as [T T2].
    assert (H := sinv_step prev angle x d i V A T).
    cbn [run_state run_outs map]. destruct (sloop angle i) as [angle' o]. destruct H as (H & _).
    destruct (IH ds' (fst i) angle' _ H T2 F') as (p & y & B & C & D & E).
    exists p, y. split; [exact B|]. split; [|split; [|congruence]].
    + rewrite C. cbn [total fold_right weighted]. fold (total ds'). rewrite moved_sign.
      destruct A as [G _]. destruct (acc_of (snd i) G) as [EQ _]. rewrite EQ. ring.
    + intros _. destruct is as [|j is].
      * rewrite E by auto. reflexivity.
      * rewrite D by congruence. reflexivity.
Qed.

Theorem fast_track : forall a0 ds is, - (16384) <= a0 <= 16384 -> turned a0 ds (map fst is) -> Forall2 allowed ds is ->
  near (total ds) (weighted is_next (map (fun i => fast_step spr (snd i)) is) (run_outs sloop (stepped_activate a0) is)) (reach spr dz).
Proof.
  intros a0 ds is R T F.
  destruct (sinv_run is ds a0 _ 0 (sinv_start a0 R) T F) as (p & y & (_ & _ & N & _) & E & _).
  unfold near in *. rewrite <- tw_of. lra.
Qed.
Lemma weighted_slow : forall is os, Forall (fun i => snd i <= 360) is -> length os = length is ->
  weighted is_next (map (fun i : Q * Q => fast_step spr (snd i)) is) os == inject_Z (net is_next os) * step_of spr.
Proof.
  induction is as [|i is IH]; intros [|o os] F L; try discriminate L.
  - cbn. ring.
  - inversion F; subst. cbn [map weighted net fold_right]. fold (net is_next os). rewrite IH by (auto; cbn in L; lia).
    rewrite inject_Z_plus. unfold fast_step at 1. destruct (Qlt_le_dec 360 (snd i)); [lra|ring].
Qed.
Lemma outs_length : forall is a, length (run_outs sloop a is) = length is.
Proof. induction is as [|i is IH]; intros a; [reflexivity|]. cbn [run_outs]. destruct (sloop a i). cbn. rewrite IH. reflexivity. Qed.
Theorem slow_track : forall a0 ds is, - (16384) <= a0 <= 16384 -> turned a0 ds (map fst is) ->
  Forall (fun i => snd i <= 360) is -> Forall2 allowed ds is ->
  near (total ds) (inject_Z (net is_next (run_outs sloop (stepped_activate a0) is)) * step_of spr) (reach spr dz).
Proof.
  intros a0 ds is R T S F. assert (H := fast_track a0 ds is R T F).
  unfold near in *. rewrite weighted_slow in H by (auto; apply outs_length). exact H.
Qed.
Lemma still_none : forall is prev angle x, sinv prev angle x -> turned prev (map (fun _ => 0) is) (map fst is) ->
  Forall (fun i => 0 <= snd i) is -> Forall (fun o => o = None) (run_outs sloop angle is).
Proof.
  induction is as [|i is IH]; intros prev angle x V T F; [constructor|].
  inversion F as [|? ? F1 F2]; subst. cbn [map] in T. destruct T as [T T2].
  assert (A : allowed 0 i). { split; [auto|]. destruct (acc_of (snd i) F1) as [EQ B]. rewrite <- EQ. lra. }
  assert (H := sinv_step prev angle x 0 i V A T).
  cbn [run_outs]. destruct (sloop angle i) as [angle' o]. destruct H as (H & H1 & H2).
  assert (ON : o = None).
  { destruct V as (_ & _ & N & _). unfold near in N. destruct o as [[|]|]; auto.
    - assert (tw < x + 0) by (apply H1; auto). lra.
    - assert (x + 0 < - tw) by (apply H2; auto). lra. }
  constructor; [auto|]. eapply IH; eauto.
Qed.
Lemma run_outs_app : forall (A B C : Type) (f : A -> B -> A * C) l1 l2 a,
  run_outs f a (l1 ++ l2) = run_outs f a l1 ++ run_outs f (run_state f a l1) l2 /\
  run_state f a (l1 ++ l2) = run_state f (run_state f a l1) l2.
Proof.
  intros A B C f. induction l1 as [|b l1 IH]; intros l2 a; [auto|].
  cbn [app run_outs run_state]. destruct (f a b) as [a' c]. cbn. destruct (IH l2 a') as [E1 E2]. rewrite E1, E2. auto.
Qed.
Theorem still : forall a0 ds is is2, - (16384) <= a0 <= 16384 -> turned a0 ds (map fst is) -> Forall2 allowed ds is ->
  turned (List.last (map fst is) a0) (map (fun _ => 0) is2) (map fst is2) -> Forall (fun i => 0 <= snd i) is2 ->
  Forall (fun o => o = None) (run_outs sloop (run_state sloop (stepped_activate a0) is) is2).
Proof.
  intros a0 ds is is2 R T F T2 G.
  destruct (sinv_run is ds a0 _ 0 (sinv_start a0 R) T F) as (p & y & V & _ & L & L0).
  apply (still_none is2 p _ y V); auto.
  destruct is as [|i is].
  - rewrite L0 by auto. exact T2.
  - rewrite L by congruence. assert (E : forall (l : list Q) x a b, List.last (x :: l) a = List.last (x :: l) b).
    { induction l as [|c l IH]; intros; [reflexivity|]. cbn [List.last] in *. apply (IH c). }
    cbn [map] in *. rewrite (E _ _ 0 a0). exact T2.
Qed.

Lemma quiet_run : forall is ds prev angle x, sinv prev angle x -> turned prev ds (map fst is) -> Forall2 allowed ds is ->
  Forall (fun o => o = None) (run_outs sloop angle is) ->
  exists prev' x', sinv prev' (run_state sloop angle is) x' /\ x' == x + total ds /\
    forall d2 i2, turned prev (ds ++ [d2]) (map fst (is ++ [i2])) -> turns prev' d2 (fst i2).
Proof.
  induction is as [|i is IH]; intros ds prev angle x V T F Q0.
  - inversion F; subst. exists prev, x. split; [auto|]. split; [cbn; lra|]. cbn. intros d2 i2 [H _]. exact H.
  - inversion F as [|d ? ds' ? A F']; subst. cbn [map] in T. destruct T as [T T2].
    assert (H := sinv_step prev angle x d i V A T).
    cbn [run_state run_outs] in *. destruct (sloop angle i) as [angle' o]. destruct H as (H & _).
    inversion Q0 as [|? ? Q1 Q2]; subst. cbn [moved] in H.
    destruct (IH ds' (fst i) angle' _ H T2 F' Q2) as (p & y & B & C & D).
    exists p, y. split; [exact B|]. split.
    + rewrite C. cbn [total fold_right]. fold (total ds'). ring.
    + intros d2 i2 [_ T3]. apply D. exact T3.
Qed.
Lemma f2len : forall A B (P : A -> B -> Prop) l m, Forall2 P l m -> length l = length m.
Proof. intros A B P l m H. induction H; cbn; auto. Qed.
Lemma app_len_inj : forall A (a b c d : list A), length a = length c -> a ++ b = c ++ d -> a = c /\ b = d.
Proof.
  intros A. induction a as [|x a IH]; intros b [|y c] d L H; try discriminate L; [auto|].
  injection H as -> H. destruct (IH b c d ltac:(cbn in L; lia) H) as [-> ->]. auto.
Qed.
(** Turning back after a step. *)
Theorem back : forall a0 ds1 is1 d1 i1 ds2 is2 d2 i2 (b : bool),
  - (16384) <= a0 <= 16384 ->
  turned a0 (ds1 ++ d1 :: ds2 ++ [d2]) (map fst (is1 ++ i1 :: is2 ++ [i2])) ->
  Forall2 allowed ds1 is1 -> Forall2 allowed ds2 is2 -> allowed d1 i1 -> allowed d2 i2 ->
  snd i1 <= 360 ->
  run_outs sloop (stepped_activate a0) (is1 ++ i1 :: is2 ++ [i2]) =
    run_outs sloop (stepped_activate a0) is1 ++ Some (if b then Next else Prev) :: map (fun _ => None) is2 ++ [Some (if b then Prev else Next)] ->
  if b then total (ds2 ++ [d2]) < - (step_of spr * inject_Z dz / 200) else step_of spr * inject_Z dz / 200 < total (ds2 ++ [d2]).
Proof.
  intros a0 ds1 is1 d1 i1 ds2 is2 d2 i2 b R T F1 F2 A1 A2 SL O.
  assert (SPL : forall l1 l2 ds1' ds2' p, length ds1' = length l1 -> turned p (ds1' ++ ds2') (l1 ++ l2) ->
     turned p ds1' l1 /\ turned (List.last l1 p) ds2' l2).
  { induction l1 as [|c l1 IH]; intros l2 [|e ds1'] ds2' p L H; try discriminate L; [split; [exact I|exact H]|].
    destruct H as [H1 H2]. destruct (IH l2 ds1' ds2' c ltac:(cbn in L; lia) H2) as [H3 H4].
    split; [split; auto|]. destruct l1 as [|c2 l1]; [exact H4|].
    cbn [List.last] in H4 |- *. clear - H4.
    assert (E : forall (l : list Q) x a b, List.last (x :: l) a = List.last (x :: l) b).
    { induction l as [|e l IH]; intros; [reflexivity|]. cbn [List.last] in *. apply (IH e). }
    change (turned (List.last (c2 :: l1) p) ds2' l2). rewrite (E _ _ p c). exact H4. }
  rewrite map_app in T.
  assert (L1 : length ds1 = length (map fst is1)) by (rewrite map_length; apply (f2len _ _ _ _ _ F1)).
  destruct (SPL _ _ _ _ _ L1 T) as [T1 T2].
  destruct (sinv_run is1 ds1 a0 _ 0 (sinv_start a0 R) T1 F1) as (p & x & V & _ & L & L0).
  assert (PE : p = List.last (map fst is1) a0).
  { destruct is1 as [|i is]; [apply L0; auto|]. rewrite L by congruence.
    assert (E : forall (l : list Q) x a b, List.last (x :: l) a = List.last (x :: l) b).
    { induction l as [|e l IH]; intros; [reflexivity|]. cbn [List.last] in *. apply (IH e). }
    cbn [map]. apply E. }
  rewrite <- PE in T2. cbn [map] in T2. destruct T2 as [T2 T3].
  destruct (run_outs_app _ _ _ sloop is1 (i1 :: is2 ++ [i2]) (stepped_activate a0)) as [EO _].
  rewrite EO in O. apply app_inv_head in O.
  assert (H := sinv_step p _ x d1 i1 V A1 T2).
  cbn [run_outs] in O. destruct (sloop (run_state sloop (stepped_activate a0) is1) i1) as [an o].
  injection O as O1 O2. destruct H as (V1 & N1 & N2).
  destruct (run_outs_app _ _ _ sloop is2 [i2] an) as [EO2 _]. rewrite EO2 in O2.
  assert (LL : length (run_outs sloop an is2) = length (map (fun _ : Q * Q => @None dir) is2)) by (rewrite outs_length, map_length; auto).
  assert (OO : run_outs sloop an is2 = map (fun _ => None) is2 /\ run_outs sloop (run_state sloop an is2) [i2] = [Some (if b then Prev else Next)]).
  { apply app_len_inj; auto. }
  destruct OO as [O3 O4].
  rewrite map_app in T3.
  assert (L2 : length ds2 = length (map fst is2)) by (rewrite map_length; apply (f2len _ _ _ _ _ F2)).
  destruct (SPL _ _ _ _ _ L2 T3) as [T4 T5].
  assert (NN : Forall (fun o => o = None) (run_outs sloop an is2)).
  { rewrite O3. apply Forall_forall. intros y Y. apply in_map_iff in Y. destruct Y as (? & <- & _). auto. }
  destruct (quiet_run is2 ds2 (fst i1) an _ V1 T4 F2 NN) as (p2 & y & V2 & Y & TT).
  assert (T6 := TT d2 i2 ltac:(rewrite map_app; exact T3)).
  assert (H := sinv_step p2 _ y d2 i2 V2 A2 T6).
  cbn [run_outs] in O4. destruct (sloop (run_state sloop an is2) i2) as [an2 o2].
  injection O4 as O4. destruct H as (_ & N3 & N4).
  assert (AC : accelerated spr (snd i1) == st).
  { destruct A1 as [G _]. destruct (acc_of _ G) as [EQ _]. rewrite EQ, st_of. unfold fast_step. destruct (Qlt_le_dec 360 (snd i1)); [lra|reflexivity]. }
  assert (TW := tw_eq). assert (STO := st_of).
  assert (TD : total (ds2 ++ [d2]) == total ds2 + d2).
  { clear. induction ds2 as [|c ds IH]; cbn [app total fold_right]; [cbn; ring|]. fold (total (ds ++ [d2])). fold (total ds). rewrite IH. ring. }
  assert (KK : step_of spr * inject_Z dz / 200 == 2 * tw - st).
  { rewrite TW, <- STO. field. }
  destruct b; subst o o2; cbn [moved] in Y.
  - assert (tw < x + d1) by (apply N1; auto). assert (y + d2 < - tw) by (apply N4; auto). rewrite AC in Y. lra.
  - assert (x + d1 < - tw) by (apply N2; auto). assert (tw < y + d2) by (apply N3; auto). rewrite AC in Y. lra.
Qed.
End S.
