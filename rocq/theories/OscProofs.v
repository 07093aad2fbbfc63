From Coq Require Import ZArith QArith Qround List Bool Lia ZifyBool Lqa.
From Verif Require Import ArithModel PovModel PovProofs BlendModel OscModel OscSpec.
Import ListNotations.
Local Open Scope Z_scope.

Notation trunc := PovModel.to_int.
Lemma trunc_eq : forall x y : Q, (x == y)%Q -> trunc x = trunc y.
Proof.
  intros [a b] [c d] H. unfold Qeq, trunc in *. cbn [Qnum Qden] in *.
  rewrite <- (Z.quot_mul_cancel_r a (Zpos b) (Zpos d)) by lia. rewrite <- (Z.quot_mul_cancel_r c (Zpos d) (Zpos b)) by lia.
  rewrite H. f_equal. lia.
Qed.
Lemma trunc_between : forall x a b, (inject_Z a <= x)%Q -> (x <= inject_Z b)%Q -> a <= trunc x <= b.
Proof.
  intros [n d] a b H1 H2. unfold Qle, inject_Z, trunc in *. cbn [Qnum Qden] in *. rewrite Z.mul_1_r in *.
  pose proof (Z.quot_rem n (Zpos d) ltac:(lia)) as E. pose proof (Z.rem_bound_abs n (Zpos d) ltac:(lia)) as B.
  destruct (Z_lt_le_dec n 0).
  - pose proof (Z.rem_nonpos n (Zpos d) ltac:(lia) ltac:(lia)). nia.
  - pose proof (Z.rem_nonneg n (Zpos d) ltac:(lia) ltac:(lia)). nia.
Qed.
Lemma trunc_near : forall x, (inject_Z (trunc x) - 1 < x)%Q /\ (x < inject_Z (trunc x) + 1)%Q.
Proof.
  intros [n d]. unfold Qlt, Qminus, Qopp, Qplus, inject_Z, trunc. cbn [Qnum Qden].
  pose proof (Z.quot_rem n (Zpos d) ltac:(lia)) as E. pose proof (Z.rem_bound_abs n (Zpos d) ltac:(lia)) as B.
  rewrite ?Pos.mul_1_l, ?Z.mul_1_r. split; lia.
Qed.

(** The sine table *)
Definition table_ok (k : nat) : bool := let s := BlendModel.sin_table (Z.of_nat k) in (-16383 <=? s) && (s <=? 16383).
Lemma table_all : forallb table_ok (seq 0 1024) = true.
Proof. vm_compute. reflexivity. Qed.
Lemma table_range : forall i, 0 <= i < 1024 -> -16383 <= BlendModel.sin_table i <= 16383.
Proof.
  intros i H. pose proof table_all as T. rewrite forallb_forall in T. specialize (T (Z.to_nat i)).
  unfold table_ok in T. rewrite Z2Nat.id in T by lia. assert (In (Z.to_nat i) (seq 0 1024)) by (apply in_seq; lia).
  specialize (T H0). cbv zeta in T. lia.
Qed.
Lemma floor_1024 : forall p, (0 <= p)%Q -> (p < 1)%Q -> 0 <= Qfloor (p * 1024) < 1024.
Proof.
  intros p H1 H2. pose proof (Qfloor_le (p * 1024)) as A. pose proof (Qlt_floor (p * 1024)) as B.
  split.
  - assert (X : (inject_Z 0 < inject_Z (Qfloor (p * 1024) + 1))%Q) by (eapply Qle_lt_trans; [|exact B]; change (inject_Z 0) with 0%Q; lra).
    rewrite <- Zlt_Qlt in X. lia.
  - assert (X : (inject_Z (Qfloor (p * 1024)) < inject_Z 1024)%Q) by (eapply Qle_lt_trans; [exact A|]; change (inject_Z 1024) with 1024%Q; lra).
    rewrite <- Zlt_Qlt in X. lia.
Qed.
Lemma look_some : forall p, (0 <= p)%Q -> (p < 1)%Q -> look p = Some (BlendModel.sin_table (Qfloor (p * 1024))).
Proof.
  intros p H1 H2. unfold look. pose proof (floor_1024 p H1 H2). cbv zeta.
  replace ((0 <=? _) && _) with true by lia. reflexivity.
Qed.
Lemma look_eq : forall p q, (p == q)%Q -> look p = look q.
Proof. intros p q H. unfold look. rewrite (Qfloor_comp (p * 1024) (q * 1024)); auto. rewrite H. reflexivity. Qed.

(** Positions *)
Definition placed (o : osc) (x : Q) : Prop := exists p k, pos o = Some p /\ (p == x + inject_Z k)%Q.
Definition ready (o : osc) : Prop := exists p, pos o = Some p /\ (0 <= p)%Q /\ (p < 1)%Q.
Lemma move_ready : forall st now o p, pos o = Some p -> ready (move st now o) /\ placed (move st now o) (p + st)%Q /\ last (move st now o) = now.
Proof.
  intros st now o p H. unfold move, ready, placed. rewrite H. cbn [pos last]. destruct (fract_range (p + st)) as [A B].
  repeat split; eauto. eexists. exists (- Qfloor (p + st)). split; [reflexivity|]. unfold fract. rewrite inject_Z_opp. lra.
Qed.
Lemma same_place : forall o1 o2 x y k, ready o1 -> ready o2 -> placed o1 x -> placed o2 y -> (y == x + inject_Z k)%Q ->
  exists p q, pos o1 = Some p /\ pos o2 = Some q /\ (p == q)%Q.
Proof.
  intros o1 o2 x y k (p & P1 & P2 & P3) (q & Q1 & Q2 & Q3) (p' & i & A1 & A2) (q' & j & B1 & B2) H.
  rewrite P1 in A1. injection A1 as <-. rewrite Q1 in B1. injection B1 as <-. exists p, q. repeat split; auto.
  assert (E : (q == p + inject_Z (k + j - i))%Q).
  { rewrite B2, H, A2. unfold Z.sub. rewrite !inject_Z_plus, inject_Z_opp. ring. }
  assert (Z0 : k + j - i = 0).
  { assert (L1 : (inject_Z (k + j - i) < inject_Z 1)%Q) by (change (inject_Z 1) with 1%Q; lra).
    assert (L2 : (inject_Z (-1) < inject_Z (k + j - i))%Q) by (change (inject_Z (-1)) with (-1)%Q; lra).
    rewrite <- Zlt_Qlt in L1, L2. lia. }
  rewrite Z0 in E. change (inject_Z 0) with 0%Q in E. lra.
Qed.

(** A function that steps by [rate] a microsecond *)
Definition steps_by (f : Z -> osc -> osc * option Z) (rate : Q) (val : Q -> option Z) : Prop :=
  forall now o p, pos o = Some p ->
    let o' := fst (f now o) in ready o' /\ placed o' (p + inject_Z (lapse (last o) now) * rate)%Q /\ last o' = now /\
    snd (f now o) = match pos o' with Some p => val p | None => None end.
Lemma calls_place : forall f rate val ts o p, steps_by f rate val -> pos o = Some p ->
  placed (fst (calls f o ts)) (p + inject_Z (total (last o) ts) * rate)%Q.
Proof.
  intros f rate val ts. induction ts as [|t ts IH]; intros o p S P; cbn [calls total].
  - exists p, 0. split; auto. change (inject_Z 0) with 0%Q. ring.
  - destruct (S t o p P) as ((p' & P1 & _) & (q & k & Q1 & Q2) & L & _).
    destruct (f t o) as [o' v]. cbn [fst] in *. rewrite P1 in Q1. injection Q1 as <-.
    specialize (IH o' p' S P1). destruct (calls f o' ts) as [o'' vs]. cbn [fst] in *. rewrite L in IH.
    destruct IH as (r & j & R1 & R2). exists r, (k + j). split; auto. rewrite R2, Q2, !inject_Z_plus. ring.
Qed.
Lemma calls_ready : forall f rate val ts o, steps_by f rate val -> ready o -> ready (fst (calls f o ts)).
Proof.
  intros f rate val ts. induction ts as [|t ts IH]; intros o S R; cbn [calls]; auto.
  destruct R as (p & P & _). destruct (S t o p P) as (R' & _). destruct (f t o) as [o' v]. cbn [fst] in *.
  specialize (IH o' S R'). destruct (calls f o' ts). exact IH.
Qed.
Lemma calls_snoc : forall f t2 ts o, fst (calls f o (ts ++ [t2])) = fst (f t2 (fst (calls f o ts))).
Proof.
  intros f t2 ts. induction ts as [|t ts IH]; intros o; cbn [app calls].
  - cbn [fst]. destruct (f t2 o). reflexivity.
  - destruct (f t o) as [o' v]. specialize (IH o'). destruct (calls f o' (ts ++ [t2])). destruct (calls f o' ts).
    cbn [fst] in *. exact IH.
Qed.
(** A whole number of turns later the value is the same. *)
Lemma round : forall f rate val o now ts now2 k, steps_by f rate val -> (forall p q, (p == q)%Q -> val p = val q) ->
  pos o <> None -> let o1 := fst (f now o) in
  (inject_Z (total now (ts ++ [now2])) * rate == inject_Z k)%Q ->
  snd (f now2 (fst (calls f o1 ts))) = snd (f now o).
Proof.
  intros f rate val o now ts now2 k S V P o1 H. destruct (pos o) as [p|] eqn:E; [|congruence].
  destruct (S now o p E) as (R1 & _ & L1 & V1). fold o1 in R1, L1, V1.
  destruct R1 as (p1 & P1 & B1). assert (R1 : ready o1) by (exists p1; auto).
  pose proof (calls_ready f rate val ts o1 S R1) as R2. destruct R2 as (p2 & P2 & _).
  set (o2 := fst (calls f o1 ts)) in *.
  destruct (S now2 o2 p2 P2) as (R3 & _ & _ & V3).
  pose proof (calls_place f rate val (ts ++ [now2]) o1 p1 S P1) as PL. rewrite L1 in PL.
  assert (EC : fst (calls f o1 (ts ++ [now2])) = fst (f now2 o2)).
  { apply calls_snoc. }
  rewrite EC in PL.
  destruct (same_place o1 (fst (f now2 o2)) p1 (p1 + inject_Z (total now (ts ++ [now2])) * rate)%Q k R1 R3) as (x & y & X & Y & XY); [exists p1, 0; split; auto; change (inject_Z 0) with 0%Q; ring|exact PL| |].
  { rewrite H. ring. }
  rewrite V3, V1, X, Y. symmetry. apply V. exact XY.
Qed.

Lemma sin_steps : forall rpm low high, steps_by (sin_calculate rpm low high) (inject_Z rpm / 60000000)%Q (sin_value low high).
Proof.
  intros rpm low high now o p P. unfold sin_calculate. cbn [fst snd].
  destruct (move_ready (inject_Z (delta now o) / 60000000 * inject_Z rpm) now o p P) as (R & (q & k & Q1 & Q2) & L).
  repeat split; auto. exists q, k. split; auto. rewrite Q2. unfold delta, u32, lapse. field.
Qed.
Lemma saw_steps : forall rpm low high, steps_by (saw_calculate rpm low high) (inject_Z rpm / 60000000)%Q (fun p => Some (saw_value low high p)).
Proof.
  intros rpm low high now o p P. unfold saw_calculate. cbn [fst snd].
  destruct (move_ready (inject_Z (delta now o) / 60000000 * inject_Z rpm) now o p P) as (R & (q & k & Q1 & Q2) & L).
  repeat split; auto. exists q, k. split; auto. rewrite Q2. unfold delta, u32, lapse. field.
Qed.
Lemma pulse_steps : forall m, m <> 0 -> steps_by (pulse_calculate m) (1 / (1000 * inject_Z m))%Q pulse_value.
Proof.
  intros m M now o p P. unfold pulse_calculate. replace (m =? 0) with false by lia. cbn [fst snd].
  destruct (move_ready (inject_Z (delta now o) / (1000 * inject_Z m)) now o p P) as (R & (q & k & Q1 & Q2) & L).
  repeat split; auto. exists q, k. split; auto. rewrite Q2. unfold delta, u32, lapse. field.
  intros X. unfold Qeq in X. cbn [Qnum Qden inject_Z] in X. lia.
Qed.
Lemma sin_value_eq : forall low high p q, (p == q)%Q -> sin_value low high p = sin_value low high q.
Proof. intros. unfold sin_value. rewrite (look_eq p q) by auto. reflexivity. Qed.
Lemma saw_value_eq : forall low high p q, (p == q)%Q -> Some (saw_value low high p) = Some (saw_value low high q).
Proof. intros. unfold saw_value. f_equal. apply trunc_eq. rewrite H. reflexivity. Qed.
Lemma pulse_value_eq : forall p q, (p == q)%Q -> pulse_value p = pulse_value q.
Proof. intros. unfold pulse_value. rewrite (look_eq p q) by auto. reflexivity. Qed.

Lemma mix_between : forall a b f, (0 <= f)%Q -> (f <= 1)%Q ->
  (inject_Z (Z.min a b) <= f * inject_Z (b - a) + inject_Z a)%Q /\ (f * inject_Z (b - a) + inject_Z a <= inject_Z (Z.max a b))%Q.
Proof.
  intros a b f H1 H2. unfold Z.sub. rewrite inject_Z_plus, inject_Z_opp.
  destruct (Z_le_dec a b) as [L|L].
  - rewrite Z.min_l, Z.max_r by lia. assert (L' : (inject_Z a <= inject_Z b)%Q) by (rewrite <- Zle_Qle; exact L). split; nra.
  - rewrite Z.min_r, Z.max_l by lia. assert (L' : (inject_Z b <= inject_Z a)%Q) by (rewrite <- Zle_Qle; lia). split; nra.
Qed.
