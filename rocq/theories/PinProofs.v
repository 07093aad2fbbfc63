(** Proofs about shared power pins. *)
From Coq Require Import ZArith List Bool PeanoNat Lia ZifyBool ZifyNat.
From Verif Require Import Machine ColorModel PinModel PinSpec.
Import ListNotations.
Open Scope Z_scope.

Definition count (f : nat -> bool) (n : nat) : Z := Z.of_nat (length (filter f (seq 0 n))).
Lemma count_ext f g n : (forall u, (u < n)%nat -> f u = g u) -> count f n = count g n.
Proof. intros H. unfold count. f_equal. f_equal. apply filter_ext_in. intros a A. apply H. apply in_seq in A. lia. Qed.
Lemma count_S f n : count f (S n) = count f n + (if f n then 1 else 0).
Proof. unfold count. rewrite seq_S, filter_app, app_length. cbn. destruct (f n); cbn; lia. Qed.
Lemma count_set f u v n : (u < n)%nat -> count (set_on f u v) n = count f n + (if v then 1 else 0) - (if f u then 1 else 0).
Proof.
  induction n as [|n IH]; intros U; [lia|]. rewrite !count_S. destruct (Nat.eq_dec u n) as [->|N].
  - rewrite (count_ext (set_on f n v) f n). 2: { intros x X. unfold set_on. destruct (Nat.eqb_spec x n); [lia|reflexivity]. }
    unfold set_on at 1. rewrite Nat.eqb_refl. destruct v, (f n); lia.
  - rewrite IH by lia. unfold set_on at 1. destruct (Nat.eqb_spec n u); [lia|]. destruct v, (f u), (f n); lia.
Qed.
Lemma count_bound f n : 0 <= count f n <= Z.of_nat n.
Proof. induction n as [|n IH]; [cbn; lia|]. rewrite count_S. destruct (f n); lia. Qed.
Lemma count_zero f n : count f n = 0 <-> forall u, (u < n)%nat -> f u = false.
Proof.
  induction n as [|n IH]; [cbn; split; [intros; lia|auto]|]. rewrite count_S. pose proof (count_bound f n) as B. split.
  - intros H u U. destruct (f n) eqn:E; [lia|]. destruct (Nat.eq_dec u n) as [->|]; [exact E|]. apply IH; lia.
  - intros H. rewrite (H n) by lia. rewrite (proj2 IH); [reflexivity|]. intros; apply H; lia.
Qed.
Definition pin_ok (n : nat) (qs : list req) (p : pin) : Prop :=
  (forall u, on_ p u = wants qs u) /\ refs p = count (wants qs) n /\ init_refs p = count (in_use qs) n /\
  output p = negb (init_refs p =? 0) /\ level p = negb (refs p =? 0) /\
  (forall u, wants qs u = true -> in_use qs u = true /\ (u < n)%nat).
Lemma u8_small x : 0 <= x <= 255 -> u8 x = x.
Proof. intros. apply Z.mod_small. lia. Qed.
Lemma power_ok n qs p u v : Z.of_nat n <= 255 -> (u < n)%nat -> (v = true -> in_use qs u = true) -> pin_ok n qs p -> pin_ok n (Power u v :: qs) (power p u v).
Proof.
  intros N U V (A & B & C & D & E & F). unfold power, pin_ok. cbn [in_use].
  assert (W : forall x, wants (Power u v :: qs) x = set_on (wants qs) u v x).
  { intros x. cbn. unfold set_on. rewrite Nat.eqb_sym. reflexivity. }
  assert (WC : count (wants (Power u v :: qs)) n = count (wants qs) n + (if v then 1 else 0) - (if wants qs u then 1 else 0)).
  { rewrite <- count_set by exact U. apply count_ext. intros; apply W. }
  assert (G : forall x, wants (Power u v :: qs) x = true -> in_use qs x = true /\ (x < n)%nat).
  { intros x. rewrite W. unfold set_on. destruct (Nat.eqb_spec x u) as [->|]; [intros ->; auto|apply F]. }
  pose proof (count_bound (wants qs) n) as CB. pose proof (count_bound (wants (Power u v :: qs)) n) as CB2.
  destruct (Bool.eqb v (on_ p u)) eqn:EV.
  - apply Bool.eqb_prop in EV. rewrite (A u) in EV. rewrite WC, <- EV.
    split; [|split; [|split; [|split; [|split]]]]; auto.
    + intros x. rewrite W. unfold set_on. destruct (Nat.eqb_spec x u) as [->|]; [rewrite A; auto|apply A].
    + rewrite B. destruct v; lia.
  - apply Bool.eqb_false_iff in EV. rewrite (A u) in EV. unfold single_power. cbn [refs init_refs output level on_].
    assert (R : u8 (refs p + (if v then 1 else -1)) = count (wants (Power u v :: qs)) n).
    { rewrite WC, B. rewrite u8_small; [destruct v, (wants qs u); try congruence; lia|].
      rewrite WC in CB2. destruct v, (wants qs u) eqn:EW; try congruence; lia. }
    rewrite R. split; [|split; [|split; [|split; [|split]]]]; auto.
    intros x. rewrite W. unfold set_on. rewrite A. reflexivity.
Qed.
Lemma step_ok n qs p q : Z.of_nat n <= 255 -> proper n (q :: qs) -> pin_ok n qs p -> pin_ok n (q :: qs) (pin_step p q).
Proof.
  intros N (_ & PR) OK. destruct q as [u|u|u v]; cbn [pin_step].
  - destruct PR as (U & NU). destruct OK as (A & B & C & D & E & F). unfold pin_ok. cbn [wants].
    assert (IU : forall x, in_use (Init u :: qs) x = set_on (in_use qs) u true x) by (intros x; cbn; unfold set_on; rewrite Nat.eqb_sym; reflexivity).
    assert (IC : count (in_use (Init u :: qs)) n = count (in_use qs) n + 1).
    { rewrite (count_ext _ (set_on (in_use qs) u true)) by (intros; apply IU). rewrite count_set by exact U. rewrite NU. lia. }
    pose proof (count_bound (in_use (Init u :: qs)) n) as CB. pose proof (count_bound (in_use qs) n) as CB1.
    assert (I8 : u8 (init_refs p + 1) = count (in_use (Init u :: qs)) n) by (rewrite C, IC; apply u8_small; lia).
    assert (G : forall x, wants qs x = true -> in_use (Init u :: qs) x = true /\ (x < n)%nat).
    { intros x X. rewrite IU. unfold set_on. destruct (Nat.eqb_spec x u) as [->|]; [auto|apply F; exact X]. }
    assert (W0 : init_refs p = 0 -> refs p = 0).
    { intros Z0. rewrite B. apply count_zero. intros x X. destruct (wants qs x) eqn:EW; [|reflexivity]. destruct (F x EW) as (I1 & _).
      rewrite C in Z0. rewrite (proj1 (count_zero _ _) Z0 x X) in I1. discriminate. }
    rewrite I8. destruct (Z.eqb_spec (init_refs p) 0) as [E0|E0]; cbn [refs init_refs output level on_];
      (split; [|split; [|split; [|split; [|split]]]]); auto; try lia.
  - destruct PR as (U & IU0). pose proof (power_ok n qs p u false N U ltac:(discriminate) OK) as OK2.
    set (p' := power p u false) in *. destruct OK2 as (A & B & C & D & E & F). unfold pin_ok.
    assert (W : forall x, wants (DeInit u :: qs) x = wants (Power u false :: qs) x) by (intros; reflexivity).
    assert (IU : forall x, in_use (DeInit u :: qs) x = set_on (in_use qs) u false x) by (intros x; cbn; unfold set_on; rewrite Nat.eqb_sym; reflexivity).
    assert (IC : count (in_use (DeInit u :: qs)) n = count (in_use qs) n - 1).
    { rewrite (count_ext _ (set_on (in_use qs) u false)) by (intros; apply IU). rewrite count_set by exact U. rewrite IU0. lia. }
    pose proof (count_bound (in_use (DeInit u :: qs)) n) as CB. pose proof (count_bound (in_use qs) n) as CB1. assert (C2 : init_refs p' = count (in_use qs) n) by exact C. clear C. rename C2 into C.
    assert (I8 : u8 (init_refs p' - 1) = count (in_use (DeInit u :: qs)) n) by (rewrite C, IC; apply u8_small; lia).
    assert (G : forall x, wants (DeInit u :: qs) x = true -> in_use (DeInit u :: qs) x = true /\ (x < n)%nat).
    { intros x X. rewrite W in X. destruct (F x X) as (F1 & F2). split; [|exact F2]. rewrite IU. unfold set_on. cbn in X. destruct (Nat.eqb_spec x u) as [->|NE]; [rewrite Nat.eqb_refl in X; discriminate|exact F1]. }
    change (refs p' = count (wants (DeInit u :: qs)) n) in B.
    assert (D' : output p' = true) by (rewrite D, C; lia).
    rewrite I8. destruct (Z.eqb_spec (count (in_use (DeInit u :: qs)) n) 0) as [E0|E0]; cbn [refs init_refs output level on_];
      (split; [|split; [|split; [|split; [|split]]]]); auto; try lia.
  - destruct PR as (U & V). apply power_ok; assumption.
Qed.
Lemma pin_run_ok n qs : Z.of_nat n <= 255 -> proper n qs -> pin_ok n qs (run pin_step pin0 (rev qs)).
Proof.
  intros N. induction qs as [|q qs IH]; intros P.
  - cbn. split; [|split; [|split; [|split; [|split]]]]; cbn; auto; try discriminate.
    + symmetry. apply count_zero. auto.
    + symmetry. apply count_zero. auto.
  - cbn [rev]. rewrite run_snoc. apply step_ok; [exact N|exact P|]. apply IH. exact (proj1 P).
Qed.
