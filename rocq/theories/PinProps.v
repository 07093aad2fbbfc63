(** C53 shared power pins. *)
From Coq Require Import ZArith List Bool PeanoNat Lia ZifyBool ZifyNat.
From Verif Require Import Machine ColorModel PinModel PinSpec PinProofs.
Import ListNotations.
Open Scope Z_scope.

(** C53: after any proper requests by up to 255 users (latest first), the pin is driven exactly
    while some user has it initialised, and is high exactly while some user wants power. *)
Theorem C53_shared : forall n qs, Z.of_nat n <= 255 -> proper n qs ->
  let p := run pin_step pin0 (rev qs) in
  (output p = true <-> exists u, in_use qs u = true /\ (u < n)%nat) /\
  (level p = true <-> exists u, wants qs u = true).
Proof.
  intros n qs N P p. destruct (pin_run_ok n qs N P) as (A & B & C & D & E & F). fold p in A, B, C, D, E. split.
  - rewrite D, C. destruct (Z.eqb_spec (count (in_use qs) n) 0) as [Z0|Z0]; cbn [negb].
    + split; [discriminate|]. intros (u & I & U). rewrite (proj1 (count_zero _ _) Z0 u U) in I. discriminate.
    + split; [intros _|auto]. assert (H : existsb (in_use qs) (seq 0 n) = true).
      { apply not_false_iff_true. intros H. apply Z0. apply count_zero. intros u U. destruct (in_use qs u) eqn:EU; [|reflexivity].
        rewrite <- H. symmetry. apply existsb_exists. exists u. split; [apply in_seq; lia|exact EU]. }
      apply existsb_exists in H as (u & U1 & U2). exists u. apply in_seq in U1. split; [exact U2|lia].
  - rewrite E, B. destruct (Z.eqb_spec (count (wants qs) n) 0) as [Z0|Z0]; cbn [negb].
    + split; [discriminate|]. intros (u & W). destruct (F u W) as (_ & U). rewrite (proj1 (count_zero _ _) Z0 u U) in W. discriminate.
    + split; [intros _|auto]. assert (H : existsb (wants qs) (seq 0 n) = true).
      { apply not_false_iff_true. intros H. apply Z0. apply count_zero. intros u U. destruct (wants qs u) eqn:EU; [|reflexivity].
        rewrite <- H. symmetry. apply existsb_exists. exists u. split; [apply in_seq; lia|exact EU]. }
      apply existsb_exists in H as (u & U1 & U2). exists u. exact U2.
Qed.
(** User 1 asks for power twice, user 0 once; then 1 leaves, and 0 gives up power. *)
Example C53_ex : let qs := [Power 0 false; DeInit 1; Power 1 true; Power 1 true; Init 1; Power 0 true; Init 0]%nat in
  proper 2 qs /\ map level [run pin_step pin0 (rev qs); run pin_step pin0 (rev (tl qs))] = [false; true] /\ output (run pin_step pin0 (rev qs)) = true.
Proof. cbn. repeat split; auto; lia. Qed.
(** C53: a request that repeats the user's last one changes nothing. *)
Theorem C53_repeat : forall p u v, power (power p u v) u v = power p u v.
Proof.
  intros p u v. unfold power at 1. assert (H : on_ (power p u v) u = v).
  { unfold power. destruct (Bool.eqb v (on_ p u)) eqn:E; [symmetry; apply Bool.eqb_prop; exact E|]. cbn. unfold set_on. rewrite Nat.eqb_refl. reflexivity. }
  rewrite H, Bool.eqb_reflx. reflexivity.
Qed.
Example C53_repeat_ex : level (power (power pin0 3 true) 3 true) = true /\ refs (power (power pin0 3 true) 3 true) = 1.
Proof. split; reflexivity. Qed.

Fixpoint all_on (n : nat) : list req := match n with O => [] | S n => Power n true :: Init n :: all_on n end.
Lemma all_on_none n u : (n <= u)%nat -> in_use (all_on n) u = false.
Proof. induction n as [|n IH]; intros U; [reflexivity|]. cbn. destruct (Nat.eqb_spec n u); [lia|]. apply IH. lia. Qed.
Lemma all_on_proper n : forall m, (n <= m)%nat -> proper m (all_on n).
Proof. induction n as [|n IH]; intros m L; [exact Logic.I|]. cbn. rewrite Nat.eqb_refl. repeat split; auto; try lia; [apply IH; lia|apply all_on_none; lia]. Qed.
Lemma all_on_wants n : forall u, (u < n)%nat -> wants (all_on n) u = true /\ in_use (all_on n) u = true.
Proof. induction n as [|n IH]; intros u H; [lia|]. cbn. destruct (Nat.eqb_spec n u); [auto|]. apply IH. lia. Qed.
Lemma all_on_wants_not n : forall u, (n <= u)%nat -> wants (all_on n) u = false.
Proof. induction n as [|n IH]; intros u U; [reflexivity|]. cbn. destruct (Nat.eqb_spec n u); [lia|]. apply IH. lia. Qed.
Lemma count_full f n : (forall u, (u < n)%nat -> f u = true) -> count f n = Z.of_nat n.
Proof. intros H. induction n as [|n IH]; [reflexivity|]. rewrite count_S, H, IH; [lia| |lia]. intros; apply H; lia. Qed.
Lemma one_too_many n : Z.of_nat n = 255 -> level (run pin_step pin0 (rev (all_on (S n)))) = false.
Proof.
  intros N. cbn [all_on rev]. rewrite <- app_assoc. rewrite run_app. cbn [app run].
  destruct (pin_run_ok n (all_on n)) as (A & B & C & _); [lia|apply all_on_proper; lia|].
  rewrite count_full in B by (intros u U; apply (all_on_wants n u U)). rewrite count_full in C by (intros u U; apply (all_on_wants n u U)).
  specialize (A n). rewrite all_on_wants_not in A by lia.
  generalize dependent (run pin_step pin0 (rev (all_on n))). intros p A B C. cbn [pin_step]. rewrite C. replace (Z.of_nat n =? 0) with false by lia.
  unfold power. cbn [on_]. rewrite A. cbn [Bool.eqb].
  unfold single_power. cbn [refs level]. rewrite B, N. reflexivity.
Qed.
(** C53: the 256th user switches everybody off. *)
Theorem C53_256_refuted : exists n qs, Z.of_nat n = 256 /\ proper n qs /\ (forall u, (u < n)%nat -> wants qs u = true) /\ level (run pin_step pin0 (rev qs)) = false.
Proof.
  assert (N : exists n, Z.of_nat n = 255) by (exists (Z.to_nat 255); lia). destruct N as (n & N).
  exists (S n), (all_on (S n)). split; [lia|]. split; [apply all_on_proper; lia|]. split; [intros u U; apply all_on_wants; exact U|apply one_too_many; exact N].
Qed.
(** C53: without SHARED_POWER_PINS one user's power-off switches off the other. *)
Theorem C53_plain_refuted : exists qs, proper 2 qs /\ wants qs 0 = true /\ snd (run plain_step (false, false) (rev qs)) = false.
Proof. exists [Power 1 false; Power 1 true; Init 1; Power 0 true; Init 0]%nat. cbn. repeat split; auto; lia. Qed.

Print Assumptions C53_shared.
Print Assumptions C53_repeat.
Print Assumptions C53_256_refuted.
Print Assumptions C53_plain_refuted.
