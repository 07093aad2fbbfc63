From Coq Require Import ZArith List Bool Lia ZifyBool ZifyNat Znumtheory.
From Verif Require Import StrModel FileModel ConfigModel SaveModel.
Import ListNotations.
Open Scope Z_scope.

Lemma cksum_step_range t b : 0 <= cksum_step t b < 2 ^ 32.
Proof. apply Z.mod_pos_bound. lia. Qed.

(** 997 is invertible modulo 2^32. *)
Lemma cksum_step_inj t1 t2 b : 0 <= t1 < 2 ^ 32 -> 0 <= t2 < 2 ^ 32 ->
  cksum_step t1 b = cksum_step t2 b -> t1 = t2.
Proof.
  unfold cksum_step. intros H1 H2 E.
  assert (D : (2 ^ 32 | 997 * (t1 - t2))).
  { apply Z.mod_divide; [lia|]. replace (997 * (t1 - t2)) with ((t1 * 997 + b) - (t2 * 997 + b)) by lia.
    rewrite Zminus_mod, E, Z.sub_diag. reflexivity. }
  apply Gauss in D.
  - destruct D as [k K]. assert (k = 0) by nia. lia.
  - apply Zgcd_1_rel_prime. reflexivity.
Qed.
Lemma cksum_tail_inj l : forall t1 t2, 0 <= t1 < 2 ^ 32 -> 0 <= t2 < 2 ^ 32 ->
  fold_left cksum_step l t1 = fold_left cksum_step l t2 -> t1 = t2.
Proof.
  induction l as [|b l IH]; intros t1 t2 H1 H2 E; [exact E|]. cbn [fold_left] in E.
  apply IH in E; try apply cksum_step_range. eapply cksum_step_inj; eauto.
Qed.
Lemma checksum_single a b b' c : 0 <= b < 256 -> 0 <= b' < 256 -> b <> b' ->
  checksum (a ++ b :: c) <> checksum (a ++ b' :: c).
Proof.
  intros B B' N E. unfold checksum in E. rewrite !fold_left_app in E. cbn [fold_left] in E.
  apply cksum_tail_inj in E; try apply cksum_step_range.
  remember (fold_left cksum_step a 0) as t. unfold cksum_step in E.
  apply N. clear N Heqt.
  pose proof (Z.div_mod (t * 997 + b) (2 ^ 32) ltac:(lia)).
  pose proof (Z.div_mod (t * 997 + b') (2 ^ 32) ltac:(lia)). rewrite E in *.
  assert (b - b' = 2 ^ 32 * ((t * 997 + b) / 2 ^ 32 - (t * 997 + b') / 2 ^ 32)) by lia.
  nia.
Qed.

(** Lists that differ at one index. *)
Lemma map_upto_split n i (f : Z -> Z) : 0 <= i < Z.of_nat n -> exists a c,
  map f (upto n) = a ++ f i :: c /\
  forall g, (forall j, j <> i -> g j = f j) -> map g (upto n) = a ++ g i :: c.
Proof.
  intros H. unfold upto. replace n with (Z.to_nat i + S (n - S (Z.to_nat i)))%nat by lia.
  rewrite seq_app, !map_app. cbn [seq map Nat.add].
  exists (map f (map Z.of_nat (seq 0 (Z.to_nat i)))), (map f (map Z.of_nat (seq (S (Z.to_nat i)) (n - S (Z.to_nat i))))).
  rewrite Z2Nat.id by lia. split; [reflexivity|]. intros g G.
  rewrite ?map_app. cbn [map]. rewrite ?Z2Nat.id by lia. f_equal; [|f_equal].
  - apply map_ext_in. intros j J. apply G. apply in_map_iff in J as (x & <- & X). apply in_seq in X. lia.
  - apply map_ext_in. intros j J. apply G. apply in_map_iff in J as (x & <- & X). apply in_seq in X. lia.
Qed.

Lemma damaged_byte install stale o o' i :
  validateChecksum install stale o = true ->
  0 <= i < s32 (g32 o 12) -> 512 + i < size o -> size o' = size o ->
  0 <= get o (512 + i) < 256 -> 0 <= get o' (512 + i) < 256 ->
  get o' (512 + i) <> get o (512 + i) ->
  (forall j, j <> 512 + i -> get o' j = get o j) ->
  validateChecksum install stale o' = false.
Proof.
  intros V I S0 S1 B B' N E. unfold validateChecksum in *. apply andb_true_iff in V as [V1 V2].
  apply andb_false_iff. right.
  assert (G : forall p, p <= 100 -> g32 o' p = g32 o p) by (intros p P; unfold g32; rewrite !E by lia; reflexivity).
  rewrite !G by lia. apply Z.eqb_neq. intros Q. apply Z.eqb_eq in V2. rewrite <- V2 in Q.
  destruct (map_upto_split (Z.to_nat (s32 (g32 o 12))) i
     (fun i => if 512 + i <? size o then get o (512 + i) else stale i) ltac:(lia)) as (a & c & E1 & E2).
  rewrite E1 in Q. rewrite (E2 (fun i => if 512 + i <? size o' then get o' (512 + i) else stale i)) in Q.
  2:{ intros j J. rewrite S1. destruct (512 + j <? size o); [|reflexivity]. apply E. lia. }
  cbv beta in Q. rewrite S1 in Q. replace (512 + i <? size o) with true in Q by lia.
  revert Q. apply checksum_single; auto.
Qed.
