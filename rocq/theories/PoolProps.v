(** C147. *)
From Coq Require Import ZArith List Bool Lia ZifyBool ZifyNat.
From Verif Require Import ArithModel PoolModel PoolSpec PoolProofs.
Import ListNotations.
Local Open Scope Z_scope.

(** Whatever was constructed, copied, moved, assigned, freed and destroyed, a player's count is
    the number of pointers to it ... *)
Theorem C147_count : forall n k ops q x, Z.of_nat k < 4294967296 ->
  let s := run (init n k) ops in
  nth_error (players s) q = Some x -> refs x = holders q (vars s).
Proof. intros n k ops q x K s N. exact (refs_exact n k ops q x K N). Qed.
Example C147_count_ex :
  let s := run (init 2 5) [GetFree 0; CopyCtor 1 0; MoveCtor 2 1; GetFree 3; Assign 3 2; Assign 2 2; Free 0] in
  map refs (players s) = [2; 0] /\ vars s = [Some None; Some None; Some (Some 0%nat); Some (Some 0%nat); None].
Proof. vm_compute. split; reflexivity. Qed.
(** ... so when no pointer is left, none is counted. *)
Theorem C147_released : forall n k ops q x, Z.of_nat k < 4294967296 ->
  let s := run (init n k) ops in
  (forall v p, In v (vars s) -> v <> Some (Some p)) -> nth_error (players s) q = Some x -> refs x = 0.
Proof.
  intros n k ops q x K s H N. rewrite (refs_exact n k ops q x K N). fold s. unfold holders.
  replace (filter (holds q) (vars s)) with (@nil (option (option nat))); [reflexivity|].
  induction (vars s) as [|v vs IH]; [reflexivity|]. cbn [filter].
  assert (E : holds q v = false).
  { destruct v as [[p|]|]; auto. exfalso. apply (H (Some (Some p)) p); [left|]; reflexivity. }
  rewrite E. apply IH. intros v' p I. apply H. right. exact I.
Qed.
Example C147_released_ex :
  let s := run (init 2 2) [GetFree 0; CopyCtor 1 0; Dtor 0; Free 1] in
  vars s = [None; Some None] /\ map refs (players s) = [0; 0].
Proof. vm_compute. split; reflexivity. Qed.

(** A player handed out as free is not playing and nobody points to it ... *)
Theorem C147_free : forall n k ops i p, Z.of_nat k < 4294967296 ->
  let s := run (init n k) ops in
  nth_error (vars s) i = Some None -> nth_error (vars (step s (GetFree i))) i = Some (Some (Some p)) ->
  (exists x, nth_error (players s) p = Some x /\ playing x = false) /\
  (forall j, nth_error (vars s) j <> Some (Some (Some p))) /\
  (forall j, j <> i -> nth_error (vars (step s (GetFree i))) j <> Some (Some (Some p))).
Proof.
  intros n k ops i p K s V R. cbn [step] in *. rewrite V in *. cbn [construct vars] in *.
  rewrite (set_nth_same _ _ _ _ _ V) in R. injection R as F.
  destruct (first_free_spec _ _ _ F) as (x & L & N & A). rewrite Nat.sub_0_r in N.
  unfold Available in A. assert (H0 : holders p (vars s) = 0).
  { pose proof (refs_exact n k ops p x K N) as E. fold s in E. lia. }
  split; [exists x; split; auto; lia|]. split; [apply no_holder; exact H0|].
  intros j D. rewrite set_nth_other by congruence. apply no_holder. exact H0.
Qed.
Example C147_free_ex : nth_error (vars (step (run (init 2 5) [GetFree 0]) (GetFree 3))) 3 = Some (Some (Some 1%nat)).
Proof. reflexivity. Qed.
(** ... and nothing is handed out only if each is playing or pointed to. *)
Theorem C147_none : forall n k ops i, Z.of_nat k < 4294967296 ->
  let s := run (init n k) ops in
  nth_error (vars s) i = Some None -> nth_error (vars (step s (GetFree i))) i = Some (Some None) ->
  forall p x, nth_error (players s) p = Some x ->
    playing x = true \/ 0 < holders p (vars s).
Proof.
  intros n k ops i K s V R p x N. cbn [step] in *. rewrite V in *. cbn [construct vars] in *.
  rewrite (set_nth_same _ _ _ _ _ V) in R. injection R as F.
  apply first_free_none in F. rewrite Forall_forall in F. specialize (F x (nth_error_In _ _ N)).
  unfold Available in F. pose proof (refs_exact n k ops p x K N) as E. fold s in E.
  pose proof (holders_range p (vars s)). lia.
Qed.
Example C147_none_ex : nth_error (vars (step (run (init 2 5) [GetFree 0; Start 1 7 false 900]) (GetFree 3))) 3 = Some (Some None).
Proof. reflexivity. Qed.
(** Asking for the player of an effect gives one that plays it, if there is one. *)
Theorem C147_playing : forall n k ops i e r,
  let s := run (init n k) ops in
  nth_error (vars s) i = Some None -> nth_error (vars (step s (GetPlaying i e))) i = Some (Some r) ->
  match r with
  | Some p => exists x, nth_error (players s) p = Some x /\ playing x = true /\ eff x = e
  | None => forall x, In x (players s) -> playing x = true -> eff x <> e
  end.
Proof.
  intros n k ops i e r s V R. cbn [step] in *. rewrite V in *. cbn [construct vars] in *.
  rewrite (set_nth_same _ _ _ _ _ V) in R. injection R as F. destruct r as [p|].
  - destruct (first_playing_spec _ _ _ _ F) as (x & L & N & A). rewrite Nat.sub_0_r in N. eauto.
  - apply first_playing_none in F. rewrite Forall_forall in F. intros x I P Q. apply (F x I). auto.
Qed.
Example C147_playing_ex : nth_error (vars (step (run (init 2 5) [Start 1 7 false 900]) (GetPlaying 3 7))) 3 = Some (Some (Some 1%nat)).
Proof. reflexivity. Qed.

(** A sound is cut off for a new one only if no player is free, nobody points to its player, its
    effect may be killed, and none of those that could be killed is nearer to its end; the
    others go on. *)
Theorem C147_kill : forall n k ops i p, Z.of_nat k < 4294967296 ->
  let s := run (init n k) ops in
  let s' := step s (GetOrFree i) in
  nth_error (vars s) i = Some None -> nth_error (vars s') i = Some (Some (Some p)) ->
  exists x, nth_error (players s) p = Some x /\ holders p (vars s) = 0 /\
    (forall q y, q <> p -> nth_error (players s) q = Some y -> nth_error (players s') q = Some y) /\
    (playing x = true ->
      killable x = true /\ remaining x < 1000000 /\
      (forall q y, nth_error (players s) q = Some y -> playing y = true \/ 0 < holders q (vars s)) /\
      (forall q y, nth_error (players s) q = Some y -> playing y = true -> killable y = true ->
        holders q (vars s) = 0 -> remaining x <= remaining y)).
Proof.
  intros n k ops i p K s s' V R. unfold s' in *. cbn [step] in *. rewrite V in *.
  destruct (first_free 0 (players s)) as [f|] eqn:F.
  - cbn [construct vars players] in *. rewrite (set_nth_same _ _ _ _ _ V) in R. injection R as ->.
    destruct (first_free_spec _ _ _ F) as (x & L & N & A). rewrite Nat.sub_0_r in N.
    exists x. split; auto. pose proof (refs_exact n k ops p x K N) as E. fold s in E.
    unfold Available in A. split; [lia|]. split; [|lia].
    intros q y D M. cbn [add]. rewrite on_nth. replace (q =? p)%nat with false by (symmetry; apply Nat.eqb_neq; auto). exact M.
  - destruct (oldest_spec (players s) 0 (None, 1000000) _ eq_refl) as (_ & B & C).
    destruct (fst (oldest 0 (players s) (None, 1000000))) as [f|] eqn:O.
    + cbn [construct vars players] in *. rewrite (set_nth_same _ _ _ _ _ V) in R. injection R as ->.
      destruct C as [C|(p' & x & C1 & C2 & C3 & C4 & C5)]; [rewrite C in O; discriminate|].
      rewrite C1 in O, B. cbn [fst snd] in *. injection O as ->. rewrite Nat.sub_0_r in C3.
      exists x. split; auto. pose proof (refs_exact n k ops p x K C3) as E. fold s in E.
      destruct C4 as (D1 & D2 & D3). split; [lia|]. split.
      * intros q y D M. cbn [add]. rewrite !on_nth. replace (q =? p)%nat with false by (symmetry; apply Nat.eqb_neq; auto). exact M.
      * intros _. repeat split; auto.
        { intros q y M. apply first_free_none in F. rewrite Forall_forall in F. specialize (F y (nth_error_In _ _ M)).
          unfold Available in F. pose proof (refs_exact n k ops q y K M) as E2. fold s in E2.
          pose proof (holders_range q (vars s)). lia. }
        { intros q y M P Q H. apply B; [eapply nth_error_In; exact M|]. repeat split; auto.
          rewrite (refs_exact n k ops q y K M). exact H. }
    + cbn [construct vars players] in *. rewrite (set_nth_same _ _ _ _ _ V) in R. discriminate.
Qed.
Example C147_kill_ex :
  let s := run (init 3 5) [Start 0 7 true 900; Start 1 8 true 300; GetFree 0] in
  nth_error (vars (step s (GetOrFree 3))) 3 = Some (Some (Some 1%nat)) /\
  map playing (players (step s (GetOrFree 3))) = [true; false; false].
Proof. vm_compute. split; reflexivity. Qed.

(** As long as a variable points to a player, whatever the other variables do, nobody gets this
    player as free. *)
Theorem C147_kept : forall n k ops i p, Z.of_nat k < 4294967296 ->
  let s := run (init n k) ops in
  nth_error (vars s) i = Some (Some (Some p)) ->
  forall j, nth_error (vars s) j = Some None ->
    nth_error (vars (step s (GetFree j))) j <> Some (Some (Some p)) /\
    nth_error (vars (step s (GetOrFree j))) j <> Some (Some (Some p)).
Proof.
  intros n k ops i p K s H j V. pose proof (holder_some p (vars s) i H) as P. split; intros R.
  - destruct (C147_free n k ops j p K V R) as (_ & N & _). exact (N i H).
  - destruct (C147_kill n k ops j p K V R) as (x & _ & Z0 & _). fold s in Z0. lia.
Qed.
Example C147_kept_ex : nth_error (vars (run (init 2 5) [GetFree 0; Start 0 7 true 5; Stop 0])) 0 = Some (Some (Some 0%nat)).
Proof. reflexivity. Qed.

(** Comparing two pointers with != says whether they are equal. *)
Theorem C147_not_equal_refuted : exists p q, p <> q /\ ref_ne p q = false /\ ref_ne p p = true.
Proof. exists (Some 0%nat), (Some 1%nat). split; [congruence|]. split; reflexivity. Qed.

Print Assumptions C147_count.
Print Assumptions C147_released.
Print Assumptions C147_free.
Print Assumptions C147_none.
Print Assumptions C147_playing.
Print Assumptions C147_kill.
Print Assumptions C147_kept.
Print Assumptions C147_not_equal_refuted.
