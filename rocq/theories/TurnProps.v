(** Pixel blades that share one frame buffer (blades/ws2811_blade.h): C54 frames and turns, C74
    power. *)
From Coq Require Import ZArith List Bool PeanoNat Lia.
From Verif Require Import Machine TurnModel TurnSpec TurnProofs.
Import ListNotations.
Open Scope Z_scope.

Local Notation trace d ops := (concat (run_outs (step d) state0 ops)).
Local Notation after d ops := (run_state (step d) state0 ops).
Local Definition w1 (t : Z) : world := W true true false false t.

(** C54: whatever the blades are asked to do, in any order, no blade ends a frame when another has
    begun one since its own BeginFrame. *)
Theorem C54_owned : forall d ops, owned None (trace d ops).
Proof. intros d ops. apply run_owned. intros i; cbn; intros; discriminate. Qed.

(** C54: as long as styles stay in place and a frame is not sent right after powering up, every
    frame sent was begun, filled by the same blade, not disturbed since, and is sent once. *)
Theorem C54_frames : forall d ops, Forall keeps_style ops -> sends_own Free (trace d ops).
Proof. intros d ops H. apply run_fills; [exact H|]. split; intros i; cbn; intros; discriminate. Qed.
Example C54_ex : let ops := [Activate 0%nat; Activate 1%nat; SetStyle 0%nat; SetStyle 1%nat; SBOn 0%nat; SBOn 1%nat;
    Loop 0%nat (w1 1); Loop 1%nat (w1 1); Loop 0%nat (w1 2); Loop 1%nat (w1 2); Loop 0%nat (w1 3); Loop 1%nat (w1 3); Loop 0%nat (w1 4); Loop 1%nat (w1 4); Loop 0%nat (w1 5); Loop 1%nat (w1 5)] in
  Forall keeps_style ops /\ In (Draw 0) (trace (fun _ => 0) ops) /\ In (Draw 1) (trace (fun _ => 0) ops).
Proof. cbv zeta. split; [repeat constructor|]. split; vm_compute; tauto. Qed.

(** C54: when the LED driver is ready, the blade whose turn it is gives it up in its next Loop call. *)
Theorem C54_gives_up : forall d s i w, current s = Some i -> linked (blades s i) = true -> ready w ->
  current (fst (step d s (Loop i w))) = None.
Proof.
  intros d s i w C L R. cbn [step]. rewrite L, C. pose proof (loop_ready (d i) i (blades s i) (Some i) w R ltac:(right; reflexivity)) as Q.
  destruct (loop (d i) i (blades s i) (Some i) w) as ((b', c'), e). exact Q.
Qed.
Example C54_gives_up_ex : let s := after (fun _ => 0) [Activate 0%nat; SetStyle 0%nat; SBOn 0%nat; Loop 0%nat (W true true true false 1); Loop 0%nat (W false true true false 2)] in
  current s = Some 0%nat /\ linked (blades s 0) = true /\ ready (W true true true false 3).
Proof. vm_compute. auto. Qed.

(** C54: no blade is starved: when the driver is ready and the turn is free, an active blade with
    a style begins a frame within two of its own Loop calls, however many other blades' Loop calls
    come between. *)
Theorem C54_turn_comes : forall d s i w ops w', current s = None -> waits_turn (blades s i) -> ready w -> Forall (other_ready i) ops -> ready w' ->
  In (Begin i) (concat (run_outs (step d) s (Loop i w :: ops ++ [Loop i w']))).
Proof. intros d s i. apply turn_comes. Qed.
Example C54_turn_ex : let s := after (fun _ => 0) [Activate 0%nat; SetStyle 0%nat; Activate 1%nat; SetStyle 1%nat] in
  current s = None /\ waits_turn (blades s 1) /\ ready (W true true true false 1) /\ Forall (other_ready 1) [Loop 0%nat (W true true true false 1)].
Proof.
  split; [reflexivity|]. split; [repeat split|]. split; [repeat split|]. repeat constructor. exists 0%nat, (W true true true false 1). repeat split. discriminate.
Qed.

(** Not so when the style is removed while the blade waits for the driver: the frame is sent
    without having been drawn. *)
Theorem C54_unset_refuted : ~ forall d ops, sends_own Free (trace d ops).
Proof.
  intros H. specialize (H (fun _ => 0) [Activate 0%nat; SetStyle 0%nat; SBOn 0%nat; Loop 0%nat (w1 1); Loop 0%nat (w1 2); Loop 0%nat (w1 3); Loop 0%nat (W false true false false 4); UnSetStyle 0%nat; Loop 0%nat (w1 5); Loop 0%nat (w1 6)]).
  vm_compute in H. decompose [and] H. discriminate.
Qed.
(** Nor when the driver can take a frame right after powering up: one EndFrame too many, and the
    frame just drawn is not the one shown. *)
Theorem C54_power_up_refuted : ~ forall d ops, Forall (fun o => forall i, o <> UnSetStyle i) ops -> sends_own Free (trace d ops).
Proof.
  intros H. specialize (H (fun _ => 0) [Activate 0%nat; SetStyle 0%nat; SBOn 0%nat; Loop 0%nat (w1 1); Loop 0%nat (W true true true false 2)]).
  assert (F : Forall (fun o => forall i, o <> UnSetStyle i) [Activate 0%nat; SetStyle 0%nat; SBOn 0%nat; Loop 0%nat (w1 1); Loop 0%nat (W true true true false 2)]) by (repeat constructor; discriminate).
  specialize (H F). vm_compute in H. decompose [and] H. discriminate.
Qed.
(** A blade deactivated before it was ever powered, while it waits for the driver, keeps the turn:
    from then on no blade does anything until some powered blade is deactivated or this one is
    activated again. *)
Theorem C54_stuck_refuted : exists past i, linked (blades (after (fun _ => 0) past) i) = false /\
  forall d ops, Forall (no_power_change i) ops -> concat (run_outs (step d) (after (fun _ => 0) past) ops) = [].
Proof.
  exists [Activate 0%nat; SetStyle 0%nat; SBOn 0%nat; Loop 0%nat (w1 1); Loop 0%nat (W false true false false 2); Deactivate 0%nat], 0%nat.
  split; [reflexivity|]. intros d ops F. apply (stuck d 0); [reflexivity|reflexivity|exact F].
Qed.

(** C74: a blade that is turned on stays powered until it is turned off or deactivated, whatever
    else happens, unless it was waiting to send its last frame. *)
Theorem C74_stays : forall d s i ops, (at_ (blades s i) = AtEnd -> allow (blades s i) = false) -> Forall (fun o => ~ turns_off i o) ops ->
  ~ In (PinOff i) (concat (run_outs (step d) s (SBOn i :: ops))).
Proof.
  intros d s i ops H F. cbn [run_outs step concat app]. apply run_armed; [|exact F]. cbn [blades]. rewrite put_same. repeat split. exact H.
Qed.
Example C74_stays_ex : let s := after (fun _ => 0) [Activate 0%nat; SetStyle 0%nat; Loop 0%nat (w1 1)] in
  (at_ (blades s 0) = AtEnd -> allow (blades s 0) = false) /\ Forall (fun o => ~ turns_off 0 o) [Loop 0%nat (w1 2); Loop 0%nat (w1 3); SBOff 1%nat true] /\
  In (PinOn 0) (concat (run_outs (step (fun _ => 0)) s (SBOn 0%nat :: [Loop 0%nat (w1 2); Loop 0%nat (w1 3); SBOff 1%nat true]))).
Proof. cbv zeta. split; [discriminate|]. split; [repeat constructor; cbn; auto; discriminate|vm_compute; tauto]. Qed.
(** If it was waiting to send its last frame, it is powered off although it is on. *)
Theorem C74_race_refuted : ~ forall d past i ops, Forall (fun o => ~ turns_off i o) ops -> ~ In (PinOff i) (concat (run_outs (step d) (after d past) (SBOn i :: ops))).
Proof.
  intros H. apply (H (fun _ => 0) [Activate 0%nat; SetStyle 0%nat; SBOn 0%nat; Loop 0%nat (w1 1); Loop 0%nat (w1 2); Loop 0%nat (w1 3); SBOff 0%nat false; Loop 0%nat (W true false false true 4)] 0%nat [Loop 0%nat (W true true false false 5)]).
  - repeat constructor. cbn. auto.
  - vm_compute. tauto.
Qed.

(** C74: whatever happens, a blade's power comes on with a black frame prepared, the first three
    frames it then gets are black, no frame is sent to a blade without power, and power goes off
    right after a black frame. *)
Theorem C74_supply : forall d ops i, exists p, supply_run i supply0 (trace d ops) = Some p /\ pins p = powered (blades (after d ops) i).
Proof. intros d ops i. apply run_okay; [split; [reflexivity|discriminate]|]. intros X; discriminate. Qed.
Example C74_supply_ex : let ops := [Activate 0%nat; SetStyle 0%nat; SBOn 0%nat; Loop 0%nat (w1 1); Loop 0%nat (w1 2); Loop 0%nat (w1 3); Loop 0%nat (w1 4); Deactivate 0%nat] in
  supply_run 0 supply0 (trace (fun _ => 0) ops) = Some (Supply false Dark Dark 5) /\ supply_run 0 supply0 [Begin 0; Draw 0; PinOn 0] = None.
Proof. vm_compute. auto. Qed.

(** C74: a blade cuts its power only after the delay: either the delay is zero, or it had asked to
    power off in a Loop call at least the delay earlier, and neither ignition nor an effect came
    in between. *)
Theorem C74_delay : forall d past i w, In (PinOff i) (snd (step d (after d past) (Loop i w))) ->
  d i <= 0 \/ exists t, asked_at i past t /\ d i <= (now w - t) mod 2 ^ 32.
Proof.
  intros d past i w H. pose proof (delays d past i) as D. cbv zeta in D. cbn [step] in H. destruct (linked (blades (after d past) i)); [|contradiction].
  destruct (loop (d i) i (blades (after d past) i) (current (after d past)) w) as ((b', c'), e) eqn:E. cbn [snd] in H. apply loop_timed in E as (_ & B).
  destruct (B H) as (st & [(-> & NZ)| ->] & L).
  - right. eexists. split; [exact (D NZ)|exact L].
  - left. rewrite Z.sub_diag in L. exact L.
Qed.
Example C74_delay_ex : let past := [Activate 0%nat; SetStyle 0%nat; SBOn 0%nat; Loop 0%nat (w1 1); Loop 0%nat (w1 2); Loop 0%nat (w1 3); SBOff 0%nat true; Loop 0%nat (W true false false true 10)] in
  In (PinOff 0) (snd (step (fun _ => 5) (after (fun _ => 5) past) (Loop 0%nat (w1 20)))) \/
  In (PinOff 0) (snd (step (fun _ => 5) (after (fun _ => 5) (past ++ [Loop 0%nat (w1 20)])) (Loop 0%nat (w1 30)))).
Proof. vm_compute. tauto. Qed.

Print Assumptions C54_owned.
Print Assumptions C54_frames.
Print Assumptions C54_gives_up.
Print Assumptions C54_turn_comes.
Print Assumptions C54_unset_refuted.
Print Assumptions C54_power_up_refuted.
Print Assumptions C54_stuck_refuted.
Print Assumptions C74_stays.
Print Assumptions C74_race_refuted.
Print Assumptions C74_supply.
Print Assumptions C74_delay.
