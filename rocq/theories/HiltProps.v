(** C119, C120: a saber with the default prop, from its buttons to what it does. *)
From Coq Require Import ZArith List Bool Lia.
From Verif Require Import Machine ButtonModel HiltModel HiltSpec HiltProofs.
Import ListNotations.
Open Scope Z_scope.

Definition ms (t : Z) : env := Env t false true true.
Definition tip_down (t : Z) : env := Env t true true true.
Definition two : config := Config false false.
(** Nobody presses anything for a while, from time [t]. *)
Definition idle (t : Z) : list op := flat_map (fun i => [Read PWR false (ms (t + i)); Read AX false (ms (t + i))]) [0; 1; 2; 3; 4; 5].
Definition a_click (k : btn) (t t' : Z) : list op := [Read k true (ms t); Read k true (ms (t + 1))] ++ idle t'.
Definition fresh := hilt0 0 0 0.

(** * C119 *)
(** Whatever happened before, once POWER and AUX have been let go there is no lockup. *)
Theorem C119_let_go : forall c g1 g2 g3 before after,
  fits c (before ++ after) -> undisturbed c (hilt0 g1 g2 g3) (before ++ after) ->
  (forall k, k = PWR \/ k = AX -> untouched k after /\ (5 <= releases k after)%nat) ->
  lockup (sab (cor (final c (hilt0 g1 g2 g3) (before ++ after)))) = None.
Proof.
  intros c g1 g2 g3 before after F U L. pose proof (run_inv c (before ++ after) _ (hilt0_inv c g1 g2 g3) F U) as I.
  rewrite final_app in *. apply let_go_lock; assumption.
Qed.
(** There is a lockup only while POWER or AUX is down, and only while the saber is on or about to be. *)
Theorem C119_held : forall c g1 g2 g3 ops, fits c ops -> undisturbed c (hilt0 g1 g2 g3) ops ->
  let h := final c (hilt0 g1 g2 g3) ops in
  lockup (sab (cor h)) <> None ->
  (at_ (bp h) <> P70 \/ at_ (ba h) <> P70) /\ on_or_pending (sab (cor h)) = true.
Proof.
  intros c g1 g2 g3 ops F U h L. pose proof (run_inv c ops _ (hilt0_inv c g1 g2 g3) F U) as I. fold h in I. split.
  - destruct (i_held _ _ I L) as [D|D]; unfold is_down in D; [left|right]; intros X; rewrite X in D; discriminate.
  - apply (i_safe _ _ I L).
Qed.
Definition lock_ops : list op := a_click PWR 1000 1100 ++ [TurnOn] ++ idle 3000 ++ [Read AX true (ms 4000); Hit false (tip_down 4100)].
Example C119_lock_ex : fits two (lock_ops ++ idle 6000) /\ undisturbed two fresh (lock_ops ++ idle 6000) /\
  lockup (sab (cor (final two fresh lock_ops))) = Some NORMAL /\ lockup (sab (cor (final two fresh (lock_ops ++ idle 6000)))) = None.
Proof. split; [intros X; discriminate|]. split; [vm_compute; repeat (split; [discriminate|]); exact I|]. split; reflexivity. Qed.
Example C119_idle_ex : forall k, k = PWR \/ k = AX -> untouched k (idle 6000) /\ (5 <= releases k (idle 6000))%nat.
Proof. intros k [-> | ->]; (split; [intros e X; cbn in X; intuition discriminate|cbn; lia]). Qed.
(** It is not so if something else turns the saber off while it is about to ignite: the
    lockup stays although no button is down and the saber is off. *)
Definition pending_ops : list op := a_click PWR 1000 1100 ++ [Read PWR true (ms 3000); Hit false (ms 3100); CallOff].
Theorem C119_let_go_refuted :
  lockup (sab (cor (final two fresh (pending_ops ++ idle 6000)))) = Some NORMAL /\
  on_or_pending (sab (cor (final two fresh (pending_ops ++ idle 6000)))) = false /\
  (forall k, at_ (button_of (final two fresh (pending_ops ++ idle 6000)) k) = P70).
Proof. split; [reflexivity|]. split; [reflexivity|]. intros []; reflexivity. Qed.

(** From any such history, if no button is down and the color menu is not open, a click of one
    button does what the table says for its number, its length and the state of the saber. *)
Theorem C119_click : forall c g1 g2 g3 before k l e0 mid rel,
  dual c = false -> fits c before -> undisturbed c (hilt0 g1 g2 g3) before ->
  let h := final c (hilt0 g1 g2 g3) before in
  (forall j, at_ (button_of h j) = P70) -> colors (sab (cor h)) = false ->
  holding k (fun _ => True) mid ->
  letting_go k (fun e => lasts l (now e) (now e0) /\ agrees e = true) rel ->
  let n := press_number (button_of h k) (now e0) in
  let ops := Read k true e0 :: mid ++ rel in
  visible (acts c h ops) = at_press (sab (cor h)) k n (now e0) ++ at_release (sab (cor h)) k n l /\
  power_of (sab (cor (final c h ops))) = fold_left power (visible (acts c h ops)) (power_of (sab (cor h))) /\
  resting (final c h ops).
Proof.
  intros c g1 g2 g3 before k l e0 mid rel D F U h UP C HM HR n ops.
  pose proof (run_inv c before _ (hilt0_inv c g1 g2 g3) F U) as I. fold h in I.
  destruct (rest_phase c h I UP C) as (P & L & Q).
  destruct (click_run c (sab (cor h)) all_up h k l e0 mid rel (fun _ => True) D P) as (V & s' & e & _ & P' & C' & L' & _ & _ & PW); auto.
  { intros j. exact Logic.I. }
  { destruct HR as [F' R]. split; [|exact R]. revert F'. apply Forall_impl. intros [j d e|stab e|e| |]; tauto. }
  split; [exact V|]. destruct P' as (S & M & B). fold n ops in S, M, B, PW. split; [rewrite S; exact PW|].
  split; [|split; [exact M|rewrite S; split; assumption]]. intros j. specialize (B j). unfold set in B. destruct (btn_dec j k); apply B.
Qed.
Example C119_click_ex :
  visible (acts two fresh (a_click PWR 1000 1100 ++ [TurnOn] ++ idle 2000 ++ a_click AX 3000 3100 ++ idle 4000 ++ a_click PWR 5000 5800 ++ idle 6000 ++ a_click PWR 9000 9100)) = [AIgnite; ABlast; AForce; ARetract] /\
  visible (acts two fresh (a_click AX 3000 3100 ++ idle 4000 ++ a_click PWR 5000 5800)) = [ANext; ATrack].
Proof. split; reflexivity. Qed.
Example C119_letting_go_ex : letting_go PWR (fun e => lasts Short (now e) 1000 /\ agrees e = true) (idle 1100) /\ holding PWR (fun _ => True) [Read PWR true (ms 1001)].
Proof. split; [split; [repeat constructor|cbn; lia]|repeat constructor; auto]. Qed.
(** A double click of POWER while the saber is off turns it on muted, whether or not the preon
    sound is over by the second press. *)
Theorem C119_double : forall c g1 g2 g3 before e0 mid rel turn e2 mid2 rel2 l,
  dual c = false -> fits c before -> undisturbed c (hilt0 g1 g2 g3) before ->
  let h := final c (hilt0 g1 g2 g3) before in
  (forall j, at_ (button_of h j) = P70) -> colors (sab (cor h)) = false -> power_of (sab (cor h)) = (false, false, false) ->
  press_number (bp h) (now e0) = First ->
  holding PWR (fun _ => True) mid -> letting_go PWR (fun e => lasts Short (now e) (now e0) /\ agrees e = true /\ ago (now e2) (now e) < 500) rel ->
  turn = [] \/ turn = [TurnOn] -> ago (now e2) (now e0) < 500 ->
  holding PWR (fun _ => True) mid2 -> letting_go PWR (fun e => lasts l (now e) (now e2) /\ agrees e = true) rel2 -> l <> Long ->
  let ops := (Read PWR true e0 :: mid ++ rel) ++ turn ++ (Read PWR true e2 :: mid2 ++ rel2) in
  visible (acts c h ops) = [AIgnite; AMute] /\
  power_of (sab (cor (final c h ops))) = (match turn with [] => false | _ => true end, match turn with [] => true | _ => false end, true).
Proof.
  intros c g1 g2 g3 before e0 mid rel turn e2 mid2 rel2 l D F U h UP C PW N HM HR TU AG HM2 HR2 NL.
  pose proof (run_inv c before _ (hilt0_inv c g1 g2 g3) F U) as I. fold h in I. destruct (rest_phase c h I UP C) as (P & L & Q).
  apply (double_run c (sab (cor h)) all_up h e0 mid rel turn e2 mid2 rel2 l); auto. intros j. exact Logic.I.
Qed.
Example C119_double_ex : visible (acts two fresh (a_click PWR 1000 1100 ++ [TurnOn] ++ a_click PWR 1300 1400)) = [AIgnite; AMute] /\
  power_of (sab (cor (final two fresh (a_click PWR 1000 1100 ++ [TurnOn] ++ a_click PWR 1300 1400)))) = (true, false, true).
Proof. split; reflexivity. Qed.

(** * C120 *)
(** Hitting something while POWER or AUX is held: on, a lockup (a drag if the tip pointed down
    when the button was pressed, a melt for a stab) that ends with the button; off, with POWER, the next preset.  Letting
    go is no click, however soon, and further hits do nothing more. *)
Theorem C120_hit : forall c g1 g2 g3 before k e0 mid stab e1 mid2 rel,
  dual c = false -> fits c before -> undisturbed c (hilt0 g1 g2 g3) before ->
  let h := final c (hilt0 g1 g2 g3) before in
  (forall j, at_ (button_of h j) = P70) -> colors (sab (cor h)) = false -> k <> AX2 ->
  press_number (button_of h k) (now e0) = First ->
  (on_or_pending (sab (cor h)) = true \/ (stab = false /\ k = PWR)) ->
  reads (just k) (fun _ _ => True) mid -> reads_hits (just k) mid2 -> letting_go k (fun _ => True) rel ->
  let ops := Read k true e0 :: mid ++ Hit stab e1 :: mid2 ++ rel in
  visible (acts c h ops) = (if on_or_pending (sab (cor h)) then [ALock (hit_lockup stab (down e0)); AEndLock] else [ANext]) /\
  (forall j, at_ (button_of (final c h ops) j) = P70) /\
  power_of (sab (cor (final c h ops))) = power_of (sab (cor h)) /\ lockup (sab (cor (final c h ops))) = None.
Proof.
  intros c g1 g2 g3 before k e0 mid stab e1 mid2 rel D F U h UP C K N W HM HM2 HR.
  pose proof (run_inv c before _ (hilt0_inv c g1 g2 g3) F U) as I. fold h in I. destruct (rest_phase c h I UP C) as (P & L & Q).
  apply (hit_run c (sab (cor h)) all_up h k e0 mid stab e1 mid2 rel); auto. intros j. exact Logic.I.
Qed.
Example C120_hit_ex :
  visible (acts two fresh (a_click PWR 1000 1100 ++ [TurnOn] ++ idle 2000 ++ [Read PWR true (tip_down 3000); Read PWR true (ms 3050); Hit false (ms 3100); Hit true (ms 3200)] ++ idle 3300)) = [AIgnite; ALock DRAG; AEndLock] /\
  visible (acts two fresh ([Read PWR true (ms 3000); Hit false (ms 3100); Hit false (ms 3150)] ++ idle 3300)) = [ANext].
Proof. split; reflexivity. Qed.
(** Holding AUX and clicking POWER while off is the previous preset; holding POWER and clicking AUX
    while on is force lightning until POWER is let go.  The held button gives no click of its own. *)
Theorem C120_together : forall c g1 g2 g3 before a b e0 mid e1 mid2 rel rel2 x y,
  dual c = false -> fits c before -> undisturbed c (hilt0 g1 g2 g3) before ->
  let h := final c (hilt0 g1 g2 g3) before in
  (forall j, at_ (button_of h j) = P70) -> colors (sab (cor h)) = false ->
  with_held (sab (cor h)) a b = Some (x, y) ->
  reads (just a) (fun _ _ => True) mid -> reads (both a b) (fun _ _ => True) mid2 ->
  reads (just a) (fun j e => j = b -> lasts Short (now e) (now e1)) rel -> (5 <= releases b rel)%nat ->
  letting_go a (fun _ => True) rel2 ->
  let ops := Read a true e0 :: mid ++ Read b true e1 :: mid2 ++ rel ++ rel2 in
  visible (acts c h ops) = at_press (sab (cor h)) a (press_number (button_of h a) (now e0)) (now e0) ++ x ++ y /\
  (forall j, at_ (button_of (final c h ops) j) = P70) /\
  power_of (sab (cor (final c h ops))) = fold_left power (visible (acts c h ops)) (power_of (sab (cor h))) /\
  lockup (sab (cor (final c h ops))) = None.
Proof.
  intros c g1 g2 g3 before a b e0 mid e1 mid2 rel rel2 x y D F U h UP C W HM HM2 HR R5 HR2.
  pose proof (run_inv c before _ (hilt0_inv c g1 g2 g3) F U) as I. fold h in I. destruct (rest_phase c h I UP C) as (P & L & Q).
  apply (together_run c (sab (cor h)) all_up h a b e0 mid e1 mid2 rel rel2 x y); auto. intros j. exact Logic.I.
Qed.
Definition b_while_a (a b : btn) (t : Z) : list op :=
  [Read a true (ms t); Read b true (ms (t + 50)); Read a true (ms (t + 60)); Read b true (ms (t + 61))] ++
  flat_map (fun i => [Read b false (ms (t + 100 + i)); Read a true (ms (t + 100 + i))]) [0; 1; 2; 3; 4] ++ idle (t + 200).
Example C120_together_ex : visible (acts two fresh (b_while_a AX PWR 1000)) = [APrevious] /\
  visible (acts two fresh (a_click PWR 1000 1100 ++ [TurnOn] ++ idle 2000 ++ b_while_a PWR AX 3000)) = [AIgnite; ALock LIGHTNING; AEndLock] /\
  visible (acts two fresh (a_click PWR 1000 1100 ++ [TurnOn] ++ idle 2000 ++ b_while_a AX PWR 3000)) = [AIgnite; AColors].
Proof. repeat split. Qed.
(** Nothing turns the saber on or off but Off() from elsewhere and the release of POWER within half a
    second of its press; it only turns on when it is off and only turns off when it is on. *)
Theorem C120_only : forall c h o a, dual c = false ->
  In a (snd (hilt_step c h o)) -> In a [AIgnite; ARetract; ACancel] ->
  (o = CallOff \/ exists e, o = Read PWR false e /\ at_ (bp h) <> P70 /\ ago (now e) (push (bp h)) < 500) /\
  (a = AIgnite -> on_or_pending (sab (cor h)) = false) /\ (a <> AIgnite -> on_or_pending (sab (cor h)) = true).
Proof. exact power_step. Qed.
Example C120_only_ex : exists h e, In AIgnite (snd (hilt_step two h (Read PWR false e))) /\ h = final two fresh [Read PWR true (ms 1000); Read PWR false (ms 1100)].
Proof. eexists. exists (ms 1101). split; [|reflexivity]. left. reflexivity. Qed.
(** If the ignition is never called off, the saber is muted only while it is on. *)
Theorem C120_mute : forall c g1 g2 g3 ops, ~ In ACancel (acts c (hilt0 g1 g2 g3) ops) ->
  muted (sab (cor (final c (hilt0 g1 g2 g3) ops))) = true -> on_or_pending (sab (cor (final c (hilt0 g1 g2 g3) ops))) = true.
Proof.
  intros c g1 g2 g3 ops N M. destruct (run_mute_on c ops (hilt0 g1 g2 g3) N) as [_ X]; [split; [reflexivity|discriminate]|]. exact (X M).
Qed.
Example C120_mute_ex : ~ In ACancel (acts two fresh (a_click PWR 1000 1100 ++ a_click PWR 1300 1400)) /\
  muted (sab (cor (final two fresh (a_click PWR 1000 1100 ++ a_click PWR 1300 1400)))) = true.
Proof. split; [vm_compute; intuition discriminate|reflexivity]. Qed.
(** It is not so if the ignition is called off: a double click that turns the saber on muted and a
    click during the preon sound leave it off and muted, and then a click turns it on muted. *)
Definition called_off : list op := a_click PWR 1000 1100 ++ a_click PWR 1300 1400 ++ idle 2000 ++ a_click PWR 3000 3100.
Theorem C120_mute_refuted :
  power_of (sab (cor (final two fresh called_off))) = (false, false, true) /\
  visible (acts two (final two fresh called_off) (a_click PWR 5000 5100 ++ [TurnOn])) = [AIgnite] /\
  power_of (sab (cor (final two fresh (called_off ++ a_click PWR 5000 5100 ++ [TurnOn])))) = (true, false, true).
Proof. repeat split. Qed.
(** With DUAL_POWER_BUTTONS the buttons should be exchanged while the saber is on if AUX turned it on.
    The second test undoes the first: POWER turns the saber off, as AUX does, and nothing blocks a blaster. *)
Definition by_aux : list op := a_click AX 1000 1100 ++ [TurnOn] ++ idle 2000.
Theorem C120_swap_refuted : forall k, k <> AX2 ->
  power_of (sab (cor (final (Config true false) fresh by_aux))) = (true, false, false) /\
  visible (acts (Config true false) (final (Config true false) fresh by_aux) (a_click k 3000 3100)) = [ARetract].
Proof. intros [] K; [| |congruence]; split; reflexivity. Qed.
(** A second click of AUX within half a second of the first blocks twice, when it goes down and when it comes up. *)
Theorem C120_blast_refuted :
  visible (acts two fresh (a_click PWR 1000 1100 ++ [TurnOn] ++ idle 2000 ++ a_click AX 3000 3100 ++ a_click AX 3300 3400)) = [AIgnite; ABlast; ABlast; ABlast].
Proof. reflexivity. Qed.

Print Assumptions C119_let_go.
Print Assumptions C119_held.
Print Assumptions C119_let_go_refuted.
Print Assumptions C119_click.
Print Assumptions C119_double.
Print Assumptions C120_hit.
Print Assumptions C120_together.
Print Assumptions C120_only.
Print Assumptions C120_mute.
Print Assumptions C120_mute_refuted.
Print Assumptions C120_swap_refuted.
Print Assumptions C120_blast_refuted.
