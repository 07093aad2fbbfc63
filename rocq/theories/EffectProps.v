(** C26 remembered effects, C27 detectors, C28 blade sets and switching, C65 motion requests. *)
From Coq Require Import ZArith List Bool Lia ZifyBool.
From Verif Require Import Machine EffectModel EffectSpec EffectProofs.
Import ListNotations.
Open Scope Z_scope.

(** The class at boot: nothing remembered, whatever is in the array. *)
Definition boot (arr : list effect) (k : lockup_type) : saber := Saber arr 0 0 k 0 0.
Lemma boot_held arr k : length arr = 10%nat -> held (boot arr k) [] 0 0.
Proof.
  intros L. unfold held, boot. cbn [effects_ num_effects_]. split; [exact L|]. split; [cbn; lia|]. split; [lia|]. split; [reflexivity|].
  split; [split; [intros e []|intros i j d J; cbn in J; lia]|]. split; [intros e []|]. split; constructor.
Qed.

(** C26: whatever happens, each question about recent effects is answered with the ten
    newest logged events that are at most seven seconds old, newest first, provided the
    question is asked at least every 71 minutes. *)
Theorem C26_remembered : forall w want stab blade arr k last reqs,
  0 <= blade -> length arr = 10%nat -> clock_ok 0 reqs -> asked_often 0 reqs ->
  remembered_ok k [] reqs (run_outs (serve w want stab blade) (boot arr k, last) reqs).
Proof.
  intros w want stab blade arr k last reqs B L C A.
  apply (remembered_all w want stab blade B reqs (boot arr k) last [] 0 0 (boot_held arr k L)); try lia; assumption.
Qed.
Definition here : location := Loc 0 2.
Definition garbage : list effect := repeat dummy 10.
(* twelve blasts, then a query; the clock wraps; a drag; a new font *)
Example C26_ex :
  let blasts := map (fun i => (4294967290 + Z.of_nat i, DoEffect EBlast here 0 (Z.of_nat i))) (seq 0 12) in
  let reqs := [(2000000000, GetEffects); (4294960000, GetEffects)] ++ blasts ++ [(4294967400, GetEffects); (4300000000, SetLockup LDrag 255);
     (4301000000, DoEffect ELockupBegin here 0 3); (4301967297, GetEffects);
     (4301967300, DoEffect ENewFont here 0 4); (4301967301, GetEffects)] in
  clock_ok 0 reqs /\ asked_often 0 reqs /\
  map (map (fun n => match n with NEffects l => map wavnum l | _ => [] end)) (run_outs (serve 8 EClash false 1) (boot garbage LNone, 0) reqs) =
  [[[]]; [[]]] ++ repeat [[]] 12 ++ [[[11;10;9;8;7;6;5;4;3;2]]; []; [[]]; [[3;11;10;9;8;7]]; [[]]; [[4]]].
Proof. split; [vm_compute; intuition discriminate|]. split; [vm_compute; intuition congruence|vm_compute; reflexivity]. Qed.
(** Finding: left alone for longer, the 32-bit clock makes an old effect young again. *)
Theorem C26_stale_refuted : exists reqs, clock_ok 0 reqs /\
  ~ remembered_ok LNone [] reqs (run_outs (serve 8 EClash false 1) (boot garbage LNone, 0) reqs).
Proof.
  exists [(10, DoEffect EBlast here 0 0); (4294967316, GetEffects)]. split; [cbn; lia|].
  intros H. cbn [remembered_ok run_outs] in H. destruct H as (_ & H & _). specialize (H eq_refl). vm_compute in H. discriminate.
Qed.

(** C27: a detector of one effect type on one blade (clash detectors may also take stabs)
    reports the newest recent matching event unless it is the one it reported last.
    Events are told apart by their 32-bit time stamps, so these must differ, also from
    the detector's uninitialised memory. *)
Theorem C27_detector : forall w want stab blade arr k last reqs,
  0 <= blade -> length arr = 10%nat -> clock_ok 0 reqs -> asked_often 0 reqs ->
  let m e := Z.testbit (blades (ev_loc e)) blade && (effect_type_eqb want (ev_type e) || (stab && effect_type_eqb (ev_type e) EStab)) in
  let outs := run_outs (serve w want stab blade) (boot arr k, last) reqs in
  let stamps := map (fun e => ev_time e mod 2 ^ 32) (all_events m k reqs outs) in
  NoDup stamps -> ~ In last stamps ->
  detected_ok m k [] None reqs outs.
Proof.
  intros w want stab blade arr k last reqs B L C A m outs stamps ND NI.
  apply (detected_all w want stab blade B reqs (boot arr k) last [] 0 0 None [] (boot_held arr k L)); try lia; try assumption. intros e [].
Qed.
Example C27_ex :
  let elsewhere := Loc 0 4 in
  let reqs := [(100, Detect); (200, DoEffect EClash here 0 1); (300, DoEffect EClash elsewhere 0 2); (400, Detect); (500, Detect);
               (600, DoEffect EStab here 0 3); (700, DoEffect EClash here 0 4); (800, Detect); (900, Detect); (9000000, Detect)] in
  let outs := run_outs (serve 8 EClash true 1) (boot garbage LNone, 7) reqs in
  clock_ok 0 reqs /\ asked_often 0 reqs /\
  map (map (fun n => match n with NDetected (Some e) => wavnum e | NDetected None => -1 | _ => 0 end)) outs =
  [[-1]; [0]; [0]; [1]; [-1]; [0]; [0]; [4]; [-1]; [-1]] /\
  map ev_time (all_events (fun e => Z.testbit (blades (ev_loc e)) 1 && (effect_type_eqb EClash (ev_type e) || (true && effect_type_eqb (ev_type e) EStab))) LNone reqs outs) = [200; 600; 700].
Proof. split; [cbn; lia|]. split; [cbn; lia|]. split; vm_compute; reflexivity. Qed.
(** Finding: of two matching effects in the same microsecond with a poll in between the
    second is lost. *)
Theorem C27_same_time_refuted : exists reqs, clock_ok 0 reqs /\ asked_often 0 reqs /\
  map (map (fun n => match n with NDetected (Some e) => wavnum e | NDetected None => -1 | _ => 0 end))
    (run_outs (serve 8 EClash true 1) (boot garbage LNone, 7) reqs) = [[0]; [1]; [0]; [-1]].
Proof.
  exists [(200, DoEffect EClash here 0 1); (200, Detect); (200, DoEffect EClash here 0 2); (300, Detect)].
  split; [cbn; lia|]. split; [cbn; lia|]. vm_compute. reflexivity.
Qed.

(** C28: operations on blade sets are the set operations. *)
Theorem C28_sets : forall n w a b blade x, 0 <= n <= 20 -> w = set_width n -> 0 <= a < 2 ^ w -> 0 <= b < 2 ^ w -> 0 <= blade <= n -> 0 <= x <= n ->
  bs_has bs_empty blade = false /\ bs_has (bs_all w) blade = true /\
  bs_has (bs_from w x) blade = (blade =? x) /\
  bs_has (bs_or a b) blade = bs_has a blade || bs_has b blade /\
  bs_has (bs_and a b) blade = bs_has a blade && bs_has b blade /\
  bs_has (bs_not w a) blade = negb (bs_has a blade) /\
  (bs_off a = true <-> forall y, 0 <= y < w -> bs_has a y = false) /\ bs_on a = negb (bs_off a) /\
  0 <= bs_or a b < 2 ^ w /\ 0 <= bs_and a b < 2 ^ w /\ 0 <= bs_not w a < 2 ^ w /\ 0 <= bs_all w < 2 ^ w.
Proof.
  intros n w a b blade x N -> A B BL X. set (w := set_width n) in *.
  assert (W : n < w /\ 0 <= w). { unfold w, set_width. destruct (n <? 8) eqn:E1; [lia|]. destruct (n <? 16) eqn:E2; [lia|]. destruct (n <? 32) eqn:E3; lia. }
  rewrite !bs_has_testbit by lia. unfold bs_empty at 1. rewrite Z.bits_0, all_bit, from_bit, not_bit by lia. unfold bs_or at 1, bs_and at 1. rewrite Z.lor_spec, Z.land_spec.
  split; [reflexivity|]. split; [lia|]. split; [reflexivity|]. split; [reflexivity|]. split; [reflexivity|].
  split; [replace (0 <=? blade) with true by lia; replace (blade <? w) with true by lia; reflexivity|].
  split. { split.
    - intros O y Y. rewrite bs_has_testbit by lia. unfold bs_off in O. replace a with 0 by lia. apply Z.bits_0.
    - intros H. unfold bs_off. assert (a = 0); [|lia]. apply bits_zero; [lia|]. intros y. destruct (Z.ltb_spec y 0); [apply Z.testbit_neg_r; lia|].
      destruct (Z.ltb_spec y w); [rewrite <- bs_has_testbit by lia; apply H; lia|]. apply (testbit_small w); lia. }
  split; [reflexivity|]. split; [apply or_range; lia|]. split; [apply and_range; lia|]. split; [apply not_range; lia|apply not_range; lia].
Qed.
(** C28: a blade shows the lockup that was last set, if it is one of the blades it was set for. *)
Theorem C28_lockup : forall n w want stab blade arr k last reqs b,
  0 <= n <= 20 -> w = set_width n -> Forall (req_ok w) reqs -> 0 <= b <= n ->
  lockup_for_blade (fst (run_state (serve w want stab blade) (boot arr k, last) reqs)) b = lockup_after (fun _ => LNone) reqs b.
Proof.
  intros n w want stab blade arr k last reqs b N -> R B.
  apply lockup_all; [lia|]. unfold lockup_for_blade, boot. cbn [lockup_blades_ lockup_]. rewrite bs_has_testbit by lia. rewrite Z.bits_0. reflexivity.
Qed.
Example C28_lockup_ex : let reqs := [(1, SetLockup LDrag 5); (2, RequestMotion)] in
  Forall (req_ok 8) reqs /\ lockup_after (fun _ => LNone) reqs 2 = LDrag /\ lockup_after (fun _ => LNone) reqs 1 = LNone.
Proof. split; [repeat constructor; cbn; lia|split; reflexivity]. Qed.
(** C28: after any commands a blade is on iff the last command that named it was a
    turn-on; commands are announced with exactly the blades they change. *)
Theorem C28_switching : forall n w want stab blade arr k last reqs,
  0 <= n <= 20 -> w = set_width n -> Forall (req_ok w) reqs ->
  switch_ok w (fun _ => False) reqs (run_outs (serve w want stab blade) (boot arr k, last) reqs) /\
  forall b, 0 <= b <= n ->
    (blade_is_on (fst (run_state (serve w want stab blade) (boot arr k, last) reqs)) b = true <-> on_after (fun _ => False) reqs b).
Proof.
  intros n w want stab blade arr k last reqs N -> R. set (w := set_width n) in *.
  assert (W : n < w /\ 0 <= w). { unfold w, set_width. destruct (n <? 8) eqn:E1; [lia|]. destruct (n <? 16) eqn:E2; [lia|]. destruct (n <? 32) eqn:E3; lia. }
  destruct (switch_all w (proj2 W) want stab blade reqs (boot arr k) last (fun _ => False) R) as (A & B).
  - cbn. split; [lia|]. apply Z.pow_pos_nonneg; lia.
  - intros b _. cbn [boot on_]. rewrite Z.bits_0. split; [tauto|discriminate].
  - split; [exact A|]. intros b Bb. unfold blade_is_on. rewrite bs_has_testbit by lia. symmetry. apply B. lia.
Qed.
Example C28_ex :
  let reqs := [(1, TurnOn (Loc 5 2) 0 0); (2, TurnOn (Loc 6 7) 0 0); (3, TurnOn (Loc 6 3) 0 0); (4, TurnOff OffBlast (Loc 1 12) 0 0);
               (5, TurnOffAll OffIdle 0 0); (6, TurnOnAll 0 0); (7, TurnOff OffNormal (Loc 2 2) 0 0)] in
  let st := run_state (serve 8 EClash false 1) (boot garbage LNone, 0) reqs in
  map (fun ns => match ns with [] => None | n :: _ => Some n end) (run_outs (serve 8 EClash false 1) (boot garbage LNone, 0) reqs) =
  [Some (NOn (Loc 5 2)); Some (NOn (Loc 6 5)); None; Some (NOff OffBlast (Loc 1 4)); Some (NOff OffIdle (Loc 0 255)); Some (NOn (Loc 0 255));
   Some (NOff OffNormal (Loc 2 2))] /\ on_ (fst st) = 253.
Proof. vm_compute. auto. Qed.

(** C65: motion stays requested while a blade is on, and otherwise for exactly the 20
    seconds after the last request or switch-off (for idle times below 49 days). *)
Theorem C65_motion : forall w want stab blade arr k last reqs t,
  let outs := run_outs (serve w want stab blade) (boot arr k, last) reqs in
  let s := fst (run_state (serve w want stab blade) (boot arr k, last) reqs) in
  let touched := last_touch 0 reqs outs in
  touched <= t -> t / 1000 - touched / 1000 < 2 ^ 32 ->
  (motion_requested s t = true <-> on_ s <> 0 \/ t / 1000 - touched / 1000 < 20000).
Proof.
  intros w want stab blade arr k last reqs t outs s touched T D. unfold motion_requested, s.
  rewrite (touch_all w want stab blade reqs (boot arr k) last 0 eq_refl). fold outs. fold touched. unfold millis, bs_on.
  rewrite <- Zminus_mod. assert (touched / 1000 <= t / 1000) by (apply Z.div_le_mono; lia). rewrite Z.mod_small by lia.
  destruct (on_ _ =? 0) eqn:O; cbn [negb orb]; lia.
Qed.
Example C65_ex :
  let reqs := [(1000, TurnOnAll 0 0); (70000000, TurnOff OffNormal (Loc 2 255) 0 0)] in
  let s := fst (run_state (serve 8 EClash false 1) (boot garbage LNone, 0) reqs) in
  map (motion_requested s) [70000000; 89999999; 90000000] = [true; true; false].
Proof. vm_compute. reflexivity. Qed.

Print Assumptions C26_remembered. Print Assumptions C26_stale_refuted. Print Assumptions C27_detector.
Print Assumptions C27_same_time_refuted. Print Assumptions C28_sets. Print Assumptions C28_switching. Print Assumptions C65_motion.
Print Assumptions C28_lockup.
