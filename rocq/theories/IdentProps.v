(** C117, C118: the blade that is in the saber is recognised. Definitions: IdentSpec.v. *)
From Coq Require Import ZArith QArith List Bool Arith Lia Lqa ZifyBool ZifyNat.
From Verif Require Import Machine ArithModel IdentModel IdentSpec IdentProofs.
Import ListNotations.
Open Scope Z_scope.

(** Two blades and no blade; all use blade 7, two also another *)
Definition ex_cs : list config := [Config 2600 [Some 7; Some 1]%nat; Config 10000 [Some 7; Some 2]%nat; Config 1000000000 [Some 7]%nat].

(** C117: the configuration is the first of those whose resistor is nearest to that measured, if any is within 100 megaohms... *)
Theorem C117_nearest cs r i o : ohm_at cs i o -> (off r o < inject_Z 100000000)%Q -> nearest cs r (FindBestConfig cs r).
Proof. apply find_nearest. Qed.
Example C117_nearest_ex : ohm_at ex_cs 1 10000 /\ FindBestConfig ex_cs (inject_Z 6301) = 1%nat /\ FindBestConfig ex_cs (inject_Z 6300) = 0%nat.
Proof. split; [eexists; split; reflexivity|]. split; reflexivity. Qed.

(** C117: ... and otherwise the first. *)
Theorem C117_far cs r : (forall i o, ohm_at cs i o -> (inject_Z 100000000 <= off r o)%Q) -> FindBestConfig cs r = 0%nat.
Proof. apply find_far. Qed.
Example C117_far_ex : FindBestConfig ex_cs (inject_Z 500000000) = 0%nat.
Proof. reflexivity. Qed.

(** C117: so a blade is recognised if what is measured is off by less than half the distance to any other. *)
Theorem C117_tolerance cs r i o e : ohm_at cs i o -> (off r o < e)%Q -> (e <= inject_Z 100000000)%Q ->
  (forall j o', ohm_at cs j o' -> j <> i -> (2 * e <= inject_Z (Z.abs (o - o')))%Q) -> FindBestConfig cs r = i.
Proof.
  intros H L E D. apply (nearest_unique cs r); [apply find_nearest with i o; auto; lra|]. apply tolerance with o e; auto.
Qed.
Example C117_tolerance_ex : forall j o', ohm_at ex_cs j o' -> j <> 0%nat -> (2 * inject_Z 3700 <= inject_Z (Z.abs (2600 - o')))%Q.
Proof.
  intros j o' (c & A & B) N. destruct j as [|[|[|j]]]; cbn in A; [contradiction| | |destruct j; discriminate]; injection A as <-; cbn in B; subst o'; cbn; vm_compute; discriminate.
Qed.

(** C117: with a pin that tells whether there is a blade, a configuration for an empty saber is chosen when there is none, one for
    a saber with a blade when there is one, if there are such. *)
Theorem C117_detect cs r (d : bool) : (0 <= r <= inject_Z 40000000)%Q -> (forall i o, ohm_at cs i o -> blade_kind o \/ empty_kind o) ->
  (exists i o, ohm_at cs i o /\ if d then blade_kind o else empty_kind o) ->
  exists o, ohm_at cs (FindBestConfig cs (id true d r)) o /\ if d then blade_kind o else empty_kind o.
Proof. intros S K E. pose proof (kinds cs r (negb d) S K) as H. destruct d; exact (H E). Qed.
Example C117_detect_ex : FindBestConfig ex_cs (id true false (inject_Z 10000)) = 2%nat /\ FindBestConfig ex_cs (id true true (inject_Z 10000)) = 1%nat.
Proof. split; reflexivity. Qed.
(** C117: without a configuration for an empty saber, the first is used. *)
Theorem C117_no_empty cs r : (0 <= r <= inject_Z 40000000)%Q -> (forall i o, ohm_at cs i o -> blade_kind o) -> FindBestConfig cs (id true false r) = 0%nat.
Proof. intros S K. apply no_empty; auto. Qed.
Example C117_no_empty_ex : forall i o, ohm_at (firstn 2 ex_cs) i o -> blade_kind o.
Proof. intros i o (c & A & B). destruct i as [|[|i]]; cbn in A; [| |destruct i; discriminate]; injection A as <-; cbn in B; subst o; unfold blade_kind, plausible; lia. Qed.

(** C117: a resistor measured with a pullup of known size comes out within one step of the converter. *)
Theorem C117_resistor p r x : (0 < p)%Q -> (0 <= r)%Q -> 0 <= x < 1023 -> adc p r x ->
  (ExternalPullupBladeID p x <= r < ExternalPullupBladeID p (x + 1))%Q.
Proof. apply pullup_adc. Qed.
Example C117_resistor_ex : adc (inject_Z 37000) (inject_Z 10000) 217 /\ (ExternalPullupBladeID (inject_Z 37000) 217 == 8029000 # 807)%Q.
Proof. split; [split; vm_compute; [discriminate|reflexivity]|reflexivity]. Qed.
(** C117: the bridged pullup of a board is 37 kiloohms; on boards of version 2 there are 470 ohms in the way. *)
Theorem C117_bridged r x : (0 <= r)%Q -> 0 <= x < 1023 -> adc (inject_Z 37000) r x ->
  (BridgedPullupBladeID false x <= r < BridgedPullupBladeID false (x + 1))%Q /\
  (BridgedPullupBladeID true x <= r + inject_Z 470 < BridgedPullupBladeID true (x + 1))%Q.
Proof.
  intros R X A. assert (P : (0 < inject_Z 37000)%Q) by reflexivity. destruct (pullup_adc (inject_Z 37000) r x P R X A) as [B C].
  unfold BridgedPullupBladeID. split; split; [exact B|exact C| |].
  - apply Qplus_le_compat; [exact B|apply Qle_refl].
  - apply Qplus_lt_l. exact C.
Qed.
Example C117_bridged_ex : adc (inject_Z 37000) (inject_Z 10000) 217 /\ (BridgedPullupBladeID true 217 == (8029000 # 807) + inject_Z 470)%Q.
Proof. split; [split; vm_compute; [discriminate|reflexivity]|reflexivity]. Qed.
(** C117: a larger reading means a larger resistor. *)
Theorem C117_monotone p x y : (0 < p)%Q -> 0 <= x -> x < y -> y < 1024 -> (ExternalPullupBladeID p x < ExternalPullupBladeID p y)%Q.
Proof. apply pullup_mono. Qed.
Example C117_monotone_ex : (ExternalPullupBladeID (inject_Z 33000) 1023 == inject_Z 33759000)%Q.
Proof. reflexivity. Qed.
(** C117: the average of several measurements is between the smallest and the largest. *)
Theorem C117_average lo hi ids : ids <> [] -> (forall x, In x ids -> (lo <= x <= hi)%Q) -> (lo <= AverageBladeIDNTimes ids <= hi)%Q.
Proof. apply average_between. Qed.
Example C117_average_ex : (AverageBladeIDNTimes [inject_Z 10; inject_Z 20; inject_Z 40] == 70 # 3)%Q.
Proof. reflexivity. Qed.
(** C117: NO_BLADE_ID_RANGE turns just the measurements in the range into those of an empty saber. *)
Theorem C117_range min max r :
  ((inject_Z min <= r <= inject_Z max)%Q -> (NO_BLADE_RangeID min max r == r + inject_Z 1000000000)%Q) /\
  (~ (inject_Z min <= r <= inject_Z max)%Q -> NO_BLADE_RangeID min max r = r).
Proof.
  unfold NO_BLADE_RangeID. split; intros H.
  - destruct H as [A B]. apply Qle_bool_iff in A, B. rewrite A, B. reflexivity.
  - destruct (Qle_bool (inject_Z min) r) eqn:A; [|reflexivity]. destruct (Qle_bool r (inject_Z max)) eqn:B; [|reflexivity]. exfalso. apply H. split; apply Qle_bool_iff; assumption.
Qed.
Example C117_range_ex : (NO_BLADE_RangeID 500 550 (inject_Z 550) == inject_Z 1000000550)%Q /\ NO_BLADE_RangeID 500 550 (inject_Z 551) = inject_Z 551.
Proof. split; reflexivity. Qed.

(** C118: exactly the blades of the current configuration are active, after every history of scans, detections and commands. *)
Theorem C118_active pin cs n t d r ops : cs <> [] -> no_null cs -> let s := after pin cs n t d r ops in
  crashed s = false /\ exists i, current s = Some i /\ (i < length cs)%nat /\ forall b, active s b = true <-> in_config cs i b.
Proof.
  intros NE NN s. destruct (inv_after pin cs n NE t d r ops NN) as [(i & A & B & C) D]. split; [exact D|]. exists i. split; [exact A|]. split; [exact B|].
  intros b. fold s in C. rewrite C. unfold in_config. rewrite (config_nth cs i B). split; [eauto|]. intros (c & X & Y). injection X as <-. exact Y.
Qed.
Example C118_active_ex : no_null ex_cs /\
  let s := after true ex_cs 1000 0 true (inject_Z 2500) [Detected false (inject_Z 0)] in
  current s = Some 2%nat /\ map (active s) [1; 2; 7]%nat = [false; false; true].
Proof.
  split; [|split; reflexivity]. intros c [<-|[<-|[<-|[]]]]; cbn; intuition discriminate.
Qed.

(** C118: identification on request, and when a blade is put in or taken out, finds the right configuration; the loop function changes
    it only if a scan since its last call found another, and then to the right one for what it measures; nothing else does. *)
Theorem C118_config pin cs n t d r0 ops o : cs <> [] -> no_null cs ->
  let s := after pin cs n t d r0 ops in let c := current (next pin cs n s o) in
  match o with
  | Again r => exists i, c = Some i /\ right_config pin cs (detect_now d ops) r i
  | Detected on r => exists i, c = Some i /\ right_config pin cs on r i
  | Poll r => (found_other pin cs n t d r0 ops -> exists i, c = Some i /\ right_config pin cs (detect_now d ops) r i) /\
              (~ found_other pin cs n t d r0 ops -> c = current s /\ events pin cs n s o = [])
  | Tick _ | Scan _ => c = current s
  end.
Proof.
  intros NE NN s c. pose proof (step_current pin cs n NE NN t d r0 ops o) as H. fold s in H. unfold c. rewrite H.
  pose proof (step_events pin cs n NE NN t d r0 ops o) as E. fold s in E. rewrite E. pose proof (pending_iff pin cs n NE NN t d r0 ops) as P. fold s in P.
  destruct o; auto; try (eexists; split; [reflexivity|apply right_of]).
  split; intros F.
  - rewrite (proj2 P F). eexists. split; [reflexivity|apply right_of].
  - destruct (pending s); [exfalso; apply F, P; reflexivity|auto].
Qed.
Example C118_config_ex :
  let ops := [Tick 1001; Scan (inject_Z 9000); Tick 3] in
  found_other false ex_cs 1000 0 true (inject_Z 2600) ops /\
  current (after false ex_cs 1000 0 true (inject_Z 2600) (ops ++ [Poll (inject_Z 9100)])) = Some 1%nat.
Proof.
  cbn zeta. assert (NE : ex_cs <> []) by discriminate. destruct C118_active_ex as [NN _]. split; [|reflexivity].
  apply (pending_iff false ex_cs 1000 NE NN). reflexivity.
Qed.

(** C118: then the rest of the program is told: that a blade was taken out or put in, or else that the font may be another. *)
Theorem C118_told pin cs n t d r0 ops r i o j o' : cs <> [] -> no_null cs -> found_other pin cs n t d r0 ops ->
  let s := after pin cs n t d r0 ops in
  current s = Some i -> ohm_at cs i o -> current (next pin cs n s (Poll r)) = Some j -> ohm_at cs j o' ->
  (blade_kind o -> empty_kind o' -> events pin cs n s (Poll r) = [BladeDetect false]) /\
  (empty_kind o -> blade_kind o' -> events pin cs n s (Poll r) = [BladeDetect true]) /\
  (blade_kind o -> blade_kind o' -> events pin cs n s (Poll r) = [NewFont]) /\
  (empty_kind o -> empty_kind o' -> events pin cs n s (Poll r) = [NewFont]).
Proof.
  intros NE NN F s CI OI CJ OJ. pose proof (step_events pin cs n NE NN t d r0 ops (Poll r)) as E. fold s in E. cbv beta iota zeta in E. rewrite E. clear E.
  rewrite (proj2 (pending_iff pin cs n NE NN t d r0 ops) F : pending s = true).
  assert (LV : forall x k q, current x = Some k -> ohm_at cs k q -> level cs x = Z.quot q 1000000000).
  { intros x k q C (c & A & B). unfold level. rewrite C. unfold config_of. rewrite (nth_error_nth cs k _ A), B. reflexivity. }
  rewrite (LV s i o CI OI), (LV _ j o' CJ OJ).
  assert (BK : forall q, blade_kind q -> Z.quot q 1000000000 = 0). { intros q [X Y]. apply Z.quot_small. lia. }
  assert (EK : forall q, empty_kind q -> Z.quot q 1000000000 = 1).
  { intros q [X Y]. symmetry. apply Z.quot_unique with (q - 1000000000); lia. }
  repeat split; intros A B; first [rewrite (BK o A)|rewrite (EK o A)]; first [rewrite (BK o' B)|rewrite (EK o' B)]; reflexivity.
Qed.
Example C118_told_ex :
  let s := after false ex_cs 1000 0 true (inject_Z 2600) [Tick 1001; Scan (inject_Z 1000000000)] in
  events false ex_cs 1000 s (Poll (inject_Z 1000000000)) = [BladeDetect false] /\ events false ex_cs 1000 s (Poll (inject_Z 20000)) = [NewFont].
Proof. split; reflexivity. Qed.

(** C118: putting a blade in or taking it out is told, once. *)
Theorem C118_detect pin cs n t d r0 ops on r : cs <> [] -> no_null cs -> events pin cs n (after pin cs n t d r0 ops) (Detected on r) = [BladeDetect on].
Proof. intros NE NN. apply (step_events pin cs n NE NN t d r0 ops (Detected on r)). Qed.
Example C118_detect_ex : events true ex_cs 1000 (after true ex_cs 1000 0 false 0 []) (Detected true (inject_Z 2600)) = [BladeDetect true].
Proof. reflexivity. Qed.

(** C118: scans are more than BLADE_ID_SCAN_MILLIS ms apart, and one is made when that time has passed and the blade asks for it. *)
Theorem C118_spacing pin cs n t d r0 a r b r' : cs <> [] -> no_null cs -> 0 <= n ->
  let s1 := after pin cs n t d r0 a in let s2 := after pin cs n t d r0 (a ++ Scan r :: b) in events pin cs n s1 (Scan r) = [Scanned] ->
  (events pin cs n s2 (Scan r') = [Scanned] -> clk s1 + n < clk s2) /\
  (Forall (fun o => is_scan o = false) b -> n < clk s2 - clk s1 < 4294967296 -> events pin cs n s2 (Scan r') = [Scanned]).
Proof.
  intros NE NN N s1 s2 E. split; [apply spacing; auto|]. intros F C. apply due; auto.
Qed.
Example C118_spacing_ex :
  let a := [Tick 1001] in let b := [Tick 1000; Poll 0; Tick 1] in
  events false ex_cs 1000 (after false ex_cs 1000 0 true 0 a) (Scan 0) = [Scanned] /\
  events false ex_cs 1000 (after false ex_cs 1000 0 true 0 (a ++ Scan 0 :: b)) (Scan 0) = [Scanned] /\
  events false ex_cs 1000 (after false ex_cs 1000 0 true 0 (a ++ Scan 0 :: [Tick 1000; Poll 0])) (Scan 0) = [].
Proof. split; [reflexivity|]. split; reflexivity. Qed.

(** C118 is false without [no_null], a finding: the first identification reports a missing blade, the next one uses the null pointer. *)
Theorem C118_null_refuted : ~ (forall cs ops, cs <> [] -> crashed (after false cs 1000 0 true 0 ops) = false).
Proof. intros H. specialize (H [Config 0 [None]] [Again 0] ltac:(discriminate)). discriminate. Qed.
Example C118_null_ex : snd (boot false [Config 0 [None]] 0 true 0) = [Bad_blade].
Proof. reflexivity. Qed.

(** C118: an error is told at power up exactly if the chosen configuration lacks a blade. *)
Theorem C118_missing pin cs t d r i c : current (fst (boot pin cs t d r)) = Some i -> nth_error cs i = Some c ->
  (snd (boot pin cs t d r) = [Bad_blade] <-> In None (blades c)) /\ (snd (boot pin cs t d r) = [] <-> ~ In None (blades c)).
Proof.
  unfold boot, FindBlade. cbn [detected active clk pending last_scan crashed]. set (k := FindBestConfig cs (id pin d r)).
  destruct (activate (blades (config_of cs k)) (fun _ => false)) as [a good] eqn:E. cbn [fst snd current]. intros H N. injection H as <-.
  unfold config_of in E. rewrite (nth_error_nth cs k _ N) in E.
  assert (G : good = true <-> ~ In None (blades c)).
  { clear - E. revert E. generalize (fun _ : nat => false). induction (blades c) as [|[b|] l IH]; intros f E; cbn in E.
    - injection E as _ <-. split; [intros _ []|reflexivity].
    - rewrite (IH _ E). cbn. split; intros H K; [destruct K as [K|K]; [discriminate|auto]|auto].
    - injection E as _ <-. split; [discriminate|]. intros H. exfalso. apply H. left. reflexivity. }
  destruct good; split; split; intros H; try discriminate; try reflexivity.
  - exfalso. apply G in H; auto.
  - apply G. reflexivity.
  - destruct (in_dec (fun x y : option nat => ltac:(decide equality; apply PeanoNat.Nat.eq_dec)) None (blades c)) as [I|I]; [exact I|]. apply G in I. discriminate.
  - apply G in H. discriminate.
Qed.
Example C118_missing_ex : snd (boot false [Config 0 [Some 1%nat; None]] 0 true 0) = [Bad_blade] /\ snd (boot false [Config 0 [Some 1%nat]] 0 true 0) = [].
Proof. split; reflexivity. Qed.

Print Assumptions C118_missing.
Print Assumptions C117_bridged.
Print Assumptions C117_nearest.
Print Assumptions C117_far.
Print Assumptions C117_tolerance.
Print Assumptions C117_detect.
Print Assumptions C117_no_empty.
Print Assumptions C117_resistor.
Print Assumptions C117_monotone.
Print Assumptions C117_average.
Print Assumptions C117_range.
Print Assumptions C118_active.
Print Assumptions C118_config.
Print Assumptions C118_told.
Print Assumptions C118_detect.
Print Assumptions C118_spacing.
Print Assumptions C118_null_refuted.
