(** Power for sound, blades and the SD card. *)
From Coq Require Import ZArith List Bool Lia.
From Verif Require Import Machine ArithModel AmpModel AmpSpec AmpProofs.
Import ListNotations.
Open Scope Z_scope.

(** C106: Unless the amplifier was switched off by command, it has power and the DAC runs whenever a sound plays. *)
Theorem C106_powered : forall t ops, Forall no_amp_off ops -> playing (after t ops) = true ->
  pin (am (after t ops)) = true /\ dac (am (after t ops)) = true.
Proof. exact powered. Qed.
Example C106_powered_ex :
  let ops := [Tick 100; Amp_Loop; Tick 20; Amp_Loop; Play 0 true; Tick 50; Amp_Loop] in
  Forall no_amp_off ops /\ playing (after 0 ops) = true /\ pin (am (after 0 [Tick 100; Amp_Loop])) = false.
Proof. cbv zeta. split; [repeat constructor; discriminate|]. vm_compute. auto. Qed.

(** C106: Also in the first 30 ms after it is enabled, sound or not. *)
Theorem C106_ready : forall t a e b, Forall no_amp_off (a ++ e :: b) -> enables e = true ->
  clk (after t (a ++ e :: b)) < clk (after t a) + 30 ->
  pin (am (after t (a ++ e :: b))) = true /\ dac (am (after t (a ++ e :: b))) = true.
Proof. exact ready. Qed.
Example C106_ready_ex : let b := [Amp_Loop; Tick 9; Amp_Loop] in
  Forall no_amp_off ([Tick 40; Amp_Loop] ++ Enable :: b) /\ clk (after 0 ([Tick 40; Amp_Loop] ++ Enable :: b)) = 69 /\ clk (after 0 [Tick 40; Amp_Loop]) = 40.
Proof. cbv zeta. split; [repeat constructor; discriminate|]. vm_compute. auto. Qed.

(** C106: When no sound has played and nothing has enabled it for 30 ms, three calls of its loop function,
    20 ms apart, switch off the amplifier and the DAC, if each request for it was followed by a
    call within 30 ms or while a sound played, and the 32-bit clock does not wrap. *)
Theorem C106_goes_off : forall t a q b, 0 <= t -> prompt Amp_Loop enables (fun s => playing s = true) 30 t (a ++ q ++ b) ->
  Forall (fun o => enables o = false) (q ++ b) -> playing (after t a) = false ->
  clk (after t a) + 30 <= clk (after t (a ++ q)) -> rounds Amp_Loop 20 3 (after t (a ++ q)) b ->
  clk (after t (a ++ q ++ b)) + 20 < wrap ->
  pin (am (after t (a ++ q ++ b))) = false /\ dac (am (after t (a ++ q ++ b))) = false.
Proof. exact goes_off. Qed.
Definition off_rounds : list op := [Tick 20; Amp_Loop; Tick 20; Amp_Loop; Tick 20; Amp_Loop].
Example C106_goes_off_ex :
  let a := [Enable; Amp_Loop] in let q := [Tick 30; Amp_Loop] in
  prompt Amp_Loop enables (fun s => playing s = true) 30 0 (a ++ q ++ off_rounds) /\
  clk (after 0 a) + 30 <= clk (after 0 (a ++ q)) /\ rounds Amp_Loop 20 3 (after 0 (a ++ q)) off_rounds /\
  pin (am (after 0 a)) = true /\ pin (am (after 0 (a ++ q ++ off_rounds))) = false.
Proof.
  cbn [app]. split; [apply prompt_one; repeat constructor|]. split; [vm_compute; discriminate|]. split; [|split; reflexivity].
  exists [Tick 20], [Tick 20; Amp_Loop; Tick 20; Amp_Loop]. split; [reflexivity|]. split; [vm_compute; discriminate|].
  exists [Tick 20], [Tick 20; Amp_Loop]. split; [reflexivity|]. split; [vm_compute; discriminate|].
  exists [Tick 20], []. split; [reflexivity|]. split; [vm_compute; discriminate|exact I].
Qed.

(** C106: The DAC stops last: when it stops, the amplifier has had no power for 20 ms, so that nothing is heard of it, if the clock does
    not wrap. *)
Theorem C106_dac_last : forall t ops o, 0 <= t -> clk (after t (ops ++ [o])) + 20 < wrap ->
  dac (am (after t ops)) = true -> dac (am (after t (ops ++ [o]))) = false ->
  forall p q, ops = p ++ q -> clk (after t ops) < clk (after t p) + 20 -> pin (am (after t p)) = false.
Proof. exact dac_last. Qed.
Example C106_dac_last_ex :
  let ops := [Enable; Amp_Loop; Tick 30; Amp_Loop; Tick 20; Amp_Loop; Tick 20] in
  dac (am (after 0 ops)) = true /\ dac (am (after 0 (ops ++ [Amp_Loop]))) = false /\ pin (am (after 0 [Enable; Amp_Loop; Tick 30])) = true.
Proof. vm_compute. auto. Qed.

(** C106 is false without the promptness: enabled without a sound, and the loop function called 30 ms later, of which
    20 ms are spent in the enabling, the amplifier stays on until something enables it again. *)
Theorem C106_stuck_refuted : exists a, Forall no_amp_off a /\ playing (after 0 a) = false /\
  forall b, Forall (fun o => enables o = false /\ o <> AmpOff) b -> clk (after 0 (a ++ b)) + 20 < wrap ->
  pin (am (after 0 (a ++ b))) = true.
Proof.
  exists [Tick 30; Amp_Loop; Tick 20; Amp_Loop; Tick 20; Amp_Loop; Enable; Tick 10; Amp_Loop].
  split; [repeat constructor; discriminate|]. split; [reflexivity|]. intros b F H.
  unfold after in *. rewrite run_app in *. apply stuck_run; auto.
  - split; reflexivity.
  - split; [reflexivity|]. split; [|vm_compute; discriminate]. unfold bounds. vm_compute. intuition discriminate.
Qed.
(** C106 is false across the wrap of the clock, after 49.7 days: the loop function may sleep until the next one. *)
Theorem C106_wrap_refuted : exists t a q b, 0 <= t /\ prompt Amp_Loop enables (fun s => playing s = true) 30 t (a ++ q ++ b) /\
  Forall (fun o => enables o = false) (q ++ b) /\ playing (after t a) = false /\
  clk (after t a) + 30 <= clk (after t (a ++ q)) /\ rounds Amp_Loop 20 3 (after t (a ++ q)) b /\
  pin (am (after t (a ++ q ++ b))) = true.
Proof.
  exists (wrap - 60), [Enable; Amp_Loop], [Tick 15; Amp_Loop; Tick 15], off_rounds.
  split; [unfold wrap; lia|]. cbn [app]. split; [apply prompt_one; repeat constructor|].
  split; [repeat constructor|]. split; [reflexivity|]. split; [vm_compute; discriminate|]. split; [|reflexivity].
  exists [Tick 20], [Tick 20; Amp_Loop; Tick 20; Amp_Loop]. split; [reflexivity|]. split; [vm_compute; discriminate|].
  exists [Tick 20], [Tick 20; Amp_Loop]. split; [reflexivity|]. split; [vm_compute; discriminate|].
  exists [Tick 20], []. split; [reflexivity|]. split; [vm_compute; discriminate|exact I].
Qed.
(** After the command "amp off" while it is on, the next sound is not heard: nothing switches it on again. *)
Theorem C106_command_refuted : exists ops, playing (after 0 ops) = true /\ pin (am (after 0 ops)) = false /\
  In AmpOff ops /\ (exists a, ops = a ++ [Play 0 true]).
Proof.
  exists [Enable; AmpOff; Play 0 true]. split; [reflexivity|]. split; [reflexivity|]. split; [cbn; auto|].
  exists [Enable; AmpOff]. reflexivity.
Qed.

(** C107: Once the booster was asked for, by itself or as the amplifier got power, it stays on, without a
    break, as long as a blade is on, the style or anything else needs it, a sound plays, or 10 s have not passed. *)
Theorem C107_stays : forall t a e b, Forall no_amp_off a -> Forall no_booster_off (a ++ e :: b) -> boosts (after t a) e ->
  throughout (fun s => wants_booster s \/ clk s < clk (after t a) + 10000) (after t (a ++ [e])) b ->
  bpin (bo (after t (a ++ e :: b))) = true.
Proof. exact boosted. Qed.
Example C107_stays_ex : let b := [Booster_Loop; Tick 50; World true false false false false; Tick 20000; Booster_Loop; Amp_Loop] in
  boosts (after 0 [Tick 100]) (Play 0 true) /\ bpin (bo (after 0 [Tick 100])) = false /\
  throughout (fun s => wants_booster s \/ clk s < clk (after 0 [Tick 100]) + 10000) (after 0 ([Tick 100] ++ [Play 0 true])) b.
Proof.
  split; [right; right; split; reflexivity|]. split; [reflexivity|]. intros a b E.
  left. left. unfold after. rewrite <- run_app.
  destruct a as [|x1 a]; [reflexivity|]. injection E as <- E. destruct a as [|x2 a]; [reflexivity|]. injection E as <- E.
  destruct a as [|x3 a]; [reflexivity|]. injection E as <- E. destruct a as [|x4 a]; [reflexivity|]. injection E as <- E.
  destruct a as [|x5 a]; [reflexivity|]. injection E as <- E. destruct a as [|x6 a]; [reflexivity|]. injection E as <- E.
  destruct a as [|x7 a]; [reflexivity|]. discriminate.
Qed.

(** C107: When nothing has needed it for 10 s, eleven calls of its loop function, 100 ms apart, switch it off, if the
    loop function was called within 10 s of each request and the clock does not wrap. *)
Theorem C107_goes_off : forall t a q b, 0 <= t -> Forall no_booster_off (a ++ q ++ b) ->
  prompt Booster_Loop asks_booster wants_booster 10000 t (a ++ q ++ b) ->
  Forall (fun o => asks_booster o = false) (q ++ b) -> throughout (fun s => ~ wants_booster s) (after t a) (q ++ b) ->
  clk (after t a) + 10000 <= clk (after t (a ++ q)) -> rounds Booster_Loop 100 11 (after t (a ++ q)) b ->
  clk (after t (a ++ q ++ b)) + 100 < wrap -> bpin (bo (after t (a ++ q ++ b))) = false.
Proof. exact booster_off. Qed.
Definition round100 : list op := [Tick 100; Booster_Loop].
Definition eleven : list op := concat (repeat round100 11).
Lemma rounds_repeat n : forall s, rounds Booster_Loop 100 n s (concat (repeat round100 n)).
Proof.
  induction n as [|n IH]; intros s; [exact I|]. exists [Tick 100], (concat (repeat round100 n)).
  split; [reflexivity|]. split; [cbn; lia|apply IH].
Qed.
Example C107_goes_off_ex : let a := [EnableBooster; Booster_Loop] in let q := [Tick 5000; Tick 5000; Booster_Loop] in
  prompt Booster_Loop asks_booster wants_booster 10000 0 (a ++ q ++ eleven) /\ rounds Booster_Loop 100 11 (after 0 (a ++ q)) eleven /\
  clk (after 0 a) + 10000 <= clk (after 0 (a ++ q)) /\
  bpin (bo (after 0 (a ++ q ++ concat (repeat round100 9)))) = true /\ bpin (bo (after 0 (a ++ q ++ eleven))) = false.
Proof.
  cbn [app]. split; [apply bprompt_one; repeat constructor|]. split; [apply rounds_repeat|].
  split; [vm_compute; discriminate|]. split; vm_compute; reflexivity.
Qed.

(** C107 is false of every sound: a sound may play with the booster off, without any command, if the amplifier was
    already on: then enabling it does not enable the booster. *)
Theorem C107_sound_refuted : exists ops, Forall no_amp_off ops /\ Forall no_booster_off ops /\
  playing (after 0 ops) = true /\ pin (am (after 0 ops)) = true /\ bpin (bo (after 0 ops)) = false.
Proof.
  exists ([Tick 30; Amp_Loop; Tick 20; Amp_Loop; Tick 20; Amp_Loop; Enable; Tick 10; Amp_Loop; Tick 5000; Tick 5000; Booster_Loop]
    ++ eleven ++ [Play 0 true]).
  split; [repeat constructor; discriminate|]. split; [repeat constructor; discriminate|]. vm_compute. auto.
Qed.

(** C108: After it was mounted, the card stays mounted, without a break, as long as a sound plays, a stream or a lock needs
    it, a blade is on, or a second has not passed and no computer is connected. *)
Theorem C108_stays : forall t a e b, mounts e ->
  throughout (fun s => in_use s \/ (usb s = false /\ clk s < clk (after t a) + 1000)) (after t (a ++ [e])) b ->
  mounted (sd (after t (a ++ e :: b))) = true.
Proof. exact stays_mounted. Qed.
Example C108_stays_ex : let b := [Tick 900; SD_Loop true true; World true false false false true; Tick 5000; SD_Loop true true] in
  mounts (MountCard 0 true) /\ mounted (sd (after 0 [])) = false /\
  throughout (fun s => in_use s \/ (usb s = false /\ clk s < clk (after 0 []) + 1000)) (after 0 ([] ++ [MountCard 0 true])) b.
Proof.
  split; [exact I|]. split; [reflexivity|]. intros a b E. unfold after. rewrite <- run_app.
  destruct a as [|x1 a]; [right; split; reflexivity|]. injection E as <- E.
  destruct a as [|x2 a]; [right; split; reflexivity|]. injection E as <- E.
  destruct a as [|x3 a]; [right; split; reflexivity|]. injection E as <- E.
  destruct a as [|x4 a]; [left; right; right; reflexivity|]. injection E as <- E.
  destruct a as [|x5 a]; [left; right; right; reflexivity|]. injection E as <- E.
  destruct a as [|x6 a]; [left; right; right; reflexivity|]. discriminate.
Qed.

(** C108: When it has not been used for 2.03 s, or for 30 ms with a computer connected, the next call of its loop function
    leaves it unmounted. *)
Theorem C108_unmounts : forall t a q can ok, 0 <= t ->
  Forall (fun o => enables o = false /\ forall w ok, o <> MountCard w ok) q ->
  throughout (fun s => ~ in_use s) (after t a) q -> clk (after t (a ++ q)) < wrap ->
  (clk (after t a) + 2030 <= clk (after t (a ++ q)) \/ (usb (after t (a ++ q)) = true /\ clk (after t a) + 30 <= clk (after t (a ++ q)))) ->
  mounted (sd (after t (a ++ q ++ [SD_Loop can ok]))) = false.
Proof. exact unmounts. Qed.
Example C108_unmounts_ex :
  mounted (sd (after 0 [MountCard 0 true])) = true /\
  ~ in_use (after 0 [MountCard 0 true]) /\ ~ in_use (after 0 [MountCard 0 true; Tick 2030]) /\
  mounted (sd (after 0 ([MountCard 0 true] ++ [Tick 2030] ++ [SD_Loop true true]))) = false.
Proof.
  split; [reflexivity|]. split; [|split; [|vm_compute; reflexivity]]; intros [H|[H|H]]; vm_compute in H; discriminate.
Qed.

(** C108: While it is in use, a working card is mounted again by the first call of its loop function after a second. *)
Theorem C108_remounts : forall t a b c, 0 <= t -> Forall good_card (b ++ SD_Loop true true :: c) ->
  throughout in_use (after t a) (b ++ SD_Loop true true :: c) ->
  clk (after t a) + 1000 < clk (after t (a ++ b)) < wrap ->
  mounted (sd (after t (a ++ b ++ SD_Loop true true :: c))) = true.
Proof. exact remounts. Qed.
Example C108_remounts_ex :
  let a := [World true false false false false] in
  mounted (sd (after 0 (a ++ [SD_Loop true true; Tick 1001]))) = false /\
  in_use (after 0 a) /\ clk (after 0 a) + 1000 < clk (after 0 (a ++ [SD_Loop true true; Tick 1001])).
Proof. split; [vm_compute; reflexivity|]. split; [right; right; reflexivity|vm_compute; reflexivity]. Qed.

(** C108 is false with a computer connected and no sound or blade: the card just mounted may be unmounted at once. *)
Theorem C108_usb_refuted : exists a e b, mounts e /\ clk (after 0 (a ++ e :: b)) = clk (after 0 a) /\
  mounted (sd (after 0 (a ++ [e]))) = true /\ mounted (sd (after 0 (a ++ e :: b))) = false.
Proof.
  exists [Tick 100; World false false false false true], (MountCard 0 true), [SD_Loop true true].
  split; [exact I|]. vm_compute. auto.
Qed.
Print Assumptions C106_powered.
Print Assumptions C106_ready.
Print Assumptions C106_goes_off.
Print Assumptions C106_dac_last.
Print Assumptions C106_stuck_refuted.
Print Assumptions C106_wrap_refuted.
Print Assumptions C106_command_refuted.
Print Assumptions C107_stays.
Print Assumptions C107_goes_off.
Print Assumptions C107_sound_refuted.
Print Assumptions C108_stays.
Print Assumptions C108_unmounts.
Print Assumptions C108_remounts.
Print Assumptions C108_usb_refuted.
