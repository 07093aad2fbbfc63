(** C33 NEC, C34 RC6, C35 blaster shots, C36 infrared receiver, C68 infrared transmitter. *)
From Coq Require Import ZArith List Bool Lia ZifyBool ZifyNat.
From Verif Require Import Machine IRModel IRSpec IRProofs.
Import ListNotations.
Open Scope Z_scope.

(** C33: whatever the decoder did before, after a pause of 10 ms it reports exactly the
    codes sent, in order, even if every pulse is up to 149 microseconds off. *)
Theorem C33_nec : forall s gap ms got, 10000 <= gap -> Forall nec_msg_ok ms -> seen 149 (concat (map nec_send ms)) got ->
  concat (run_outs nec_step s ((false, gap) :: got)) = snd (nec_step s (false, gap)) ++ concat (map nec_expect ms) /\
  run_state nec_step s ((false, gap) :: got) = Nec NBegin 0 0.
Proof.
  intros s gap ms got G M S. destruct (nec_all ms M) as (A & B & C & _). destruct (seen_good _ _ _ _ S _ C) as (D & E).
  pose proof (outs_cons nec_step s (false, gap) got) as O. unfold outs in O. rewrite O.
  pose proof (st_cons nec_step s (false, gap) got) as P. unfold st in P. rewrite P.
  assert (Q : fst (nec_step s (false, gap)) = nec0) by (rewrite nec_gap by lia; reflexivity). rewrite Q.
  fold (outs nec_step nec0 got). fold (st nec_step nec0 got). rewrite D, E, A, B. auto.
Qed.
Example C33_ex : concat (run_outs nec_step (Nec NBits 12345 7)
  ((false, 30000) :: map (fun p : pulse => (fst p, snd p + (if fst p then 149 else -149))) (concat (map nec_send [(Code32 0xA10CD40B, 40000); (Silence, 20000); (Again, 40000); (Code16 0x8001, 30000)])))) =
  [Nec32 0xA10CD40B; NecRepeat; Nec16 0x8001].
Proof. vm_compute. reflexivity. Qed.
(** C33: nothing but complete frames is reported: if a pulse of an alternating signal makes
    the decoder report a code, that pulse ends exactly the frame of that code. *)
Theorem C33_no_false_codes : forall level h p d, alternates level (h ++ [p]) ->
  In (Nec32 d) (snd (nec_step (run_state nec_step (Nec NBegin 0 0) h) p)) ->
  exists before frame bits, h ++ [p] = before ++ frame /\ looks_like frame (nec_frame bits) /\ length bits = 32%nat /\ d = value bits.
Proof.
  intros level h p d A I.
  assert (A1 : alternates level h /\ alternates_end h p).
  { clear I. revert level A. induction h as [|(x, u) h IH]; intros level A; [cbn; split; [exact Logic.I|]; intros pre q E; destruct pre; discriminate|].
    cbn in A |- *. destruct A as (-> & A). destruct (IH _ A) as (B & C). split; [auto|]. intros pre q E. destruct pre as [|y pre].
    - cbn in E. inversion E; subst. destruct p as (xp, up). cbn in A |- *. destruct A as (-> & _). destruct level; discriminate.
    - cbn in E. inversion E; subst. apply (C pre q eq_refl). }
  destruct A1 as (A1 & A2). destruct (heard_step h _ p (nec_heard h _ A1) A2) as (_ & J & _). destruct (J d I) as (pre & fr & bs & X). exists pre, fr, bs. exact X.
Qed.
Example C33_no_false_ex : let h := [(false, 5)] ++ removelast (removelast (Encode32 7)) in
  alternates false (h ++ [(false, 1700)]) /\ snd (nec_step (run_state nec_step (Nec NBegin 0 0) h) (false, 1700)) = [Nec32 7].
Proof. vm_compute. repeat split. Qed.
(** C33: 16-bit codes likewise (reported one or two pulses later), and repeats. *)
Theorem C33_no_false_short : forall level h p, alternates level (h ++ [p]) ->
  let o := snd (nec_step (run_state nec_step (Nec NBegin 0 0) h) p) in
  (forall d, In (Nec16 d) o -> exists before frame bits after, h ++ [p] = before ++ frame ++ after /\ looks_like frame (nec_frame bits) /\
     length bits = 16%nat /\ d = value bits /\ (1 <= length after <= 2)%nat) /\
  (In NecRepeat o -> exists before frame, h ++ [p] = before ++ frame /\ looks_like frame EncodeRepeat).
Proof.
  intros level h p A.
  assert (A1 : alternates level h /\ alternates_end h p).
  { revert level A. induction h as [|(x, u) h IH]; intros level A; [cbn; split; [exact Logic.I|]; intros pre q E; destruct pre; discriminate|].
    cbn in A |- *. destruct A as (-> & A). destruct (IH _ A) as (B & C). split; [auto|]. intros pre q E. destruct pre as [|y pre].
    - cbn in E. inversion E; subst. destruct p as (xp, up). cbn in A |- *. destruct A as (-> & _). destruct level; discriminate.
    - cbn in E. inversion E; subst. apply (C pre q eq_refl). }
  destruct A1 as (A1 & A2). destruct (heard_step h _ p (nec_heard h _ A1) A2) as (_ & _ & J1 & J2). cbv zeta. split; [exact J1|exact J2].
Qed.
Example C33_no_false_short_ex : let h := Encode16 0xBEEF in
  alternates true (h ++ [(false, 15000)]) /\ snd (nec_step (run_state nec_step (Nec NBegin 0 0) h) (false, 15000)) = [Nec16 0xBEEF].
Proof. vm_compute. repeat split. Qed.

(** C34: RC6 codes are reported exactly as sent, in order, from any decoder state after a
    pause, whether or not the receiver merges neighbouring half bits, and with 149
    microseconds of error per pulse.  The pauses must be near multiples of 444 us. *)
Theorem C34_rc6 : forall s gap k ms got, Z.abs (gap - 444 * k) <= 150 -> 8 <= k -> Forall rc6_msg_ok ms -> seen 149 (concat (map rc6_send ms)) got ->
  concat (run_outs rc6_step s ((false, gap) :: got)) = snd (rc6_step s (false, gap)) ++ concat (map rc6_expect ms) /\
  run_state rc6_step s ((false, gap) :: got) = Rc6 0 0 false.
Proof.
  intros s gap k ms got G K M S. destruct (rc6_all ms M) as (A & B & C & _). destruct (seen_good _ _ _ _ S _ C) as (D & E).
  pose proof (outs_cons rc6_step s (false, gap) got) as O. unfold outs in O. rewrite O.
  pose proof (st_cons rc6_step s (false, gap) got) as P. unfold st in P. rewrite P.
  destruct (rc6_gap_step s) as (o & Q). specialize (Q gap k G K). rewrite Q. cbn [fst snd].
  fold (outs rc6_step rc6_zero got). fold (st rc6_step rc6_zero got). rewrite D, E, A, B. auto.
Qed.
(** The received signal with equal levels merged. *)
Fixpoint merged (l : list pulse) : list pulse :=
  match l with
  | (h, u) :: l' => match merged l' with (h2, u2) :: r => if Bool.eqb h h2 then (h, u + u2) :: r else (h, u) :: (h2, u2) :: r | [] => [(h, u)] end
  | [] => []
  end.
Example C34_ex : let sent := concat (map rc6_send [(Rc6Code true 0x5A 0xC3, 20); (Rc6Code false 255 0, 50)]) in
  concat (run_outs rc6_step (Rc6 99 37 true) ((false, 9000) :: map (fun p : pulse => (fst p, snd p + 140)) (merged sent))) = [(0x5A, 0xC3); (255, 0)].
Proof. vm_compute. reflexivity. Qed.
Example C34_merged_ex : exists got, got <> rc6_send (Rc6Code true 1 2, 20) /\ seen 149 (rc6_send (Rc6Code true 1 2, 20)) got /\ got = merged (rc6_send (Rc6Code true 1 2, 20)).
Proof.
  eexists. split; [|split; [|reflexivity]]; [vm_compute; discriminate|].
  vm_compute. repeat first [apply Seen_nil | (apply Seen_merged; cbn [Z.add Pos.add Pos.succ Pos.add_carry]; apply Seen_pulse; [cbn; lia|]) | (apply Seen_pulse; [cbn; lia|])].
Qed.
(** Finding: a code whose last bit is 1 ends in the pause, and is lost if the length of
    that pause is not near a multiple of 444. *)
Theorem C34_pause_refuted : exists pause_, pause_ > 20000 /\
  concat (run_outs rc6_step (Rc6 0 0 false) (merged (EncodeRC6mode0 false 1 1 ++ [(false, pause_)]))) = [] /\
  concat (run_outs rc6_step (Rc6 0 0 false) (merged (EncodeRC6mode0 false 1 0 ++ [(false, pause_)]))) = [(1, 0)].
Proof. exists 20200. vm_compute. auto. Qed.

(** C35: every frame that starts with 0x00AA is reported with its bytes, in order, from any
    state, with 99 us of error per pulse, and counts as a hit exactly if its check byte is
    right; other frames are ignored. *)
Theorem C35_shots : forall s p fs got, pause p -> frames_heard fs got ->
  concat (run_outs blaster_step s (p ++ got)) = concat (map frame_report fs).
Proof.
  intros s p fs got P F. fold (outs blaster_step s (p ++ got)). rewrite outs_app. destruct (pause_run p P s) as (-> & Q). cbn [app]. apply frames_run; assumption.
Qed.
(** C35: what the encoder sends for a team and damage is such a frame, and is a hit. *)
Theorem C35_encoder : forall team_ damage_, 0 <= team_ < 256 -> 0 <= damage_ < 256 ->
  exists f, EncodeShot team_ damage_ = frame_pulses f /\ frame_ok f /\ f_team f = team_ /\ f_damage f = damage_ /\
  frame_report f = [Shot team_ damage_ (check_byte team_ damage_) true].
Proof.
  intros t d T D. exists (Frame 0 170 t d (shot_parity t d)). split; [reflexivity|]. split.
  - unfold frame_ok, is_byte. cbn. split; [lia|]. split; [lia|]. split; [lia|]. split; [lia|]. unfold shot_parity, u8. apply Z.mod_pos_bound. lia.
  - split; [reflexivity|]. split; [reflexivity|]. unfold frame_report. cbn [f_hi f_lo f_team f_damage f_check andb Z.eqb]. rewrite Pos.eqb_refl. rewrite check_parity by assumption. rewrite Z.eqb_refl. reflexivity.
Qed.
Example C35_ex : frames_heard [Frame 0 170 1 3 8] (map (fun p : pulse => (fst p, snd p - 99)) (frame_pulses (Frame 0 170 1 3 8)) ++ [(false, 25000)] ++ []) /\
  concat (run_outs blaster_step (Blaster 5 39 true) ([(false, 3000)] ++ map (fun p : pulse => (fst p, snd p - 99)) (frame_pulses (Frame 0 170 1 3 8)) ++ [(false, 25000)])) = [Shot 1 3 8 true] /\
  concat (run_outs blaster_step (Blaster 5 39 true) ([(false, 3000)] ++ frame_pulses (Frame 0 170 1 3 9))) = [Shot 1 3 9 false].
Proof.
  split; [|split; vm_compute; reflexivity]. apply FH_cons; [vm_compute; intuition discriminate| | |apply FH_nil].
  - vm_compute. repeat (apply Forall2_cons; [split; [reflexivity|discriminate]|]). apply Forall2_nil.
  - split; [discriminate|]. constructor; [split; [reflexivity|cbn; lia]|constructor].
Qed.

(** C36: under every interleaving of the pin interrupt with the steps of the main loop, as
    long as at most 15 events are waiting, the decoders are given an empty event and then
    the recorded events in order, none lost, none torn. *)
Theorem C36_in_order : forall ops,
  (forall n, (length (all_recorded rx0 (firstn n ops)) <= length (all_delivered rx0 (firstn n ops)) + 15)%nat) ->
  all_delivered rx0 ops = firstn (length (all_delivered rx0 ops)) ((false, 0) :: all_recorded rx0 ops) /\
  (length (all_delivered rx0 ops) <= length (all_recorded rx0 ops))%nat.
Proof.
  intros ops O. destruct (ring_run ops rx0 [] [] ring0) as (r & (A & B & C & D & E & F & G) & _).
  - intros n. specialize (O n). cbn [app]. lia.
  - cbn [app] in *. split; [exact F|lia].
Qed.
Example C36_ex : let ops := [Sample true 100; Loop; Sample false 700; Loop; Sample true 1300; Loop; Loop; Loop; Sample false 1900; Loop; Loop; Loop; Loop] in
  all_recorded rx0 ops = [(true, 100); (false, 600); (true, 600); (false, 600)] /\
  all_delivered rx0 ops = [(false, 0); (true, 100); (false, 600)].
Proof. vm_compute. auto. Qed.
(** Finding: the newest event is not delivered even when the loop thinks the buffer is
    empty; it stays until the next edge. *)
Theorem C36_lag_refuted : exists ops, let r := run_state rx_step rx0 ops in
  head r = tail r /\ pc r = RxIdle /\ all_recorded rx0 ops = [(true, 100); (false, 600)] /\ all_delivered rx0 ops = [(false, 0); (true, 100)].
Proof. exists [Sample true 100; Sample false 700; Loop; Loop; Loop; Loop; Loop; Loop; Loop]. vm_compute. auto. Qed.
(** Finding: with 16 waiting events (the size of the buffer) the oldest is overwritten. *)
Theorem C36_overflow_refuted : exists ops, length (all_recorded rx0 ops) = 16%nat /\ all_delivered rx0 ops = [last (all_recorded rx0 ops) (false, 0)].
Proof.
  exists (map (fun i => Sample (Nat.odd i) (Z.of_nat (100 * i * i))) (seq 1 16) ++ [Loop; Loop; Loop]). vm_compute. auto.
Qed.

(** C68: the transmitter's data bytes encode exactly the level and the number of carrier
    periods of every pulse up to 0.1 s, which is at most 27 microseconds short. *)
Theorem C68_transmitter : forall high us, 0 <= us <= 100000 ->
  let bytes := tx_signal (high, us) in
  Forall (fun c => 0 <= fst c <= 255 /\ snd c = if high then 1 else 0) bytes /\
  periods bytes * 1000000 <= us * 38000 < (periods bytes + 1) * 1000000 /\
  us - 27 <= periods bytes * 1000000 / 38000 <= us.
Proof.
  intros high us U bytes. unfold bytes, tx_signal. cbn [fst snd]. assert (C : carrier us = us * 38000 / 1000000) by (unfold carrier, u32; rewrite Z.mod_small by lia; reflexivity).
  assert (N : 0 <= carrier us) by (rewrite C; apply Z.div_pos; lia).
  destruct (chunks_ok (Z.to_nat (carrier us)) (carrier us) high) as (A & B); [lia|]. rewrite A. split; [exact B|]. rewrite C. split; Z.div_mod_to_equations; lia.
Qed.
Example C68_ex : tx_signal (true, 9000) = [(255, 1); (85, 1)] /\ tx_signal (false, 560) = [(20, 0)].
Proof. vm_compute. auto. Qed.

Print Assumptions C33_nec. Print Assumptions C33_no_false_codes. Print Assumptions C33_no_false_short. Print Assumptions C34_rc6. Print Assumptions C34_pause_refuted.
Print Assumptions C35_shots. Print Assumptions C35_encoder. Print Assumptions C36_in_order. Print Assumptions C36_lag_refuted. Print Assumptions C36_overflow_refuted. Print Assumptions C68_transmitter.
