(** C29 debouncing, C30 button events, C31 latching, C32 rotary knob, C66 event ids,
    C67 fast and floating buttons. *)
From Coq Require Import ZArith List Bool Lia ZifyBool ZifyNat.
From Verif Require Import Machine ButtonModel ButtonSpec ButtonProofs.
Import ListNotations.
Open Scope Z_scope.

(** C29: after any samples (oldest first) the button is reported pressed exactly when the
    two newest samples are pressed and the last unpressed one is more than [timeout] ms
    old.  So a stretch of pressed samples shorter than that is invisible. *)
Theorem C29_debounce : forall timeout garbage samples,
  samples <> [] ->
  (forall i j d, (i <= j < length samples)%nat -> 0 <= fst (nth i samples d) <= fst (nth j samples d) /\ fst (nth j samples d) < 2 ^ 32) ->
  (pushed_ (run (fun d s => deb_step timeout d (fst s) (snd s)) (Deb DStart garbage false) samples) = true <-> debounced timeout (rev samples)).
Proof.
  intros timeout g samples NE SO. assert (NE' : rev samples <> []) by (intros E; apply NE; apply (f_equal (@rev _)) in E; rewrite rev_involutive in E; exact E).
  destruct (deb_state timeout g (rev samples)) as (_ & _ & _ & A); [|exact NE'|].
  - intros i j d L. rewrite rev_length in L. rewrite !rev_nth by lia. apply SO. lia.
  - cbv zeta in A. unfold deb_run in A. rewrite rev_involutive in A. exact A.
Qed.
Example C29_ex :
  map (fun n => pushed_ (run (fun d s => deb_step 10 d (fst s) (snd s)) (Deb DStart 77 false) (firstn n [(0, true); (5, true); (9, false); (12, true); (18, true); (19, true); (20, true); (21, false); (22, true)])))
    [1; 2; 3; 4; 5; 6; 7; 8; 9]%nat = [false; false; false; false; false; false; true; false; false].
Proof. vm_compute. reflexivity. Qed.
(** Finding: the other way round there is no debouncing: one unpressed sample in a long
    press is reported as a release. *)
Theorem C29_release_refuted : exists samples t,
  last samples (0, false) = (t, false) /\ length samples = 7%nat /\ Forall (fun s => snd s = true \/ s = (t, false) \/ s = (0, false)) samples /\
  pushed_ (run (fun d s => deb_step 10 d (fst s) (snd s)) (Deb DStart 0 false) (firstn 6 samples)) = true /\
  pushed_ (run (fun d s => deb_step 10 d (fst s) (snd s)) (Deb DStart 0 false) samples) = false.
Proof.
  exists [(0, false); (4, true); (8, true); (12, true); (16, true); (20, true); (21, false)], 21.
  split; [reflexivity|]. split; [reflexivity|]. split; [repeat (apply Forall_cons; [cbn; auto|]); constructor|]. split; vm_compute; reflexivity.
Qed.

(** C30: polled quickly (five polls within the debounce time), for every input and whatever
    the prop does with the events, the button goes through the cycle of ButtonSpec:
    one press event per press, hold events in order and once each exactly when due, one
    release within five polls, then the click that matches the holding time, and the
    saved click half a second later if nobody handled it. *)
Theorem C30_button_cycle : forall timeout g t ps,
  0 <= timeout -> forward 0 ps -> quick timeout ps ->
  exists ph, cycle (Up t 0 false) ps (run_outs (poll_step timeout) (Deb DStart g false, Button P70 t 0 false false) ps) ph.
Proof.
  intros timeout g t ps T0 F Q. destruct (button_cycle timeout T0 ps (Deb DStart g false) (Button P70 t 0 false false) (Up t 0 false) 0) as (ph & C & _); try assumption; try lia.
  - cbn. split; [reflexivity|]. split; [reflexivity|]. split; [reflexivity|]. split; [reflexivity|lia].
  - cbn. auto.
  - exists ph. exact C.
Qed.
(** The polls of a button that is pressed from [a] to [b], every 2 ms. *)
Definition press_polls (n : nat) (pressed : Z -> bool) : list poll :=
  map (fun i => let t := 1000 + 2 * Z.of_nat i in Poll t (pressed t) false false (fun _ => false)) (seq 0 n).
Example C30_hyps : forall n f, Z.of_nat n <= 10000 -> forward 0 (press_polls n f) /\ quick 10 (press_polls n f).
Proof.
  intros n f N. unfold press_polls. assert (N' : Z.of_nat (0 + n) <= 10000) by lia. assert (T : 0 <= 1000 + 2 * Z.of_nat 0) by lia.
  clear N. revert N' T. generalize 0%nat. generalize 0. induction n as [|n IH]; intros t k N T; [cbn; auto|].
  cbn [seq map forward quick now]. destruct (IH (1000 + 2 * Z.of_nat k) (S k)) as (A & B); [lia|lia|]. split; [split; [lia|exact A]|]. split; [|exact B].
  apply Forall_forall. intros q Q. rewrite firstn_map in Q. apply in_map_iff in Q as (j & <- & J). cbn [now].
  assert ((S k <= j < S k + 4)%nat); [|lia]. clear - J. destruct n as [|[|[|[|n]]]]; cbn in J; intuition lia.
Qed.
Example C30_ex :
  let ps := press_polls 1800 (fun t => ((1010 <? t) && (t <? 1100)) || ((1200 <? t) && (t <? 2250)) || ((2300 <? t) && (t <? 2303))) in
  filter (fun o => negb (match o with [] => true | _ => false end))
    (map (fun o => kinds (snd o)) (run_outs (poll_step 10) (Deb DStart 0 false, Button P70 0 0 false false) ps)) =
  [[(PRESSED, 1)]; [(RELEASED, 1); (CLICK_SHORT, 1)]; [(PRESSED, 2)]; [(HELD, 2)]; [(HELD_MEDIUM, 2)]; [(RELEASED, 2); (CLICK_LONG, 2)]].
Proof. vm_compute. reflexivity. Qed.
(** C30: every event is delivered under its counted number first and, if nobody handles
    that, under its plain number; the numbers are those of events.h. *)
Theorem C30_delivery : forall p e n, 1 <= e <= 8 -> 0 <= n <= 4 ->
  let s := send p e n in
  ev s = e /\ cnt s = n /\
  (exists rest, delivered s = (e + 8 * n) :: rest /\ (rest = [] <-> handles p (e + 8 * n) = true) /\ (rest = [] \/ rest = [e])) /\
  (ok s = true <-> exists x, In x (delivered s) /\ handles p x = true).
Proof.
  intros p e n E N s. unfold s, send. change SECTION with 8. destruct (handles p (e + 8 * n)) eqn:H; cbn [ev cnt delivered ok].
  - split; [reflexivity|]. split; [reflexivity|]. split; [exists []; split; [reflexivity|]; split; [tauto|auto]|]. split; [|reflexivity]. intros _. exists (e + 8 * n). split; [left; reflexivity|exact H].
  - split; [reflexivity|]. split; [reflexivity|]. split; [exists [e]; split; [reflexivity|]; split; [split; discriminate|auto]|].
    split; [intros X; exists e; split; [right; left; reflexivity|exact X]|]. intros (x & [<- |[<- |[]]] & X); [congruence|exact X].
Qed.
Example C30_delivery_ex : delivered (send (Poll 0 true false false (fun x => x =? 14)) CLICK_SHORT 1) = [14] /\
  delivered (send (Poll 0 true false false (fun x => x =? 6)) CLICK_SHORT 2) = [22; 6].
Proof. vm_compute. auto. Qed.
(** Finding: with slow polls a short drop-out of a held button makes it send hold events
    again without a release in between. *)
Theorem C30_slow_polls_refuted : exists ps, forward 0 ps /\
  concat (map (fun o => kinds (snd o)) (run_outs (poll_step 10) (Deb DStart 0 false, Button P70 0 0 false false) ps)) =
  [(PRESSED, 1); (HELD, 1); (HELD_MEDIUM, 1); (HELD_LONG, 1); (HELD_MEDIUM, 1); (HELD_LONG, 1)].
Proof.
  exists (map (fun x => Poll (fst x) (snd x) false false (fun _ => false))
    [(1000, false); (1020, true); (1040, true); (1400, true); (1900, true); (3100, true); (3110, false); (3120, true); (3130, true); (3140, true)]).
  split; [cbn; lia|]. vm_compute. reflexivity.
Qed.

(** C31: a latching button reports on and off alternately, each time the debounced level. *)
Theorem C31_latching : forall levels,
  let outs := run_outs latch_step false levels in
  alternating true (concat outs) /\ Forall2 (fun d out => out = [] \/ out = [d]) levels outs /\
  last (concat outs) false = last levels false.
Proof.
  intros levels outs. split; [apply (latch_all levels false)|]. split; [apply latch_reports|].
  unfold outs. assert (LC : forall (x : bool) l d, last (x :: l) d = last l x).
  { intros x l. revert x. induction l as [|y l IH]; intros x d; [reflexivity|]. change (last (x :: y :: l) d) with (last (y :: l) d). rewrite !IH. reflexivity. }
  generalize false. induction levels as [|d l IH]; intros on; [reflexivity|].
  cbn [run_outs]. rewrite latch_eq. cbn [concat]. rewrite LC. destruct (Bool.eqb on d) eqn:E.
  - apply eqb_prop in E as ->. cbn [app]. apply IH.
  - cbn [app]. rewrite LC. apply IH.
Qed.
Example C31_ex : concat (run_outs latch_step false [false; true; true; false; false; true]) = [true; false; true].
Proof. reflexivity. Qed.

(** C32: with the interrupts attached, however the knob is turned back and forth, the
    counter follows its position to within one quarter step (mod 256), *)
Theorem C32_tracks : forall spd ops,
  let k := run_state (knob_step spd) (Knob 0 LO1 0 0) ops in
  exists x, delta_ k = i8 x /\ (x = angle k \/ x = angle k + 1) /\
  angle k = sum (map (fun o => match o with Turn true => 1 | Turn false => -1 | KLoop => 0 end) ops).
Proof.
  intros spd ops. set (ok := Knob 0 LO1 0 0).
  assert (T : tracks ok 0) by (unfold tracks, ok; cbn; auto).
  set (step := fun o => match o with Turn true => 1 | Turn false => -1 | KLoop => 0 end).
  replace (sum _) with (angle ok + sum (map step ops)) by reflexivity.
  clearbody ok. revert T. generalize 0. revert ok. induction ops as [|o ops IH]; intros k0 x0 T; cbn [run_state map sum fold_right].
  - exists x0. destruct T as (A & B & C). split; [exact B|]. lia.
  - destruct o as [f|]; cbn [knob_step fst].
    + destruct (turn_tracks k0 f x0 T) as (x1 & T1 & _ & A1). destruct (IH _ x1 T1) as (x & A & B & C). exists x. split; [exact A|]. split; [exact B|]. rewrite C, A1.
      unfold sum, step. destruct f; lia.
    + assert (T1 : tracks (fst (rotary_loop spd k0)) x0 /\ angle (fst (rotary_loop spd k0)) = angle k0).
      { unfold rotary_loop. destruct (loop_up _ _ _ _) as (p1, l1). destruct (loop_down _ _ _ _) as (p2, l2). cbn [fst]. split; [exact T|reflexivity]. }
      destruct T1 as (T1 & A1). destruct (IH _ x0 T1) as (x & A & B & C). exists x. split; [exact A|]. split; [exact B|]. rewrite C, A1. unfold sum, step. lia.
Qed.
(** and as long as it stays within 30 detents of its starting point the receiver's net
    count is the position: exact on detents, within one detent in between. *)
Theorem C32_detents : forall spd ops, 2 <= spd <= 100 ->
  (forall n, -120 <= angle (run_state (knob_step spd) (Knob 0 LO1 0 0) (firstn n (ops ++ [KLoop]))) <= 120) ->
  let k := run_state (knob_step spd) (Knob 0 LO1 0 0) (ops ++ [KLoop]) in
  let net := sum (concat (run_outs (knob_step spd) (Knob 0 LO1 0 0) (ops ++ [KLoop]))) in
  Z.abs (angle k - spd * net) < spd /\ (forall d, angle k = spd * d -> net = d).
Proof.
  intros spd ops S R k net.
  assert (T : tracks (Knob 0 LO1 0 0) 0) by (unfold tracks; cbn; auto).
  destruct (knob_all spd S ops (Knob 0 LO1 0 0) 0 T) as (x & T1 & P1 & Q1); [cbn; lia| |].
  { intros n. specialize (R (Nat.min n (length ops))). rewrite firstn_app in R. replace (Nat.min n (length ops) - length ops)%nat with 0%nat in R by lia.
    rewrite app_nil_r in R. destruct (Nat.leb_spec n (length ops)); [replace (Nat.min n (length ops)) with n in R by lia; exact R|].
    rewrite Nat.min_r in R by lia. rewrite firstn_all in R. rewrite firstn_all2 by lia. exact R. }
  cbv zeta in *. set (k1 := run_state (knob_step spd) (Knob 0 LO1 0 0) ops) in *.
  assert (X : -120 <= x <= 121).
  { specialize (R (length ops)). rewrite firstn_app, firstn_all, Nat.sub_diag in R. cbn [firstn] in R. rewrite app_nil_r in R. fold k1 in R. destruct T1 as (_ & _ & T1). lia. }
  pose proof (rotary_loop_ok spd S k1 x T1 X P1) as L.
  assert (K : k = fst (rotary_loop spd k1)) by (unfold k; rewrite run_state_app; reflexivity).
  assert (N : net = sum (concat (run_outs (knob_step spd) (Knob 0 LO1 0 0) ops)) + sum (snd (rotary_loop spd k1))).
  { unfold net. rewrite run_outs_app, concat_app, sum_app. f_equal. fold k1. cbn [run_outs knob_step]. destruct (rotary_loop spd k1) as (k2, l). cbn [snd concat]. rewrite app_nil_r. reflexivity. }
  rewrite K, N. destruct (rotary_loop spd k1) as (k2, l). cbn [fst snd]. destruct L as (T2 & A2 & P2 & B2 & _). cbn [pos_] in Q1.
  destruct T2 as (_ & _ & T2).
  assert (E : Z.abs (angle k2 - spd * (sum (concat (run_outs (knob_step spd) (Knob 0 LO1 0 0) ops)) + sum l)) < spd) by lia.
  split; [exact E|]. intros d D. rewrite D in E. rewrite <- Z.mul_sub_distr_l in E. rewrite Z.abs_mul in E. nia.
Qed.
Example C32_ex :
  let ops := [Turn true; Turn true; Turn false; Turn true; Turn true; Turn true; KLoop; Turn false; KLoop; Turn false; Turn false; Turn false; KLoop; Turn false; KLoop] in
  concat (run_outs (knob_step 4) (Knob 0 LO1 0 0) ops) = [1; -1] /\ angle (run_state (knob_step 4) (Knob 0 LO1 0 0) ops) = -1.
Proof. vm_compute. auto. Qed.
(** C32: after interrupts were missed, the next one puts the counter back in phase with the pins,
    moving it by at most two quarter steps besides the step itself. *)
Theorem C32_resync : forall delta p d, -128 <= delta <= 127 -> 0 <= p <= 3 -> d = 1 \/ d = -1 ->
  (adjust delta p d - (p + d)) mod 4 = 0 /\ exists c, -2 <= c <= 2 /\ adjust delta p d = i8 (delta + c + d) /\
  (delta mod 4 = p -> c = 0) /\ ((delta - p) mod 4 <> 2 -> -1 <= c <= 1).
Proof. exact resync. Qed.
Example C32_resync_ex : adjust 7 0 1 = 9 /\ adjust 9 0 1 = 9 /\ adjust 8 0 1 = 9 /\ adjust 6 0 1 = 5.
Proof. vm_compute. auto. Qed.
(** Finding: turned 128 quarter steps forward, the 8-bit counter wraps and the receiver is
    told of 63 detents backward. *)
Theorem C32_wrap_refuted :
  let ops := concat (repeat [Turn true; Turn true; Turn true; Turn true; KLoop] 32) in
  angle (run_state (knob_step 4) (Knob 0 LO1 0 0) ops) = 128 /\
  sum (concat (run_outs (knob_step 4) (Knob 0 LO1 0 0) ops)) = 31 - 63.
Proof. vm_compute. auto. Qed.
(** Finding: with one step per detent every pass of the loop sends a backward and then a
    forward event although nobody touches the knob. *)
Theorem C32_one_step_refuted : concat (run_outs (knob_step 1) (Knob 0 LO1 0 0) [KLoop; KLoop; KLoop]) = [-1; 1; -1; 1; -1].
Proof. vm_compute. reflexivity. Qed.

(** C66: different button, event and modifier combinations have different case labels:
    buttons are single bits below 2^17, modifiers below 2^17, events below 256. *)
Theorem C66_event_ids : forall i e m i' e' m',
  0 <= i < 17 -> 0 <= i' < 17 -> 0 <= e < 256 -> 0 <= e' < 256 -> 0 <= m < 2 ^ 17 -> 0 <= m' < 2 ^ 17 ->
  Z.testbit m i = false -> Z.testbit m' i' = false ->
  EVENTID (2 ^ i) e m = EVENTID (2 ^ i') e' m' -> i = i' /\ e = e' /\ m = m'.
Proof.
  assert (RED : forall i e m, 0 <= i < 17 -> 0 <= e < 256 -> 0 <= m < 2 ^ 17 -> Z.testbit m i = false ->
    EVENTID (2 ^ i) e m = Z.lor (Z.shiftl (Z.lor (Z.shiftl e 7) i) 17) m).
  { intros i e m I E M B. unfold EVENTID, compress_button. replace (2 ^ i =? 0) with false by (pose proof (Z.pow_pos_nonneg 2 i); lia).
    rewrite Z.log2_pow2 by lia.
    assert (ML : Z.land m (Z.lnot (2 ^ i)) = m).
    { apply Z.bits_inj'. intros n N. rewrite Z.land_spec, Z.lnot_spec by lia. rewrite Z.pow2_bits_eqb by lia.
      destruct (Z.eqb_spec i n) as [<- |]; [rewrite B; reflexivity|apply andb_true_r]. }
    rewrite ML. rewrite Z.shiftl_lor, Z.shiftl_shiftl by lia. change (7 + 17) with 24. apply Z.mod_small.
    assert (P1 : 0 <= Z.shiftl e 24) by (apply Z.shiftl_nonneg; lia). assert (P2 : 0 <= Z.shiftl i 17) by (apply Z.shiftl_nonneg; lia).
    assert (P : 0 <= Z.lor (Z.lor (Z.shiftl e 24) (Z.shiftl i 17)) m) by (rewrite !Z.lor_nonneg; lia). split; [exact P|].
    set (v := Z.lor _ m) in *. destruct (Z.eq_dec v 0) as [-> |V0]; [lia|]. apply Z.log2_lt_pow2; [lia|].
    unfold v. rewrite !Z.log2_lor by (rewrite ?Z.lor_nonneg; lia).
    assert (L1 : Z.log2 (Z.shiftl e 24) < 32).
    { destruct (Z.eq_dec e 0) as [-> |]; [cbn; lia|]. apply Z.log2_lt_pow2; rewrite Z.shiftl_mul_pow2 by lia; lia. }
    assert (L2 : Z.log2 (Z.shiftl i 17) < 32).
    { destruct (Z.eq_dec i 0) as [-> |]; [cbn; lia|]. apply Z.log2_lt_pow2; rewrite Z.shiftl_mul_pow2 by lia; lia. }
    assert (L3 : Z.log2 m < 32).
    { destruct (Z.eq_dec m 0) as [-> |]; [cbn; lia|]. apply Z.log2_lt_pow2; lia. }
    lia. }
  intros i e m i' e' m' I I' E E' M M' B B' H. rewrite !RED in H by assumption.
  apply lor_disjoint_inj in H as (H1 & H2); try lia. apply lor_disjoint_inj in H1 as (H3 & H4); lia.
Qed.
Example C66_ex : EVENTID 4 6 1024 = 6 * 2 ^ 24 + 2 * 2 ^ 17 + 1024 /\ EVENTID 1 6 1025 = EVENTID 1 6 1024.
Proof. vm_compute. auto. Qed.

(** C67: a fast button reports a click at a loop exactly if there was a falling edge since
    the previous loop, however short. *)
Theorem C67_fast_button : forall before n,
  run_outs fast_step false (before ++ [FastLoop] ++ repeat Falling n ++ [FastLoop]) =
  run_outs fast_step false (before ++ [FastLoop] ++ repeat Falling n) ++ [if (0 <? n)%nat then [CLICK_SHORT] else []].
Proof.
  intros before n. replace (before ++ [FastLoop] ++ repeat Falling n ++ [FastLoop]) with ((before ++ [FastLoop] ++ repeat Falling n) ++ [FastLoop]) by (rewrite <- !app_assoc; reflexivity).
  rewrite run_outs_app. f_equal. rewrite !run_state_app. cbn [run_outs fast_step run_state fst]. f_equal.
  assert (G : forall b, run_state fast_step b (repeat Falling n) = b || (0 <? n)%nat).
  { induction n as [|n IH]; intros b; cbn [repeat run_state fast_step fst]; [rewrite orb_false_r; reflexivity|]. rewrite IH. destruct b; reflexivity. }
  rewrite G. reflexivity.
Qed.
Example C67_ex : run_outs fast_step false [Falling; Falling; FastLoop; FastLoop; Falling; FastLoop] = [[]; []; [CLICK_SHORT]; []; []; [CLICK_SHORT]].
Proof. reflexivity. Qed.
(** C67: a floating-pin button changes only after eleven agreeing votes in a row, and then
    it does. *)
Theorem C67_floating : forall votes x,
  let s := run vote (true, 0) votes in
  (vote s x = (x, 0) /\ fst s <> x -> exists old, votes = old ++ repeat x 10) /\
  (length votes >= 10 -> skipn (length votes - 10) votes = repeat x 10 -> fst (vote s x) = x)%nat.
Proof.
  assert (INV : forall votes, let '(f, v) := run vote (true, 0) votes in
    0 <= v <= 10 /\ (exists old, votes = old ++ repeat (negb f) (Z.to_nat v)) /\
    (forall old n, votes = old ++ repeat (negb f) n -> (n <= 10)%nat -> v >= Z.of_nat n)).
  { intros votes. rewrite <- (rev_involutive votes). set (l := rev votes). clearbody l. clear votes.
    induction l as [|y l IH]; cbn [rev].
    - cbn. split; [lia|]. split; [exists []; reflexivity|]. intros old n E L. destruct old; [|discriminate]. destruct n; [cbn; lia|discriminate].
    - rewrite run_snoc. destruct (run vote (true, 0) (rev l)) as (f, v). destruct IH as (A & (old & B) & C). unfold vote.
      destruct (Bool.eqb y f) eqn:E.
      + apply eqb_prop in E as ->. split; [lia|]. split; [exists (rev l ++ [f]); cbn; rewrite app_nil_r; reflexivity|].
        intros old' n E' L. destruct n as [|n]; [lia|]. exfalso. change (S n) with (1 + n)%nat in E'. rewrite Nat.add_comm, repeat_app, app_assoc in E'. cbn [repeat] in E'.
        apply app_inj_tail in E' as (_ & E'). destruct f; discriminate.
      + apply eqb_false_iff in E. assert (y = negb f) as -> by (destruct y, f; cbn; congruence). rewrite Z.mod_small by lia.
        destruct (v + 1 <=? 10) eqn:F.
        * split; [lia|]. split.
          { exists old. rewrite B. replace (Z.to_nat (v + 1)) with (Z.to_nat v + 1)%nat by lia. rewrite repeat_app, app_assoc. reflexivity. }
          intros old' n E' L. destruct n as [|n]; [lia|]. change (S n) with (1 + n)%nat in E'. rewrite Nat.add_comm, repeat_app, app_assoc in E'. cbn [repeat] in E'.
          apply app_inj_tail in E' as (E' & _). specialize (C old' n E' ltac:(lia)). lia.
        * split; [lia|]. split; [exists (rev l ++ [negb f]); cbn; rewrite app_nil_r; reflexivity|].
          intros old' n E' L. destruct n as [|n]; [lia|]. exfalso. change (S n) with (1 + n)%nat in E'. rewrite Nat.add_comm, repeat_app, app_assoc in E'. cbn [repeat] in E'.
          apply app_inj_tail in E' as (_ & E'). destruct f; discriminate. }
  intros votes x s. specialize (INV votes). unfold s. destruct (run vote (true, 0) votes) as (f, v). destruct INV as (A & (old & B) & C). unfold vote. cbn [fst]. split.
  - intros (H & N). destruct (Bool.eqb x f) eqn:E; [apply eqb_prop in E; congruence|]. rewrite Z.mod_small in H by lia. destruct (v + 1 <=? 10) eqn:F; [inversion H; congruence|].
    exists old. rewrite B. replace (Z.to_nat v) with 10%nat by lia. f_equal. f_equal. destruct x, f; try reflexivity; congruence.
  - intros L E. destruct (Bool.eqb x f) eqn:EX; [apply eqb_prop in EX; auto|]. rewrite Z.mod_small by lia. apply eqb_false_iff in EX. assert (x = negb f) as -> by (destruct x, f; cbn; congruence).
    specialize (C (firstn (length votes - 10) votes) 10%nat). rewrite <- E, firstn_skipn in C. specialize (C eq_refl ltac:(lia)). replace (v + 1 <=? 10) with false by lia. reflexivity.
Qed.
Example C67_floating_ex : run vote (true, 0) (repeat false 10) = (true, 10) /\ run vote (true, 0) (repeat false 11) = (false, 0).
Proof. vm_compute. auto. Qed.

Print Assumptions C29_debounce. Print Assumptions C29_release_refuted. Print Assumptions C30_button_cycle. Print Assumptions C30_delivery.
Print Assumptions C30_slow_polls_refuted. Print Assumptions C31_latching. Print Assumptions C32_tracks. Print Assumptions C32_detents.
Print Assumptions C32_wrap_refuted. Print Assumptions C32_one_step_refuted. Print Assumptions C66_event_ids. Print Assumptions C67_fast_button. Print Assumptions C67_floating.
Print Assumptions C32_resync.
