(** C145, C146. *)
From Coq Require Import ZArith List Bool QArith Lia Lqa ZifyBool ZifyNat.
From Verif Require Import ArithModel TransModel SparkModel WaveModel WaveSpec WaveProofs.
Import ListNotations.
Local Open Scope Z_scope.

(** A frame at [t] ms on a blade of [n] LEDs; time 200, centre 16384, size 100, speed 400. *)
Definition fr (t n : Z) : frame := Frame t n (fun k => nth k [200; 16384; 100; 400] 0) true true.
Definition wv0 : wv := Wv base0 0 0 0 0 0.

(** ** C145 *)

(** A wave that began at frame [f0] shows, at any frame [f] of its time, around its front only,
    which travels from the centre read at [f0]; nowhere stronger than what is left of its time;
    and nothing goes wrong. *)
Theorem C145_ripple : forall f0 n fs f w, frames_ok f0 n fs f ->
  let t := since (now f0) (now f) in
  let way := travelled t (val f 3%nat) in sizes_ok f0 f way ->
  exists w', wave_runs (Plain n) (w_begin w) (f0 :: fs ++ [f]) = Some w' /\
    forall led, 0 <= led < leds f ->
      exists v, wave_mix w' led = Some v /\
        0 <= v <= 255 * (32768 - share t (u32 (val f0 n))) / 256 /\
        (v <> 0 -> from_front (leds f) (val f0 1%nat) way led * val f0 2%nat < 32 * 32768) /\
        (from_front (leds f) (val f0 1%nat) way led * val f0 2%nat < 2 * 32768 ->
         v = 255 * (32768 - share t (u32 (val f0 n))) / 256).
Proof.
  intros f0 n fs f w H t way S0. destruct (wave_state f0 n fs f w H S0) as (w' & E & M & R & D & C & Z0 & O & G).
  exists w'. split; auto. intros led Hl. specialize (G led Hl).
  destruct (mix_sane w' led G R) as (v & Ev & V & K). rewrite D, C, O, Z0, M in *.
  exists v. repeat split; try tauto; try lia. intros F.
  assert (X : wave_mix w' led = Some (255 * w_mix w' / 256)) by (apply mix_front; rewrite ?D, ?C, ?O, ?Z0, ?M; auto).
  rewrite X in Ev. injection Ev as <-. rewrite M. reflexivity.
Qed.
Example C145_ripple_ex : frames_ok (fr 1000 144) 0 [fr 1010 144] (fr 1100 144) /\
  sizes_ok (fr 1000 144) (fr 1100 144) (travelled (since 1000 1100) 400) /\
  match wave_runs (Plain 0) (w_begin wv0) [fr 1000 144; fr 1010 144; fr 1100 144] with
  | Some w => map (wave_mix w) [0; 36; 40; 72; 108; 143] = [Some 1408; Some 16320; Some 16128; Some 1408; Some 16320; Some 1664]
  | None => False
  end.
Proof.
  split; [|split].
  - unfold frames_ok, timely. cbn [app]. split; [split; vm_compute; congruence|].
    split; [split; vm_compute; congruence|].
    apply Forall_cons; [|apply Forall_cons; [|apply Forall_nil]]; repeat apply conj; vm_compute; congruence.
  - unfold sizes_ok. repeat apply conj; vm_compute; congruence.
  - vm_compute. reflexivity.
Qed.

(** An LED nearer to the front shows at least as much of the wave, on either side. *)
Theorem C145_nearer : forall f0 n fs f w w' a b va vb, frames_ok f0 n fs f ->
  let way := travelled (since (now f0) (now f)) (val f 3%nat) in sizes_ok f0 f way ->
  wave_runs (Plain n) (w_begin w) (f0 :: fs ++ [f]) = Some w' ->
  0 <= a < leds f -> 0 <= b < leds f ->
  from_front (leds f) (val f0 1%nat) way a <= from_front (leds f) (val f0 1%nat) way b ->
  wave_mix w' a = Some va -> wave_mix w' b = Some vb -> vb <= va.
Proof.
  intros f0 n fs f w w' a b va vb H way S0 E' Ha Hb L Ea Eb.
  destruct (wave_state f0 n fs f w H S0) as (w1 & E & M & R & D & C & Z0 & O & G).
  rewrite E' in E. injection E as <-. apply (mix_mono w' a b); auto. rewrite D, C, O. exact L.
Qed.
Example C145_nearer_ex : from_front 144 16384 8192 36 <= from_front 144 16384 8192 40.
Proof. vm_compute. congruence. Qed.

(** The first frame after its time shows nothing of the wave, and the transition is done. *)
Theorem C145_over : forall f0 n fs f w, frames_ok f0 n fs f -> forall g,
  u32 (val f0 n) < since (now f0) (now g) -> u32 (val g 3%nat) <> 0 ->
  exists w', wave_runs (Plain n) (w_begin w) ((f0 :: fs ++ [f]) ++ [g]) = Some w' /\
    b_done (w_base w') = true /\ forall led v, wave_mix w' led = Some v -> v = 0.
Proof.
  intros f0 n fs f w (HL & HM & HT) g HG HZ.
  destruct (wave_at f0 n fs f w HL HM HT) as (w1 & E & L & _).
  rewrite wave_runs_app, E. cbn [ibind wave_runs].
  destruct (wave_after f0 n g w1 L HG HZ) as (w2 & E2 & M & B). rewrite E2. cbn [ibind].
  exists w2. repeat split; auto. intros led v. apply mix_zero. exact M.
Qed.
Example C145_over_ex : u32 (val (fr 1000 144) 0%nat) < since 1000 1201.
Proof. vm_compute. reflexivity. Qed.

(** A spark shows exactly around its front, which goes from the centre over the length of the
    blade in its time, at full strength to the end. *)
Theorem C145_spark : forall f0 n fs f w, 0 < u32 (val f0 n) < 131072 ->
  Forall (fun f => since (now f0) (now f) <= u32 (val f0 n)) (fs ++ [f]) ->
  let way := share (since (now f0) (now f)) (u32 (val f0 n)) in sizes_ok f0 f way ->
  let w' := spark_runs (Plain n) (w_begin w) (f0 :: fs ++ [f]) in
  forall led, 0 <= led < leds f ->
    exists v, spark_mix w' led = Some v /\ 0 <= v <= 32640 /\
      (v <> 0 <-> from_front (leds f) (val f0 1%nat) way led * val f0 2%nat < 32 * 32768).
Proof.
  intros f0 n fs f w HL HT way (S1 & S2 & S3 & S4 & S5) w' led Hl.
  destruct (spark_at f0 n fs f w HL HT) as ((B & C & Z0) & D & O). fold w' in B, C, Z0, D, O. fold way in O.
  assert (G : sane w' led) by (unfold sane; rewrite D, C, Z0, O; lia).
  destruct (spark_sane w' led G) as (v & R). rewrite D, C, Z0, O in R. eauto.
Qed.
Example C145_spark_ex : sizes_ok (fr 1000 144) (fr 1100 144) (share (since 1000 1100) 200) /\
  let w := spark_runs (Plain 0) (w_begin wv0) [fr 1000 144; fr 1100 144] in
  map (spark_mix w) [0; 36; 72] = [Some 32640; Some 2816; Some 0].
Proof.
  split; [|vm_compute; reflexivity]. unfold sizes_ok. repeat apply conj; vm_compute; congruence.
Qed.

(** A size below zero reads outside the table of the wave's shape. *)
Theorem C145_size_refuted : exists f0 w', val f0 2%nat = -1 /\
  wave_runs (Plain 0) (w_begin wv0) [f0] = Some w' /\ wave_mix w' 0 = None.
Proof.
  exists (Frame 1000 144 (fun k => nth k [200; 16384; -1; 400] 0) true true). eexists.
  split; [reflexivity|]. split; [vm_compute; reflexivity|]. vm_compute. reflexivity.
Qed.
(** A speed that is a function and becomes zero divides by zero, although the constant zero is
    refused at compile time. *)
Theorem C145_speed_refuted : exists f0 f, val f0 3%nat = 400 /\ val f 3%nat = 0 /\
  since (now f0) (now f) <= val f0 0%nat /\
  wave_runs (Plain 0) (w_begin wv0) [f0; f] = None.
Proof.
  exists (fr 1000 144), (Frame 1010 144 (fun k => nth k [200; 16384; 100; 0] 0) true true).
  vm_compute. repeat split; congruence.
Qed.

(** ** C146 *)

Definition cyc0 : cyc := Cyc base0 0 0 5 7 9 11.
(** A frame at [t] ms of a transition that takes 3000 ms. *)
Definition cf (t n : Z) : frame := Frame t n (fun _ => 3000) true true.

(** While it lasts, the new colour covers one arc of the ring of LEDs, each LED by what of it is
    in the arc, and the arc is as long as the time that has passed, to one 16384th of an LED;
    this for a transition of at most 16384 ms per LED. *)
Theorem C146_arc : forall r0 r1 f0 us0 n fs f us c,
  0 < u32 (val f0 n) <= leds f * 16384 -> leds f * 16384 < 4294967296 ->
  ontime f0 n (fs ++ [(f, us)]) ->
  let c' := y_runs r0 r1 (Plain n) (y_begin c) ((f0, us0) :: fs ++ [(f, us)]) in
  let num := leds f * 16384 in
  let part := (inject_Z (since (now f0) (now f)) / inject_Z (u32 (val f0 n)) * inject_Z num)%Q in
  exists s l, 0 <= s < num /\ 0 <= l <= num /\
    (inject_Z l - 1 < part)%Q /\ (part < inject_Z l + 1)%Q /\
    (forall led, 0 <= led < leds f -> y_mix c' led = lit num s l led) /\
    sum_leds (y_mix c') (Z.to_nat (leds f)) = l.
Proof.
  intros r0 r1 f0 us0 n fs f us c HL HN HT c' num part.
  unfold ontime in HT. rewrite Forall_app in HT. destruct HT as [T1 T2]. inversion T2 as [|? ? T _]; subst. cbn [fst] in T.
  destruct (y_first r0 r1 f0 n us0 c ltac:(lia)) as [L1 _].
  assert (L2 := y_mid r0 r1 f0 n fs _ L1 ltac:(lia) T1).
  unfold c'. cbn [y_runs]. rewrite y_runs_app. cbn [y_runs].
  set (c1 := y_runs r0 r1 (Plain n) _ fs) in *.
  destruct (y_next r0 r1 f0 n f us c1 L2 ltac:(lia) T) as [_ F].
  pose proof (since_range (now f0) (now f)) as R.
  destruct (run_arc r0 r1 f us (Plain n) c1) as (s & l & A1 & A2 & A3 & A4 & A5 & _); [lia|lia| |].
  { rewrite F. apply fade_gap; lia. }
  rewrite F in A3, A4. exists s, l. repeat split; auto; try lia.
  rewrite <- (lit_total num s l) by lia.
  rewrite <- (lit_sum num s l (Z.to_nat (leds f))) by lia.
  assert (Q : forall k, Z.of_nat k <= leds f ->
    sum_leds (y_mix (y_run r0 r1 f us (Plain n) c1)) k = sum_leds (lit num s l) k).
  { induction k as [|k IH]; intros K; cbn [sum_leds]; auto. rewrite IH, A5 by lia. reflexivity. }
  apply Q. lia.
Qed.
Example C146_arc_ex : 0 < u32 (val (cf 0 4) 0%nat) <= leds (cf 0 4) * 16384 /\
  ontime (cf 0 4) 0 [(cf 1000 4, 1000000); (cf 1500 4, 1500000)] /\
  let c := y_runs 0 6000 (Plain 0) (y_begin cyc0) [(cf 0 4, 0); (cf 1000 4, 1000000); (cf 1500 4, 1500000)] in
  sum_leds (y_mix c) 4 = 32768.
Proof.
  split; [|split; [|vm_compute; reflexivity]].
  - split; vm_compute; congruence.
  - apply Forall_cons; [|apply Forall_cons; [|apply Forall_nil]]; vm_compute; congruence.
Qed.

(** It begins with nothing of the new colour ... *)
Theorem C146_start : forall r0 r1 f0 us0 n c led,
  0 < u32 (val f0 n) -> leds f0 * 16384 < 4294967296 -> 0 <= led < leds f0 ->
  y_mix (y_run r0 r1 f0 us0 (Plain n) (y_begin c)) led = 0.
Proof.
  intros r0 r1 f0 us0 n c led HL HN Hled.
  destruct (y_first r0 r1 f0 n us0 c HL) as [_ F].
  destruct (run_arc r0 r1 f0 us0 (Plain n) (y_begin c)) as (s & l & A1 & A2 & A3 & A4 & A5 & A6 & _); [lia|lia| |].
  { right. rewrite F. change (inject_Z 0) with 0%Q. unfold Qdiv. rewrite !Qmult_0_l. split; [lra|].
    change 0%Q with (inject_Z 0). rewrite <- Zle_Qle. lia. }
  rewrite A5 by lia. rewrite A6.
  - unfold lit, in_arc. rewrite (count_ext _ (fun u => (1 <=? u) && (u <? 0))).
    + rewrite count_between. lia.
    + intros u _. pose proof (Z.mod_pos_bound (u - s) (leds f0 * 16384) ltac:(lia)). lia.
  - rewrite F. change (inject_Z 0) with 0%Q. unfold Qdiv. ring.
Qed.
Example C146_start_ex : y_mix (y_run 0 6000 (cf 0 4) 0 (Plain 0) (y_begin cyc0)) 2 = 0.
Proof. vm_compute. reflexivity. Qed.
(** ... and ends with every LED wholly in it, when the transition is done. *)
Theorem C146_end : forall r0 r1 f us m c led, b_done (y_base (y_run r0 r1 f us m c)) = true ->
  leds f * 16384 < 4294967296 -> 0 <= led < leds f ->
  y_mix (y_run r0 r1 f us m c) led = 16384.
Proof.
  intros r0 r1 f us m c led HD HN Hled.
  destruct (run_fade r0 r1 f us m c) as (F & B & _). rewrite B in HD.
  assert (F1 : y_fade (y_run r0 r1 f us m c) = 1%Q).
  { rewrite F. revert HD. unfold b_updateq. destruct (b_done (b_run f m (y_base c))) eqn:D; cbn [fst snd]; auto.
    destruct (_ >? _); cbn [fst snd]; auto. congruence. }
  destruct (run_arc r0 r1 f us m c) as (s & l & A1 & A2 & A3 & A4 & A5 & _ & A7); [lia|lia| |].
  { left. rewrite F1. reflexivity. }
  rewrite A5 by lia. rewrite A7 by (rewrite F1; reflexivity).
  unfold lit, in_arc. rewrite (count_ext _ (fun u => (led * 16384 <=? u) && (u <? led * 16384 + 16384))).
  - rewrite count_between. lia.
  - intros u Hu. pose proof (Z.mod_pos_bound (u - s) (leds f * 16384) ltac:(lia)). lia.
Qed.
Example C146_end_ex : let c := y_runs 0 6000 (Plain 0) (y_begin cyc0) [(cf 0 4, 0); (cf 2999 4, 0)] in
  b_done (y_base (y_run 0 6000 (cf 3001 4) 9 (Plain 0) c)) = true /\
  y_mix (y_run 0 6000 (cf 3001 4) 9 (Plain 0) c) 3 = 16384.
Proof. vm_compute. split; reflexivity. Qed.

(** The transition is done with the first frame past its time, and not before. *)
Theorem C146_done : forall r0 r1 f0 us0 n fs f us c,
  0 < u32 (val f0 n) -> ontime f0 n fs -> u32 (val f0 n) < since (now f0) (now f) ->
  b_done (y_base (y_runs r0 r1 (Plain n) (y_begin c) ((f0, us0) :: fs))) = false /\
  b_done (y_base (y_runs r0 r1 (Plain n) (y_begin c) ((f0, us0) :: fs ++ [(f, us)]))) = true.
Proof.
  intros r0 r1 f0 us0 n fs f us c HL HT HF.
  destruct (y_first r0 r1 f0 n us0 c HL) as [L1 _].
  assert (L2 := y_mid r0 r1 f0 n fs _ L1 HL HT).
  cbn [y_runs]. rewrite y_runs_app. cbn [y_runs]. set (d := y_runs r0 r1 (Plain n) _ fs) in *.
  unfold ylive in L2. split; [rewrite L2; unfold b_done; cbn [len]; lia|].
  destruct (run_fade r0 r1 f us (Plain n) d) as (_ & B & _). rewrite B, L2. unfold b_run, b_updateq. cbn [restart].
  unfold b_done. cbn [len start]. replace (u32 (val f0 n) =? 0) with false by lia.
  unfold since, u32 in *. replace (_ >? _) with true by lia. reflexivity.
Qed.
Example C146_done_ex : ontime (cf 0 4) 0 [(cf 2999 4, 0)] /\ u32 (val (cf 0 4) 0) < since (now (cf 0 4)) (now (cf 3001 4)).
Proof. split; [apply Forall_cons; [vm_compute; congruence|apply Forall_nil]|vm_compute; reflexivity]. Qed.

(** At a constant speed the arc turns with the clock, however the time is cut into frames ... *)
Theorem C146_turns : forall r m fs c, no_gap (y_last c) (map snd fs) ->
  same_turn (y_pos (y_runs r r m c fs))
    (y_pos c + inject_Z (us_total (y_last c) (map snd fs)) * inject_Z r / 60000000)%Q.
Proof. exact turns_total. Qed.
Example C146_turns_ex : no_gap (y_last cyc0) [500011; 1000011] /\ us_total (y_last cyc0) [500011; 1000011] = 1000000.
Proof. vm_compute. repeat split; congruence. Qed.
(** Otherwise the speed goes evenly from START_RPM to END_RPM while the transition lasts. *)
Theorem C146_speed : forall r0 r1 f0 us0 n fs f us c,
  0 < u32 (val f0 n) -> ontime f0 n (fs ++ [(f, us)]) ->
  let c1 := y_runs r0 r1 (Plain n) (y_begin c) ((f0, us0) :: fs) in
  let c2 := y_runs r0 r1 (Plain n) (y_begin c) ((f0, us0) :: fs ++ [(f, us)]) in
  let t := inject_Z (since (now f0) (now f)) in
  let len := inject_Z (u32 (val f0 n)) in
  since (y_last c1) us <= 1000000 ->
  same_turn (y_pos c2)
    (y_pos c1 + inject_Z (since (y_last c1) us) *
       (inject_Z r0 + (inject_Z r1 - inject_Z r0) * t / len) / 60000000)%Q.
Proof.
  intros r0 r1 f0 us0 n fs f us c HL HT c1 c2 t len HU.
  unfold ontime in HT. rewrite Forall_app in HT. destruct HT as [T1 T2]. inversion T2 as [|? ? T _]; subst. cbn [fst] in T.
  destruct (y_first r0 r1 f0 n us0 c HL) as [L1 _].
  assert (L2 := y_mid r0 r1 f0 n fs _ L1 HL T1).
  unfold c2. cbn [y_runs]. rewrite y_runs_app. cbn [y_runs].
  unfold c1 in *. cbn [y_runs] in *. set (d := y_runs r0 r1 (Plain n) _ fs) in *.
  destruct (y_next r0 r1 f0 n f us d L2 HL T) as [_ F].
  destruct (pos_speed r0 r1 f us (Plain n) d HU) as [k E]. exists k. rewrite E, F. fold t len. field.
  intros X. unfold len, Qeq in X. cbn [Qnum Qden inject_Z] in X. lia.
Qed.
Example C146_speed_ex : ontime (cf 0 4) 0 [(cf 1000 4, 1000000); (cf 1500 4, 1500000)] /\
  since (y_last (y_runs 0 6000 (Plain 0) (y_begin cyc0) [(cf 0 4, 0); (cf 1000 4, 1000000)])) 1500000 = 500000.
Proof.
  split; [|vm_compute; reflexivity].
  apply Forall_cons; [|apply Forall_cons; [|apply Forall_nil]]; vm_compute; congruence.
Qed.
(** ... and after a pause of more than a second it goes on where it was, to a microsecond. *)
Theorem C146_pause : forall r f us m c, 1000000 < since (y_last c) us ->
  same_turn (y_pos (y_run r r f us m c)) (y_pos c + inject_Z r / 60000000)%Q.
Proof.
  intros r f us m c H. destruct (pos_turn r f us m c) as [k E].
  rewrite u32_since in E. replace (since (y_last c) us >? 1000000) with true in E by lia.
  exists k. rewrite E. change (inject_Z 1) with 1%Q. field.
Qed.
Example C146_pause_ex : 1000000 < since (y_last cyc0) 5000000.
Proof. vm_compute. reflexivity. Qed.

(** A transition of more than 16384 ms per LED can go dark for a moment before its end. *)
Theorem C146_dark_refuted : exists f0 f us0 us c,
  leds f = 1 /\ val f0 0%nat = 20000 /\ since (now f0) (now f) = 19999 /\
  y_mix (y_runs 1 1 (Plain 0) (y_begin c) [(f0, us0); (f, us)]) 0 = 0.
Proof.
  exists (Frame 0 1 (fun _ => 20000) true true), (Frame 19999 1 (fun _ => 20000) true true), 3199, 19999000,
    (Cyc base0 0 0 0 0 0 0).
  vm_compute. repeat split.
Qed.

Print Assumptions C145_ripple.
Print Assumptions C145_nearer.
Print Assumptions C145_over.
Print Assumptions C145_spark.
Print Assumptions C145_size_refuted.
Print Assumptions C145_speed_refuted.
Print Assumptions C146_arc.
Print Assumptions C146_start.
Print Assumptions C146_end.
Print Assumptions C146_done.
Print Assumptions C146_turns.
Print Assumptions C146_speed.
Print Assumptions C146_pause.
Print Assumptions C146_dark_refuted.
