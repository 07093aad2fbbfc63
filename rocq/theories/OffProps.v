(** C87-C89: switching the blade off, delayed ignition and retraction, big pixels. *)
From Coq Require Import ZArith List Bool QArith Lia.
From Verif Require Import ArithModel ColorModel OffModel OffSpec OffProofs.
Import ListNotations.
Open Scope Z_scope.

(** C87: when a style lets the blade be switched off, every LED is dark in that frame. *)
Theorem C87_now (e : env) (s : style) : 1 <= leds e -> honest s -> snd (frame e s) = true -> dark (leds e) (fst (frame e s)).
Proof.
  intros N H F. pose proof (style_claim s e N H) as C. unfold frame in *. destruct (run e s) as [s' r]. cbn [fst snd] in *. destruct r; [discriminate|exact C|discriminate].
Qed.
(** A saber of three LEDs that has just been switched off, and its white blade that retracts into black. *)
Definition frame_at (is_on : bool) (us : Z) : env := Env is_on 3 us (us / 1000) (fun _ => false) RGB false (fun _ => 0).
Definition white_blade : style := Compose (Any 0 (fun _ _ => LO (Opaque (Color 65535 65535 65535) false)))
                                          (Alpha Black (Helper true (InOut (Const 300) (Const 500) 1 0 32768) 0)).
Example C87_now_ex :
  honest white_blade /\ snd (frame (frame_at true 1000) white_blade) = false /\
  snd (frame (frame_at false 250000) white_blade) = false /\ snd (frame (frame_at false 600000) white_blade) = true.
Proof. cbn [honest white_blade honest_fn]. repeat split; try vm_compute; reflexivity. Qed.

(** ... and until it is switched on again, or something happens to it, it stays dark: whatever
    happened before. *)
Theorem C87_until_ignition (n : Z) (history : list env) (e : env) (es : list env) (s : style) :
  1 <= n -> honest s -> steady n s -> Forall (fun h => leds h = n) history -> quiet n e -> Forall (quiet n) es ->
  snd (frame e (run_all history s)) = true ->
  dark n (run_all es (fst (frame e (run_all history s)))).
Proof.
  intros N H0 S0 HH Q QS F.
  assert (K : honest (run_all history s) /\ steady n (run_all history s)).
  { revert s H0 S0 F. induction HH as [|h hs L _ IH]; intros s H0 S0 F; [split; assumption|]. cbn [run_all fold_left] in *. apply IH; [apply honest_run; exact H0| |exact F]. pose proof (steady_run s h) as X. rewrite L in X. apply X; assumption. }
  destruct K as (K1 & K2). pose proof (style_forever n N (run_all history s) e es Q QS K1 K2) as C. unfold frame in *. destruct (run e (run_all history s)) as [s' r]. cbn [fst snd] in *. destruct r; [discriminate|exact C|discriminate].
Qed.
Example C87_until_ignition_ex :
  honest white_blade /\ steady 3 white_blade /\ quiet 3 (frame_at false 600000) /\
  snd (frame (frame_at false 600000) (run_all [frame_at true 1000; frame_at true 50000] white_blade)) = true.
Proof. cbn [honest white_blade honest_fn steady steady_fn never_negative]. repeat split; try (vm_compute; reflexivity); lia. Qed.

(** A black layer that fills the blade from one end: the claim is made although half the blade is white. *)
Theorem C87_linear_refuted :
  exists e s, 1 <= leds e /\ snd (frame e s) = true /\ ~ dark (leds e) (fst (frame e s)).
Proof.
  exists (Env false 2 0 0 (fun _ => false) RGB false (fun _ => 0)),
    (Compose (Solid (Color 65535 65535 65535)) (Alpha Black (Linear (Const 0) (Const 32768) 0 0))).
  split; [cbn; lia|]. split; [vm_compute; reflexivity|]. intros D. assert (X := D 1 ltac:(cbn; lia)). vm_compute in X. discriminate X.
Qed.
(** Cylon asks whether the off color is black, not the background. *)
Theorem C87_cylon_refuted :
  exists e s, 1 <= leds e /\ snd (frame e s) = true /\ ~ dark (leds e) (fst (frame e s)).
Proof.
  exists (Env false 2 0 0 (fun _ => false) RGB false (fun _ => 0)),
    (Cycle true Black (Solid (Color 65535 0 0)) (Solid (Color 65535 65535 65535)) 0 10 300 0 0 0 0 0 0 (fun _ => (0, 0))).
  split; [cbn; lia|]. split; [vm_compute; reflexivity|]. intros D. assert (X := D 1 ltac:(cbn; lia)). vm_compute in X. discriminate X.
Qed.
(** A spark tip whose extension passes through zero: the claim is made, and then the blade lights up
    again although it is off. *)
Theorem C87_sparktip_refuted :
  exists n e e' s, 1 <= n /\ honest s /\ quiet n e /\ quiet n e' /\ snd (frame e s) = true /\ ~ dark n (run_all [e'] (fst (frame e s))).
Proof.
  exists 3, (frame_at false 0), (frame_at false 1000),
    (SparkTip true (Solid (Color 65535 0 0)) (Other 0 (fun t _ => if (t =? 1)%nat then 0 else 32768)) Black Black false 0).
  split; [lia|]. split; [repeat split|]. split; [repeat split|]. split; [repeat split|]. split; [vm_compute; reflexivity|].
  intros D. assert (X := D 0 ltac:(lia)). vm_compute in X. discriminate X.
Qed.
(** A fire that burns while the blade is off (StaticFire): it may be out for one frame, then burn again. *)
Theorem C87_fire_refuted :
  exists n e e' s, 1 <= n /\ honest s /\ quiet n e /\ quiet n e' /\ snd (frame e s) = true /\ ~ dark n (run_all [e'] (fst (frame e s))).
Proof.
  exists 1, (Env false 1 0 20 (fun _ => false) RGB false (fun _ => 0)), (Env false 1 0 40 (fun _ => false) RGB false (fun _ => -1)),
    (Fire (Solid (Color 65535 0 0)) (Solid (Color 65535 65535 0))
       (Fire_ 0 2 (FireConfig 0 2000 3) (FireConfig 0 2000 3) (FireConfig 0 2000 3) (FireConfig 0 2000 3) 0 false 0 (fun _ => 0) 1)).
  split; [lia|]. split; [repeat split|]. split; [repeat split|]. split; [repeat split|].
  assert (F : snd (frame (Env false 1 0 20 (fun _ => false) RGB false (fun _ => 0)) (Fire (Solid (Color 65535 0 0)) (Solid (Color 65535 65535 0))
       (Fire_ 0 2 (FireConfig 0 2000 3) (FireConfig 0 2000 3) (FireConfig 0 2000 3) (FireConfig 0 2000 3) 0 false 0 (fun _ => 0) 1))) = true) by (vm_compute; reflexivity).
  split; [exact F|]. intros D. assert (X := D 0 ltac:(lia)). vm_compute in X. discriminate X.
Qed.

(** C88: below IgnitionDelay the style sees the blade switched on only after it has been on for
    longer than the delay, and switched off at once. *)
Theorem C88_ignition_delay (d t : Z) (c : style) (si : Z) (fs : list (Z * env)) (led : Z) :
  0 <= d < 2147483648 -> frames_in_order t fs ->
  color_at (run_all (map snd fs) (IgnDelay (Const d) c false false si)) led = color_at (run_all (ignite_late d None fs) c) led.
Proof.
  intros D F. destruct (ign_all d D fs t None c false false si F (conj eq_refl eq_refl)) as (w & i & s & ->). reflexivity.
Qed.
(** C88: below RetractionDelay the style sees the blade switched off only after it has been off for
    longer than the delay, and switched on at once. *)
Theorem C88_retraction_delay (d t : Z) (c : style) (si : Z) (fs : list (Z * env)) (led : Z) :
  0 <= d < 2147483648 -> frames_in_order t fs ->
  color_at (run_all (map snd fs) (RetrDelay (Const d) c false false si)) led = color_at (run_all (retract_late d false None fs) c) led.
Proof.
  intros D F. destruct (retr_all d D fs t false None c false false si F (conj eq_refl eq_refl)) as (w & i & s & ->). reflexivity.
Qed.
Definition tick (is_on : bool) (ms : Z) : Z * env := (ms, Env is_on 1 0 (ms mod 4294967296) (fun _ => false) RGB false (fun _ => 0)).
Definition day : list (Z * env) := [tick true 10; tick true 60; tick true 111; tick false 120; tick false 221; tick true 300].
Example C88_delay_ex :
  frames_in_order 0 day /\ map on (ignite_late 100 None day) = [false; false; true; false; false; false] /\
  map on (retract_late 100 false None day) = [true; true; true; true; false; true].
Proof. repeat split; try lia; vm_compute; congruence. Qed.
(** A negative retraction delay is compared as an unsigned number: the blade does not retract. *)
Theorem C88_negative_refuted :
  exists d c fs, d < 0 /\ frames_in_order 0 fs /\ last (map (fun f => on (snd f)) fs) true = false /\
    color_at (run_all (map snd fs) (RetrDelay (Const d) c false false 0)) 0 <> color_at (run_all (map snd fs) c) 0.
Proof.
  exists (-1), (InOutTr true false Black (Tr false 0 (fun _ => true) (fun _ _ a _ => a)) (Tr false 0 (fun _ => true) (fun _ _ a _ => a))),
    [tick true 10; tick true 20; tick false 30; tick false 100000].
  split; [lia|]. split; [repeat split; try lia; reflexivity|]. split; [reflexivity|]. vm_compute. discriminate.
Qed.

(** C89: in a frame that is not the first, Pixelate shows blocks of N LEDs in the color of their
    first one, provided the blade is longer than a block. *)
Theorem C89_pixelate (n : Z) (count : nat) (color1 color2 : Z -> layer) (p : pix) :
  1 <= n < Z.of_nat count ->
  n <= Z.abs (last_led p) ->
  let (p1, frame1) := pix_frame n color1 p 0 count in
  let (p2, frame2) := pix_frame n color2 p1 0 count in
  frame1 = map (fun i => color1 (n * (Z.of_nat i / n))) (seq 0 count) /\
  frame2 = map (fun i => color2 (n * (Z.of_nat i / n))) (seq 0 count) /\
  n <= Z.abs (last_led p2).
Proof.
  intros N A.
  assert (G : forall color p, n <= Z.abs (last_led p) -> snd (pix_frame n color p 0 count) = map (fun i => color (n * (Z.of_nat i / n))) (seq 0 count) /\ n <= Z.abs (last_led (fst (pix_frame n color p 0 count)))).
  { intros color q B. destruct (pix_first n color count q ltac:(lia) ltac:(lia) B) as (E1 & E2). rewrite E1, E2. split; [reflexivity|].
    assert (1 <= (Z.of_nat count - 1) / n) by (apply Z.div_le_lower_bound; lia). nia. }
  destruct (G color1 p A) as (G1 & G2). destruct (pix_frame n color1 p 0 count) as [p1 f1]. cbn [fst snd] in *. destruct (G color2 p1 G2) as (G3 & G4). destruct (pix_frame n color2 p1 0 count) as [p2 f2]. cbn [fst snd] in *. auto.
Qed.
Example C89_pixelate_ex : snd (pix_frame 2 (fun i => LO (Opaque (Color i 0 0) false)) (Pix 4 transparent) 0 5) =
  map (fun i => LO (Opaque (Color i 0 0) false)) [0; 0; 2; 2; 4].
Proof. reflexivity. Qed.
(** On a blade of at most N LEDs the color never changes again: whatever the style below shows. *)
Theorem C89_short_blade_refuted (n : Z) (count : nat) (color : Z -> layer) (p : pix) :
  1 <= n -> Z.of_nat count <= n -> last_led p = 0 -> pix_frame n color p 0 count = (p, repeat (last_color p) count).
Proof.
  intros N C L. assert (G : forall k led, 0 <= led -> led + Z.of_nat k <= n -> pix_frame n color p led k = (p, repeat (last_color p) k)).
  { induction k as [|k IH]; intros led B1 B2; [reflexivity|]. cbn [pix_frame repeat]. unfold pix_color. rewrite L. destruct (Z.leb_spec n (Z.abs (led - 0))); [lia|]. rewrite IH by lia. reflexivity. }
  apply G; lia.
Qed.
Example C89_short_blade_ex : snd (pix_frame 2 (fun i => LO (Opaque (Color 65535 0 0) false)) (Pix 0 transparent) 0 2) = [transparent; transparent].
Proof. reflexivity. Qed.

Print Assumptions C87_now.
Print Assumptions C87_until_ignition.
Print Assumptions C87_linear_refuted.
Print Assumptions C87_cylon_refuted.
Print Assumptions C87_sparktip_refuted.
Print Assumptions C87_fire_refuted.
Print Assumptions C88_ignition_delay.
Print Assumptions C88_retraction_delay.
Print Assumptions C88_negative_refuted.
Print Assumptions C89_pixelate.
Print Assumptions C89_short_blade_refuted.
