(** C149: the status LED. *)
From Coq Require Import ZArith QArith Qabs Qround List Bool Lia ZifyBool Lqa.
From Verif Require Import ArithModel PovModel PovSpec PovProofs StatModel StatSpec StatProofs.
Import ListNotations.
Local Open Scope Z_scope.

(** A board that has just started; idle; with USB; the saber on *)
Definition led0 : led := Led 7 0 false 0 0 0 false None.
Definition idle (t : Z) : input := Inp t (t * 1000) false false false false 9999.
Definition on (t : Z) : input := Inp t (t * 1000) true false false false 9999.
Example led0_fresh : fresh led0.
Proof. repeat split; reflexivity. Qed.

(** Whatever the LED did before, and whatever else is going on, [n] blinks are [n] flashes of a
    quarter of a second, and a second and a half of dark. *)
Theorem C149_blink : forall l n again start is i, 0 < n ->
  Forall (fun j => elapsed start (ms j) < length_of n) (is ++ [i]) ->
  let l1 := Loops (Blink n again start l) is in
  5 <= elapsed (last_ms l1) (ms i) ->
  pin (Loop i l1) = Some (flash n (elapsed start (ms i))).
Proof.
  intros l n again start is i Hn HF l1 HT. rewrite Forall_app in HF. destruct HF as [H1 H2]. inversion H2; subst.
  assert (B : blinking n again start l1) by (apply loops_keep; auto; unfold blinking; auto).
  destruct (loop_blink n again start i l1 Hn B) as (_ & P & _); auto.
Qed.
Example C149_blink_ex :
  map (fun t => pin (Loop (idle t) (Loops (Blink 2 false 0 led0) [idle 100; idle 200]))) [250; 251; 499; 500; 751; 1000; 1300; 2499] =
  map Some [0; 32768; 32768; 0; 32768; 0; 0; 0] /\ map (flash 2) [250; 251; 499; 500; 751] = [0; 32768; 32768; 0; 32768].
Proof. vm_compute. split; reflexivity. Qed.

(** Not to be repeated: after that the LED is off if there is nothing else to show. *)
Theorem C149_once : forall l0 es n start is i j, fresh l0 -> 0 < n ->
  Forall (fun j => elapsed start (ms j) < length_of n) is -> length_of n <= elapsed start (ms i) ->
  let l1 := Loops (Blink n false start (after l0 es)) is in
  5 <= elapsed (last_ms l1) (ms i) -> 5 <= elapsed (ms i) (ms j) -> wanted j = false ->
  pin (Loop j (Loop i l1)) = None.
Proof.
  intros l0 es n start is i j HF Hn HI HE l1 T1 T2 W.
  assert (B : blinking n false start l1) by (apply loops_keep; auto; unfold blinking; auto).
  destruct (loop_end n start i l1 Hn B HE T1) as (E1 & E2 & _).
  assert (V : forall is l, inv l -> inv (Loops l is)).
  { intros xs. induction xs as [|x xs IH]; intros x0 Hx; auto. cbn [Loops]. apply IH. apply loop_inv. exact Hx. }
  apply loop_dark; auto.
  - apply loop_inv. apply V. exact (after_inv es l0 (fresh_inv l0 HF)).
  - rewrite E2. exact T2.
Qed.
Example C149_once_ex : length_of 1 = 2000 /\ pin (Loop (idle 2005) (Loop (idle 2000) (Loops (Blink 1 false 0 led0) [idle 1995]))) = None.
Proof. vm_compute. split; reflexivity. Qed.

(** To be repeated: it goes on forever, each round beginning when the last one is over. *)
Theorem C149_again : forall l n start is i, 0 < n ->
  spaced (last_ms l) (map ms (is ++ [i])) ->
  let s := began n start (map ms is) in
  let l1 := Loops (Blink n true start l) is in
  if length_of n <=? elapsed s (ms i) then active l1 = true -> pin (Loop i l1) = pin l1
  else pin (Loop i l1) = Some (flash n (elapsed s (ms i))).
Proof.
  intros l n start is i Hn HS s l1. rewrite map_app in HS. cbn [map] in HS.
  assert (S2 : forall a last t, spaced last (a ++ [t]) -> spaced last a).
  { intros a. induction a as [|x a IH]; intros la t; cbn; auto. intros [X Y]. split; auto. exact (IH _ _ Y). }
  assert (B0 : blinking n true start (Blink n true start l)) by (unfold blinking; auto).
  assert (B : blinking n true s l1) by (apply loops_again; auto; eapply S2; exact HS).
  assert (G : forall is start l, blinking n true start l -> spaced (last_ms l) (map ms is ++ [ms i]) ->
     5 <= elapsed (last_ms (Loops l is)) (ms i)).
  { intros xs. induction xs as [|x xs IH]; intros st0 x0 Bx Sx; cbn [map app spaced Loops] in *; [tauto|].
    destruct Sx as [X1 X2]. destruct (Z_lt_le_dec (elapsed st0 (ms x)) (length_of n)) as [D|D].
    - destruct (loop_blink n true st0 x x0 Hn Bx D X1) as (B' & _ & L). apply (IH st0); auto. rewrite L. exact X2.
    - destruct (loop_restart n st0 x x0 Hn Bx D X1) as (B' & L & _). apply (IH (ms x)); auto. rewrite L. exact X2. }
  assert (T : 5 <= elapsed (last_ms l1) (ms i)) by (apply (G is start); auto).
  destruct (length_of n <=? elapsed s (ms i)) eqn:E.
  - destruct (loop_restart n s i l1 Hn B ltac:(lia) T) as (_ & _ & P). exact P.
  - destruct (loop_blink n true s i l1 Hn B ltac:(lia) T) as (_ & P & _). exact P.
Qed.
Example C149_again_ex :
  let is := map idle [500; 1990; 2001; 2010; 2300] in
  spaced (last_ms led0) (map ms (is ++ [idle 4010])) /\ began 1 0 (map ms is) = 2001 /\
  pin (Loop (idle 2400) (Loops (Blink 1 true 0 led0) is)) = Some 32768.
Proof. vm_compute. repeat split; congruence. Qed.

(** In every history: nothing to show, and the LED is off ... *)
Theorem C149_off : forall l0 es i, fresh l0 ->
  let l := after l0 es in
  blinks l = 0 -> wanted i = false -> 5 <= elapsed (last_ms l) (ms i) -> pin (Loop i l) = None.
Proof. intros l0 es i HF l B W T. apply loop_dark; auto. apply after_inv. apply fresh_inv. exact HF. Qed.
Example C149_off_ex : let l := after led0 [ELoop (on 10); ELoop (on 20)] in
  pin l <> None /\ blinks l = 0 /\ wanted (idle 30) = false /\ pin (Loop (idle 30) l) = None.
Proof. vm_compute. repeat split; congruence. Qed.
(** ... and it is never set to more than its range. *)
Theorem C149_range : forall l0 es v, fresh l0 -> pin (after l0 es) = Some v -> 0 <= v <= 32768.
Proof.
  intros l0 es v HF H. pose proof (after_inv es l0 (fresh_inv l0 HF)) as V. unfold inv in V. rewrite H in V. tauto.
Qed.
Example C149_range_ex : pin (after led0 [ELoop (on 10); ELoop (on 130)]) = Some 7099.
Proof. vm_compute. reflexivity. Qed.

(** With something to show and no blinks it pulses, 50 to 250 times a minute: a saw with USB, up
    and down without, an eighth as bright while the saber is off. *)
Theorem C149_pulse : forall l0 es i, fresh l0 ->
  let l := after l0 es in
  blinks l = 0 -> wanted i = true -> 5 <= elapsed (last_ms l) (ms i) ->
  charging i && (ms i mod 2048 <? 100) = false ->
  let p := pos (Loop i l) in
  (exists rpm, (50 <= rpm <= 250)%Q /\ (0 <= p)%Q /\ (p < 1)%Q /\
     turn_eq p (pos l + rpm * inject_Z (elapsed (last_us l) (us i)) / 60000000)%Q) /\
  last_us (Loop i l) = us i /\
  exists v, pin (Loop i l) = Some v /\
    (inject_Z v <= wave (usb_on i) p * (if ignited i then 32767 else 4096))%Q /\
    (wave (usb_on i) p * (if ignited i then 32767 else 4096) < inject_Z v + 1)%Q.
Proof.
  intros l0 es i HF l B W T C p. destruct (loop_pulse i l B W T) as (P & U & _ & _ & E). fold p in P, E.
  destruct (fract_range (pos l + speed (lps i) * inject_Z (elapsed (last_us l) (us i)) * (1 # 1000000) / 60)%Q) as [R1 R2].
  rewrite <- E in R1, R2. split; [|split; auto].
  - exists (speed (lps i)). repeat split; try apply speed_range; auto.
    exists (- Qfloor (pos l + speed (lps i) * inject_Z (elapsed (last_us l) (us i)) * (1 # 1000000) / 60)). rewrite E.
    unfold fract. rewrite inject_Z_opp. set (k := inject_Z (Qfloor _)). field.
  - exists (level i p). split; auto. destruct (level_floor i p R1 R2 C) as [[F1 F2] _]. split; auto.
Qed.
Example C149_pulse_ex : let l := after led0 [ELoop (on 10); ELoop (on 110)] in
  blinks l = 0 /\ 5 <= elapsed (last_ms l) 710 /\ pin (Loop (on 710) l) = Some 26759.
Proof. vm_compute. repeat split; congruence. Qed.

(** While charging it lights up wholly for the first tenth of every 2.048 s. *)
Theorem C149_charge : forall l i, blinks l = 0 -> charging i = true -> ms i mod 2048 < 100 ->
  5 <= elapsed (last_ms l) (ms i) -> pin (Loop i l) = Some 32767.
Proof.
  intros l i B C M T. assert (W : wanted i = true) by (unfold wanted; rewrite C, !orb_true_r; reflexivity).
  destruct (loop_pulse i l B W T) as (P & _). rewrite P. f_equal. apply level_charge; auto.
Qed.
Example C149_charge_ex : pin (Loop (Inp 2100 0 false false false true 5) led0) = Some 32767.
Proof. vm_compute. reflexivity. Qed.

(** After blinks, or after having been off, the pulse should begin in the dark (pos_ = 0.0): the
    time of the blinks is added to it in one step. *)
Theorem C149_begin_refuted :
  ~ (forall l0 i j v, fresh l0 -> elapsed 0 (ms i) < length_of 1 -> length_of 1 <= elapsed 0 (ms j) ->
       elapsed (ms i) (ms j) = 10 -> elapsed (us i) (us j) = 10000 -> ignited j = false -> charging j = false ->
       pin (Loop j (Loop i (Blink 1 false 0 l0))) = Some v -> v <= 400).
Proof.
  intros H. specialize (H led0 (idle 1995) (idle 2005) 2696 led0_fresh).
  assert (F : 2696 <= 400) by (apply H; vm_compute; congruence). lia.
Qed.

Print Assumptions C149_blink.
Print Assumptions C149_once.
Print Assumptions C149_again.
Print Assumptions C149_off.
Print Assumptions C149_range.
Print Assumptions C149_pulse.
Print Assumptions C149_charge.
Print Assumptions C149_begin_refuted.
