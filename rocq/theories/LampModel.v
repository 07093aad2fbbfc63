(** Blades made of power LEDs: blades/simple_blade.h, with the timers of blades/pwm_pin.h (STM32L4). *)
From Coq Require Import ZArith List Bool Arith.
From Verif Require Import Machine.
Import ListNotations.
Open Scope Z_scope.

Definition put {A} (f : nat -> A) (i : nat) (x : A) : nat -> A := fun j => if (i =? j)%nat then x else f j.
(** pwm_pin.h:18-21, and the hardware. use: timer_use_counts (uint8_t); active: the timer runs (state ACTIVE; otherwise
    it is NONE or INIT); output: the pin is connected to its timer; compare: the timer channel's compare register. The use cases (PWM or servo)
    and frequencies are left out. *)
Record hw := Hw { use : nat -> Z; active : nat -> bool; output : nat -> bool; compare : nat -> Z }.
(** pwm_pin.h:23 *)
Definition SYNC : nat := 3%nat.
(** pwm_pin.h:25-77 for PWM_SYNC_INSTANCE *)
Definition SetupSync (h : hw) : hw :=
  Hw (put (use h) SYNC ((use h SYNC + 1) mod 256)) (if active h SYNC then active h else put (active h) SYNC true) (output h) (compare h).
(** pwm_pin.h:25-77 *)
Definition SetupTimer (i : nat) (h : hw) : hw :=
  if (i =? SYNC)%nat then SetupSync h
  else
    let h1 := Hw (put (use h) i ((use h i + 1) mod 256)) (active h) (output h) (compare h) in
    if active h1 i then h1 else SetupSync (Hw (use h1) (put (active h1) i true) (output h1) (compare h1)).
(** pwm_pin.h:79-88 for PWM_SYNC_INSTANCE *)
Definition TeardownSync (h : hw) : hw :=
  let n := (use h SYNC - 1) mod 256 in
  Hw (put (use h) SYNC n) (if n =? 0 then put (active h) SYNC false else active h) (output h) (compare h).
(** pwm_pin.h:79-88 *)
Definition TeardownTimer (i : nat) (h : hw) : hw :=
  if (i =? SYNC)%nat then TeardownSync h
  else
    let n := (use h i - 1) mod 256 in
    let h := Hw (put (use h) i n) (active h) (output h) (compare h) in
    if n =? 0 then TeardownSync (Hw (use h) (put (active h) i false) (output h) (compare h)) else h.
(** pwm_pin.h:90-104; the value is one the LED gives (LedModel.set) *)
Definition LSanalogWrite (pin : nat) (value : Z) (h : hw) : hw := Hw (use h) (active h) (output h) (put (compare h) pin value).
(** inst: g_APinDescription[pin].pwm_instance *)
Section Blades.
Variable inst : nat -> nat.
(** pwm_pin.h:106-125, for a PWM pin *)
Definition LSanalogWriteSetup (pin : nat) (h : hw) : hw :=
  let h := SetupTimer (inst pin) h in
  let h := LSanalogWrite pin 0 h in
  Hw (use h) (active h) (put (output h) pin true) (compare h).
(** pwm_pin.h:127-130 *)
Definition LSanalogWriteTeardown (pin : nat) (h : hw) : hw :=
  TeardownTimer (inst pin) (Hw (use h) (active h) (put (output h) pin false) (compare h)).
(** simple_blade.h:9-14, 15-17 *)
Definition PinActivate (pin : nat) (h : hw) : hw := LSanalogWrite pin 0 (LSanalogWriteSetup pin h).
Definition PinDeactivate (pin : nat) (h : hw) : hw := LSanalogWriteTeardown pin h.
(** simple_blade.h:82-143: all pins of a blade *)
Definition PinsActivate (pins : list nat) (h : hw) : hw := fold_left (fun h p => PinActivate p h) pins h.
Definition PinsDeactivate (pins : list nat) (h : hw) : hw := fold_left (fun h p => PinDeactivate p h) pins h.

(** simple_blade.h:275-279. linked: between Activate and Deactivate *)
Record blade := Blade { pins : list nat; on_ : bool; power_ : bool; linked : bool }.
Record state := State { hw_ : hw; blades : list blade }.
(** simple_blade.h:175-184 *)
Definition Power (on : bool) (h : hw) (d : blade) : hw * blade :=
  if Bool.eqb (power_ d) on then (h, d)
  else ((if on then PinsActivate (pins d) h else PinsDeactivate (pins d) h), Blade (pins d) (on_ d) on (linked d)).
(** simple_blade.h:160-166, 168-173 *)
Definition Activate (h : hw) (d : blade) : hw * blade :=
  let '(h, d) := Power true h d in (h, Blade (pins d) (on_ d) (power_ d) true).
Definition Deactivate (h : hw) (d : blade) : hw * blade :=
  let '(h, d) := Power false h d in (h, Blade (pins d) (on_ d) (power_ d) false).
(** simple_blade.h:211-214 (what the style does is left out) *)
Definition SetStyle (h : hw) (d : blade) : hw * blade := Power true h d.
(** simple_blade.h:220-225, 226-230, 231-238; only linked blades are told *)
Definition SB_On2 (h : hw) (d : blade) : hw * blade :=
  if linked d then Power true h (Blade (pins d) true (power_ d) (linked d)) else (h, d).
Definition SB_Effect2 (h : hw) (d : blade) : hw * blade := if linked d then Power true h d else (h, d).
Definition SB_Off2 (idle : bool) (h : hw) (d : blade) : hw * blade :=
  if linked d then
    let d := Blade (pins d) false (power_ d) (linked d) in
    if idle then Power false h d else (h, d)
  else (h, d).
(** simple_blade.h:260-272 with style_ptr.h:83-87: if [disable] the style calls allow_disable (simple_blade.h:208-210);
    then it sets the LEDs, of which [values] are the results. *)
Definition Loop (disable : bool) (values : list Z) (h : hw) (d : blade) : hw * blade :=
  if linked d && power_ d then
    let '(h, d) := if disable && negb (on_ d) then Power false h d else (h, d) in
    (fold_left (fun h pv => LSanalogWrite (fst pv) (snd pv) h) (combine (pins d) values) h, d)
  else (h, d).

Inductive op := Act | Deact | Style | On | Effect | Off (idle : bool) | Run (disable : bool) (values : list Z).
Definition blade_step (o : op) (h : hw) (d : blade) : hw * blade :=
  match o with
  | Act => Activate h d
  | Deact => Deactivate h d
  | Style => SetStyle h d
  | On => SB_On2 h d
  | Effect => SB_Effect2 h d
  | Off idle => SB_Off2 idle h d
  | Run dis vs => Loop dis vs h d
  end.
(** The operation is done to the [k]th blade. *)
Definition step (s : state) (ko : nat * op) : state :=
  match nth_error (blades s) (fst ko) with
  | None => s
  | Some d =>
    let '(h, d) := blade_step (snd ko) (hw_ s) d in
    State h (firstn (fst ko) (blades s) ++ d :: skipn (S (fst ko)) (blades s))
  end.
(** At the start; simple_blade.h:278-279 *)
Definition state0 (l : list (list nat)) : state :=
  State (Hw (fun _ => 0) (fun _ => false) (fun _ => false) (fun _ => 0)) (map (fun p => Blade p false false false) l).
End Blades.
(** What is seen: the light of a pin *)
Definition light (inst : nat -> nat) (h : hw) (pin : nat) : Z := if output h pin && active h (inst pin) then compare h pin else 0.
