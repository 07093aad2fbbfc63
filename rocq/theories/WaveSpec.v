(** What a user of TrWaveX, TrSparkX and TrColorCycleX expects, independent of WaveModel. *)
From Coq Require Import ZArith List Bool QArith.
Import ListNotations.
Local Open Scope Z_scope.

(** Milliseconds from one reading of the 32-bit clock to another. *)
Definition since (t0 t : Z) : Z := (t - t0) mod 4294967296.

(** Places on the blade: 0 is the base and 32768 the tip. *)
Definition place (leds led : Z) : Z := led * 32768 / leds.
(** How far an LED is from a wave that left [center] and has travelled [way] in both directions. *)
Definition from_front (leds center way led : Z) : Z := Z.abs (Z.abs (center - place leds led) - way).
(** How far a wave that needs [ms] for the length of a blade gets in [t] milliseconds. *)
Definition travelled (t ms : Z) : Z := t * 32768 / ms.

(** [x] is the share [t] of [len] out of 32768, rounded down. *)
Definition share (t len : Z) : Z := t * 32768 / len.

(** An arc of a ring of [num] units: the [l] units from [s] on. *)
Definition in_arc (num s l u : Z) : bool := (u - s) mod num <? l.
(** How many of the [n] units from [a] on satisfy [p]. *)
Fixpoint count (p : Z -> bool) (a : Z) (n : nat) : Z :=
  match n with
  | O => 0
  | S n => (if p a then 1 else 0) + count p (a + 1) n
  end.
(** How many units of an LED are in the arc: an LED is 16384 units. *)
Definition lit (num s l led : Z) : Z := count (in_arc num s l) (led * 16384) (Z.to_nat 16384).
(** How many units of the whole blade are. *)
Definition lit_all (num s l : Z) : Z := count (in_arc num s l) 0 (Z.to_nat num).

(** Microseconds shown on the clock between [last] and the last of [l], none more than a
    second after the one before. *)
Fixpoint us_total (last : Z) (l : list Z) : Z :=
  match l with [] => 0 | u :: l => since last u + us_total u l end.
Fixpoint no_gap (last : Z) (l : list Z) : Prop :=
  match l with [] => True | u :: l => since last u <= 1000000 /\ no_gap u l end.
(** The same place on the ring: a whole number of turns apart. *)
Definition same_turn (x y : Q) : Prop := exists k, (x == y + inject_Z k)%Q.
