(** The current through a LED, from its data sheet and Ohm's law; colors in range. *)
From Coq Require Import ZArith QArith List Bool.
From Verif Require Import ColorModel LedModel.
Open Scope Z_scope.

(** Data that make sense: more amps need more volts. *)
Definition good_led (l : led) : Prop := (0 < MaxAmps l /\ P2Amps l < MaxAmps l /\ P2Volts l < MaxVolts l /\ 0 <= R l)%Q.
(** On the line through the two points of the data sheet, [i] amperes need [v] volts. *)
Definition led_volts (l : led) (i v : Q) : Prop := ((v - MaxVolts l) * (MaxAmps l - P2Amps l) == (i - MaxAmps l) * (MaxVolts l - P2Volts l))%Q.
(** A battery of [V] volts drives [i] amperes through the LED and its resistor. *)
Definition current (l : led) (V i : Q) : Prop := exists v, led_volts l i v /\ (V == v + i * R l)%Q.
(** Pulses: on for [duty] of 32768 steps *)
Definition average (duty : Z) (i : Q) : Q := (inject_Z duty / 32768 * i)%Q.
Definition in16 (c : color) : Prop := 0 <= r c <= 65535 /\ 0 <= g c <= 65535 /\ 0 <= b c <= 65535.
Definition in8 (c : color) : Prop := 0 <= r c <= 255 /\ 0 <= g c <= 255 /\ 0 <= b c <= 255.
Definition white := Color 255 255 255.
Definition red := Color 255 0 0.
Definition green := Color 0 255 0.
Definition blue := Color 0 0 255.
(** A LED with some color, and what it subtracts likewise *)
Fixpoint proper (s : selector) : Prop :=
  match s with Plain c => in8 c /\ c <> Color 0 0 0 | Subtract base c => proper base /\ in8 c /\ c <> Color 0 0 0 end.
