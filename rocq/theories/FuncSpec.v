(** Independent specification for the blade-style functions.  LED number [led] of a
    blade covers the units led*32768 .. (led+1)*32768-1; the whole blade has
    32768*num_leds units.  32768 stands for 1.0. *)
From Coq Require Import ZArith List Bool.
From Verif Require Import ArithSpec.
Import ListNotations.
Open Scope Z_scope.

(** Unit u lies within half-width h of position pos (both in 1/32768 of the blade). *)
Definition in_section (pos h num_leds u : Z) : Prop :=
  (pos - h) * num_leds <= u < (pos + h) * num_leds.
(** The same on a circle: the blade's units repeat in both directions. *)
Definition in_circle (pos h num_leds u : Z) : Prop :=
  exists k, in_section pos h num_leds (u + k * (32768 * num_leds)).

(** Sum of f over LEDs 0..n-1. *)
Fixpoint sum_leds (f : Z -> Z) (n : nat) : Z :=
  match n with
  | O => 0
  | S n => sum_leds f n + f (Z.of_nat n)
  end.

(** Sum of the increments of those frames in which a pulse came. *)
Fixpoint pulsed (h : list (bool * Z)) : Z :=
  match h with
  | [] => 0
  | (p, i) :: h => (if p then i else 0) + pulsed h
  end.

(** A threshold detector fed with fs answers os: 32768 in exactly those frames that are
    not below the threshold, provided the value has been below [low] since the last
    firing frame, if any; 0 in all others. *)
Definition fires_once (thr low : Z) (fs os : list Z) : Prop :=
  length os = length fs /\
  forall i f o, nth_error fs i = Some f -> nth_error os i = Some o ->
    (o = 0 \/ o = 32768) /\
    (o = 32768 <->
     thr <= f /\
     forall j, (j < i)%nat -> nth_error os j = Some 32768 ->
       exists k g, (j < k < i)%nat /\ nth_error fs k = Some g /\ g < low).

(** The envelope of a trigger: [e] microseconds after the effect, for a delay, fade in,
    sustain and fade out of d, a, s, r microseconds, the value is v. *)
Inductive envelope (d a s r e : Z) : Z -> Prop :=
| env_before : e < d -> envelope d a s r e 0
| env_rise : forall v, d <= e < d + a ->
    v * a <= (e - d) * 32768 < (v + 1) * a -> envelope d a s r e v
| env_full : d + a <= e < d + a + s -> envelope d a s r e 32768
| env_fall : forall v, d + a + s <= e < d + a + s + r ->
    v * r <= (d + a + s + r - e) * 32768 < (v + 1) * r -> envelope d a s r e v
| env_after : d + a + s + r <= e -> envelope d a s r e 0.

(** The bits of a list of 16-bit words, most significant first. *)
Definition word_bits (w : Z) : list bool :=
  map (fun k => Z.testbit w (15 - Z.of_nat k)) (seq 0 16).
Definition all_bits (ws : list Z) : list bool := flat_map word_bits ws.

(** Times of frames, each at most [gap] after the one before, starting from [t0]. *)
Inductive paced (gap : Z) : Z -> list Z -> Prop :=
| paced_nil : forall t0, paced gap t0 []
| paced_cons : forall t0 t ts, t0 <= t <= t0 + gap -> paced gap t ts -> paced gap t0 (t :: ts).

(** Frames (time, value) with times that never go back. *)
Fixpoint mono_from (t0 : Z) (l : list (Z * Z)) : Prop :=
  match l with
  | [] => True
  | (t, _) :: l => t0 <= t /\ mono_from t l
  end.
(** Times with gaps between lo and hi. *)
Fixpoint gaps (lo hi t0 : Z) (l : list Z) : Prop :=
  match l with
  | [] => True
  | t :: l => t0 + lo <= t <= t0 + hi /\ gaps lo hi t l
  end.

(** Number of pulses. *)
Definition pcount (h : list bool) : Z := Z.of_nat (count_occ bool_dec h true).

(** A value far enough from the ends of int. *)
Definition small (x : Z) : Prop := -1073741824 <= x <= 1073741823.

Definition get0 (o : option Z) : Z := match o with Some x => x | None => 0 end.
