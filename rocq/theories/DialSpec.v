(** Specification for turning: an angle is measured with half a turn being 16384. *)
From Coq Require Import ZArith QArith List.
From Verif Require Import DialModel.
Import ListNotations.
Open Scope Q_scope.

(** The hilt is turned by [d], by less than half a turn, while the sensor goes from [prev] to [a];
    the sensor shows angles from -16384 to 16384 and cannot tell full turns. *)
Definition turns (prev d a : Q) : Prop :=
  - (16384) <= d < 16384 /\ - (16384) <= a <= 16384 /\
  exists n : Z, a == prev + d + inject_Z n * 32768.
(** The readings [rs] while the hilt is turned by [ds], one after the other. *)
Fixpoint turned (prev : Q) (ds rs : list Q) : Prop :=
  match ds, rs with
  | [], [] => True
  | d :: ds, a :: rs => turns prev d a /\ turned a ds rs
  | _, _ => False
  end.
Definition total (ds : list Q) : Q := fold_right Qplus 0 ds.
Definition near (a b e : Q) : Prop := - e <= a - b <= e.
Definition within1 (v : Z) (q : Q) : Prop := - (1) < inject_Z v - q < 1.

(** A stored setting: what was set is what is read. *)
Definition register {X} (get : X -> Z) (set : X -> Z -> X) : Prop :=
  forall x v, (0 <= v <= 32767)%Z -> get (set x v) = v.
Definition in_range (v : Z) : Prop := (0 <= v <= 32767)%Z.

(** Stepping: the size of a step with [n] steps per turn, how far past the middle of an entry the
    hilt must be turned ([dz]: percent of a step left as a dead zone), and the size of a step while
    the hilt spins at [g] degrees per second. *)
Definition step_of (n : Z) : Q := 32768 / inject_Z n.
Definition reach (n dz : Z) : Q := step_of n * (200 + inject_Z dz) / 400.
Definition fast_step (n : Z) (g : Q) : Q :=
  if Qlt_le_dec 360 g then step_of n * (360 * 360) / (g * g) else step_of n.
(** Steps forth minus steps back, and weighted by size. *)
Definition sign {D} (forth : D -> bool) (o : option D) : Z :=
  match o with None => 0 | Some d => if forth d then 1 else -1 end.
Definition net {D} (forth : D -> bool) (os : list (option D)) : Z :=
  fold_right (fun o n => (sign forth o + n)%Z) 0%Z os.
Fixpoint weighted {D} (forth : D -> bool) (es : list Q) (os : list (option D)) : Q :=
  match es, os with
  | e :: es, o :: os => inject_Z (sign forth o) * e + weighted forth es os
  | _, _ => 0
  end.
Definition is_next (d : dir) : bool := match d with Next => true | Prev => false end.
(** Between two loops the hilt turns by at most the step; an input is a reading and the spin. *)
Definition allowed (n : Z) (d : Q) (i : Q * Q) : Prop :=
  0 <= snd i /\ - fast_step n (snd i) <= d <= fast_step n (snd i).
