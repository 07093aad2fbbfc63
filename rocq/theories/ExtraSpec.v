(** The straight line through points, by least squares. *)
From Coq Require Import List ZArith QArith.
From Verif Require Import ExtraModel.
Import ListNotations.
Local Open Scope Q_scope.

(** A point: a value and the time it was measured. *)
Definition point : Type := (Q * Z)%type.

Fixpoint total (f : point -> Q) (l : list point) : Q :=
  match l with [] => 0 | p :: l => f p + total f l end.

Definition count (l : list point) : Q := inject_Z (Z.of_nat (length l)).
Definition mean_value (l : list point) : Q := total fst l / count l.
Definition mean_time (l : list point) : Q := total (fun p => inject_Z (snd p)) l / count l.

(** How far the times are spread, and how values go with times. *)
Definition spread (l : list point) : Q :=
  total (fun p => (inject_Z (snd p) - mean_time l) * (inject_Z (snd p) - mean_time l)) l.
Definition joint (l : list point) : Q :=
  total (fun p => (inject_Z (snd p) - mean_time l) * (fst p - mean_value l)) l.

(** How steep the line through the points is: what least squares asks for, and level
    if they are all at one time. *)
Definition steep (l : list point) (m : Q) : Prop :=
  (spread l == 0 -> m == 0) /\ (~ spread l == 0 -> m * spread l == joint l).

(** [y] is the value at [now] of the line through the points: it goes through their
    middle. *)
Definition on_line (l : list point) (now : Z) (y : Q) : Prop :=
  exists m, steep l m /\ y == mean_value l + m * (inject_Z now - mean_time l).

(** The last [k] of a list. *)
Definition lastn {A} (k : nat) (l : list A) : list A := skipn (length l - k) l.

(** The points pushed, in order. *)
Definition points (ops : list op) : list point :=
  flat_map (fun o => match o with Push x time => [(x, time)] | Get _ => [] end) ops.

(** The clock never went back between them. *)
Definition in_order (l : list point) : Prop :=
  forall i j, (i <= j < length l)%nat ->
    (snd (nth i l (0%Q, 0%Z)) <= snd (nth j l (0%Q, 0%Z)))%Z.

(** Room for [size] samples and none taken: just made, or the state `clear` makes
    before it pushes. The ring may hold anything. *)
Definition empty (size : nat) (e : extra) : Prop :=
  length (data e) = size /\ (entry e < size)%nat /\ values e = 0%Z /\
  samples (ln e) = 0%Z /\ sum_t (ln e) = 0 /\ t_square_sum (ln e) = 0 /\
  sum (ln e) = 0 /\ dot_sum (ln e) = 0.
