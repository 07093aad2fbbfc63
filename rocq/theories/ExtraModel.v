(** The straight line through the last motion samples: common/extrapolator.h.
    Floats are rationals here, and values are one number (Vec3 works by component). *)
From Coq Require Import List ZArith Bool QArith.
Import ListNotations.
Local Open Scope Q_scope.

(** 4-8 *)
Record datum := Datum { v : Q; t : Z }.

(** 13-22, 61-64 *)
Record line := Line {
  start : Z; samples : Z; sum_t : Q; t_square_sum : Q; sum : Q; dot_sum : Q;
  needs_update : bool;
  start_copy : Z; avg : Q; slope_ : Q; avg_t : Q }.

(** Nothing pushed yet; what is not initialized is zero here. *)
Definition line0 : line := Line 0 0 0 0 0 0 true 0 0 0 0.

(** 24-34 *)
Definition Start (l : line) (now : Z) : line :=
  Line now 0 0 0 0 0 (needs_update l) (start_copy l) (avg l) (slope_ l) (avg_t l).

(** 38, 50, 87: a difference of two uint32_t, as a float. *)
Definition since (a b : Z) : Q := inject_Z ((a - b) mod 2 ^ 32).

(** 35-46 *)
Definition Add (l : line) (d : datum) : line :=
  let x := since (t d) (start l) in
  Line (start l) (samples l + 1) (sum_t l + x) (t_square_sum l + x * x)
       (sum l + v d) (dot_sum l + v d * x)
       true (start_copy l) (avg l) (slope_ l) (avg_t l).

(** 47-58 *)
Definition Sub (l : line) (d : datum) : line :=
  let x := since (t d) (start l) in
  Line (start l) (samples l - 1) (sum_t l - x) (t_square_sum l - x * x)
       (sum l - v d) (dot_sum l - v d * x)
       true (start_copy l) (avg l) (slope_ l) (avg_t l).

(** 66-82. Interrupts cannot come between the reads. *)
Definition update (l : line) : line :=
  if negb (needs_update l) then l
  else
    let inv := 1 / inject_Z (samples l) in
    let at_ := sum_t l * inv in
    let av := sum l * inv in
    let sq := t_square_sum l + at_ * sum_t l - 2 * sum_t l * at_ in
    let dot := dot_sum l - sum l * at_ in
    let sl := if Qeq_bool sq 0 then 0 else dot * (1 / sq) in
    Line (start l) (samples l) (sum_t l) (t_square_sum l) (sum l) (dot_sum l)
         false (start l) av sl at_.

(** 85-89 *)
Definition line_get (l : line) (now : Z) : line * Q :=
  let l := update l in
  (l, avg l + slope_ l * (since now (start_copy l) - avg_t l)).

(** 91-94 *)
Definition line_slope (l : line) : Q := slope_ (update l).

(** 177-180; SIZE is the length of data_. *)
Record extra := Extra { data : list datum; entry : nat; values : Z; ln : line }.

Definition set_nth (k : nat) (d : datum) (l : list datum) : list datum :=
  firstn k l ++ d :: skipn (k + 1) l.

(** 139-155; values_ is a size_t, only its last ten bits matter. *)
Definition push (e : extra) (value : Q) (now : Z) : extra :=
  let size := length (data e) in
  let l := if (samples (ln e) =? 0)%Z then Start (ln e) now else ln e in
  let k := (if Nat.leb size (entry e + 1) then 0 else entry e + 1)%nat in
  let l := if (samples l =? Z.of_nat size)%Z
           then Sub l (nth k (data e) (Datum 0 0)) else l in
  let d := Datum value now in
  let ds := set_nth k d (data e) in
  let l := Add l d in
  let l := if (Z.land (values e) 1023 =? 1023)%Z
           then fold_left Add ds
                  (Start l (t (nth (Nat.modulo (k + 1) size) ds (Datum 0 0))))
           else l in
  Extra ds k (values e + 1) l.

(** 159-164 *)
Definition clear (e : extra) (value : Q) (now : Z) : extra :=
  push (Extra (data e) (entry e) 0 (Start (ln e) now)) value now.

(** 135, 137, 165-166 *)
Definition get (e : extra) (now : Z) : extra * Q :=
  let '(l, x) := line_get (ln e) now in
  (Extra (data e) (entry e) (values e) l, x).
Definition slope (e : extra) : Q := line_slope (ln e).
Definition ready (e : extra) : bool := (samples (ln e) =? Z.of_nat (length (data e)))%Z.
Definition newest (e : extra) : Q := v (nth (entry e) (data e) (Datum 0 0)).

(** What happens to it. The clock, micros(), is given as the true number of
    microseconds and read modulo 2^32. *)
Inductive op := Push (value : Q) (time : Z) | Get (time : Z).
Definition step (e : extra) (o : op) : extra :=
  match o with
  | Push value time => push e value (time mod 2 ^ 32)
  | Get time => fst (get e (time mod 2 ^ 32))
  end.
