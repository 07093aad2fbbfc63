(** Functions that go round with the clock: functions/sin.h (Sin, Saw, PulsingF).
    Simplifications: floats are rationals or not a number; int does not overflow. *)
From Coq Require Import ZArith QArith Qround List Bool.
From Verif Require Import ArithModel PovModel BlendModel.
Import ListNotations.
Local Open Scope Z_scope.

(** sin.h:41-42, 70-71, 93-94: last_micros_ and pos_; both may start as anything.  [None]: not
    a number. *)
Record osc := Osc { last : Z; pos : option Q }.
(** pos_ = fract(pos_ + [step]), [now] is micros() *)
Definition move (step : Q) (now : Z) (o : osc) : osc :=
  Osc now (match pos o with Some p => Some (fract (p + step)) | None => None end).
Definition delta (now : Z) (o : osc) : Z := u32 (now - last o).
(** sin_table[(int)floorf(pos * 1024)]; [None]: outside the table *)
Definition look (p : Q) : option Z :=
  let i := Qfloor (p * 1024) in if (0 <=? i) && (i <? 1024) then Some (BlendModel.sin_table i) else None.

(** sin.h:27-36 SinSVF::calculate.  [None]: undefined. *)
Definition sin_value (low high : Z) (p : Q) : option Z :=
  match look p with
  | Some s => Some (PovModel.to_int ((inject_Z s / 32768 + (1 # 2)) * inject_Z (high - low) + inject_Z low)%Q)
  | None => None
  end.
Definition sin_calculate (rpm low high now : Z) (o : osc) : osc * option Z :=
  let o := move (inject_Z (delta now o) / 60000000 * inject_Z rpm)%Q now o in
  (o, match pos o with Some p => sin_value low high p | None => None end).
(** sin.h:57-65 SawSVF::calculate *)
Definition saw_value (low high : Z) (p : Q) : Z := PovModel.to_int (inject_Z low + p * inject_Z (high - low))%Q.
Definition saw_calculate (rpm low high now : Z) (o : osc) : osc * option Z :=
  let o := move (inject_Z (delta now o) / 60000000 * inject_Z rpm)%Q now o in
  (o, match pos o with Some p => Some (saw_value low high p) | None => None end).
(** sin.h:83-89 PulsingFSVF::calculate: a division by 0.0 gives infinity or not a number, and
    fract() of that is not a number. *)
Definition pulse_value (p : Q) : option Z := match look p with Some s => Some (s + 16384) | None => None end.
Definition pulse_calculate (millis now : Z) (o : osc) : osc * option Z :=
  let o := if millis =? 0 then Osc now None else move (inject_Z (delta now o) / (1000 * inject_Z millis))%Q now o in
  (o, match pos o with Some p => pulse_value p | None => None end).

(** What a function gives at each of a list of frames *)
Fixpoint calls (f : Z -> osc -> osc * option Z) (o : osc) (ts : list Z) : osc * list (option Z) :=
  match ts with
  | [] => (o, [])
  | t :: ts => let (o, v) := f t o in let (o, vs) := calls f o ts in (o, v :: vs)
  end.
(** PulsingF with a PULSE_MILLIS that is a function: its value and micros() at each frame *)
Fixpoint pulse_calls (o : osc) (fs : list (Z * Z)) : list (option Z) :=
  match fs with
  | [] => []
  | (millis, t) :: fs => let (o, v) := pulse_calculate millis t o in v :: pulse_calls o fs
  end.
