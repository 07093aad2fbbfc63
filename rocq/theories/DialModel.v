(** Settings changed by turning the hilt: common/angle.h, modes/smooth_mode.h and
    modes/stepped_mode.h.  Floats are exact rationals; angles are measured so that M_PI is 16384
    (half a turn), hence M_PI / 16384.0 is 1. *)
From Coq Require Import ZArith QArith Qround List Bool.
Import ListNotations.
Open Scope Q_scope.

Definition Qltb (a b : Q) : bool := negb (Qle_bool b a).
(** C++ conversion of a float to an int (towards zero). *)
Definition to_int (q : Q) : Z := if Qle_bool 0 q then Qfloor q else Z.opp (Qfloor (- q)).
(** common/math.h clampi32 *)
Definition clampi (x lo hi : Z) : Z := if Z.ltb x lo then lo else if Z.ltb hi x then hi else x.

Definition PI : Q := 16384.
(** angle.h:8-13, also the constructor (15) and the operators + and - (29-40). *)
Definition TRUNC (f : Q) : Q :=
  if Qle_bool PI f then f - PI * 2 else if Qltb f (- PI) then f + PI * 2 else f.
(** 20-22 *)
Definition fromFixed (a : Z) : Q := TRUNC (inject_Z a - 16384).
(** 23-28 *)
Definition fromFixedWithMargin (a : Z) (m : Q) : Q :=
  if Z.leb 32767 a then TRUNC (PI * (1 - m / 5))
  else if Z.leb a 0 then TRUNC (- PI * (1 - m / 5))
  else TRUNC ((inject_Z a - 16384 * (1 + m)) * (PI / (16384 * (1 + m)))).
(** 58-69 increment_with_guardrails: the new angle and what is returned. *)
Definition increment (angle diff : Q) : Q * Z :=
  let a := angle + diff in
  if Qle_bool PI a then (PI, 1%Z)
  else if Qltb a (- PI) then (- PI, (-1)%Z)
  else (a, 0%Z).
(** 77-82 *)
Definition fixed (angle : Q) : Z := clampi (to_int angle + 16384) 0 32767.
(** 84-89 *)
Definition fixed_with_margin (angle m : Q) : Z :=
  clampi (to_int (angle * (16384 * (1 + m) / PI) + 16384)) 0 32767.

(** smooth_mode.h.  [X] is what the mode's get() and set() work on.  The two kinds of mode:
    SmoothWraparoundMode (68-73) and SmoothMode with its margin_fraction (76-98); [rev] is
    revolutions().  A sensor reading [a] is fusor.angle2(). *)
Inductive kind := Wrap | Rails (m : Q).
Section Smooth.
Variable X : Type.
Variable get : X -> Z.
Variable set : X -> Z -> X.
Variable k : kind.
Variable rev : Q.
(** 63-65 and 24: the members. *)
Record smooth := Smooth { store : X; last : Q; angle : Q; saved : Z }.
(** 31-35, 83-86 mode_activate *)
Definition activate (s : smooth) (onreturn : bool) (a : Q) : smooth :=
  Smooth (store s) (TRUNC a)
         (match k with Wrap => fromFixed (get (store s)) | Rails m => fromFixedWithMargin (get (store s)) m end)
         (if onreturn then saved s else get (store s)).
(** 16-22 DeltaAngle::get *)
Definition delta (s : smooth) (a : Q) : Q := TRUNC (TRUNC a - last s).
(** 69-72, 87-95 mode_Loop.  The second result is the guard rail that was hit: 1 calls max_bump,
    -1 min_bump. *)
Definition loop (s : smooth) (a : Q) : smooth * Z :=
  let d := TRUNC (delta s a / rev) in
  match k with
  | Wrap => let an := TRUNC (angle s + d) in
            (Smooth (set (store s) (fixed an)) (TRUNC a) an (saved s), 0%Z)
  | Rails m => let (an, b) := increment (angle s) d in
               (Smooth (set (store s) (fixed_with_margin an m)) (TRUNC a) an (saved s), b)
  end.
(** 45-56 mode_Event2: the left (true) and right button. *)
Definition click (s : smooth) (left : bool) : smooth :=
  let d := TRUNC (PI * 2 / 36) in
  Smooth (store s) (last s) (if left then TRUNC (angle s + d) else TRUNC (angle s - d)) (saved s).
(** 37-40 exit and 41-43 select, without the popMode both do. *)
Definition exit (s : smooth) : smooth := Smooth (set (store s) (saved s)) (last s) (angle s) (saved s).
Definition select (s : smooth) : smooth := s.
Inductive op := Return (a : Q) | Loop (a : Q) | Click (left : bool).
Definition step (s : smooth) (o : op) : smooth :=
  match o with Return a => activate s true a | Loop a => fst (loop s a) | Click l => click s l end.
End Smooth.
Arguments Smooth {X}. Arguments store {X}. Arguments last {X}. Arguments angle {X}. Arguments saved {X}.

(** stepped_mode.h: [spr] is steps_per_revolution(), [dz] dead_zone_percent(). *)
Inductive dir := Next | Prev.
(** 22-24, 28-30 *)
Definition stepsize (spr : Z) : Q := 2 * PI / inject_Z spr.
Definition twistsize (spr dz : Z) : Q := stepsize spr / 2 * (200 + inject_Z dz) / 200.
(** 49-55: the step after acceleration; [gyro] is fabs(fusor.gyro().x) in degrees per second. *)
Definition accelerated (spr : Z) (gyro : Q) : Q :=
  let speed := gyro / 360 in
  if Qltb 1 speed then stepsize spr / (speed * speed) else stepsize spr.
(** 32-34 mode_activate and 37-66 mode_Loop on angle_; the result says whether next() or prev()
    was called. *)
Definition stepped_activate (a : Q) : Q := TRUNC a.
Definition stepped_loop (spr dz : Z) (angle : Q) (i : Q * Q) : Q * option dir :=
  let (a, gyro) := i in
  let diff := TRUNC (TRUNC a - angle) in
  if Qltb (twistsize spr dz) (if Qle_bool 0 diff then diff else - diff) then
    let st := TRUNC (accelerated spr gyro) in
    if Qltb 0 diff then (TRUNC (angle + st), Some Next) else (TRUNC (angle - st), Some Prev)
  else (angle, None).
