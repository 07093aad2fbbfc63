(** Twist, shake and swing gestures: props/prop_base.h:833-1014. *)
From Coq Require Import ZArith List Bool.
From Verif Require Import ArithModel.
Import ListNotations.
Open Scope Z_scope.

(** 833-841 StrokeType *)
Inductive kind := TWIST_CLOSE | TWIST_LEFT | TWIST_RIGHT | SHAKE_CLOSE | SHAKE_FWD | SHAKE_REW.
Definition kind_eqb (a b : kind) : bool :=
  match a, b with
  | TWIST_CLOSE, TWIST_CLOSE | TWIST_LEFT, TWIST_LEFT | TWIST_RIGHT, TWIST_RIGHT
  | SHAKE_CLOSE, SHAKE_CLOSE | SHAKE_FWD, SHAKE_FWD | SHAKE_REW, SHAKE_REW => true
  | _, _ => false
  end.
(** 842-847 Stroke *)
Record stroke := Stroke { type : kind; start_millis : Z; end_millis : Z }.
Definition length_ (k : stroke) : Z := u32 (end_millis k - start_millis k).
(** 849 strokes[5], the newest first: strokes[NELEM(strokes)-1-i] is element i. Static
    storage, so zero at power-on. *)
Definition strokes0 : list stroke := repeat (Stroke TWIST_CLOSE 0 0) 5.
Definition zero : stroke := Stroke TWIST_CLOSE 0 0.
Definition newest (l : list stroke) : stroke := nth 0 l zero.
Definition set_newest (l : list stroke) (k : stroke) : list stroke := match l with [] => [] | _ :: l => k :: l end.

(** 882-895 GetStrokeGroup *)
Definition group (k : kind) : kind :=
  match k with TWIST_CLOSE | TWIST_LEFT | TWIST_RIGHT => TWIST_CLOSE | _ => SHAKE_CLOSE end.

(** 905-936 DoGesture at millis() = now, constant during the call *)
Definition DoGesture (l : list stroke) (g : kind) (now : Z) : list stroke * bool :=
  let k := newest l in
  let closes := (end_millis k =? 0) && kind_eqb (group g) (group (type k)) in
  let rest :=
    if closes then (set_newest l (Stroke (type k) (start_millis k) now), true)
    else if kind_eqb (group g) g then (l, false)
    else
      let l := if u32 (end_millis k - start_millis k) >? 10 then k :: firstn 4 l else l in
      (set_newest l (Stroke g now 0), false) in
  if kind_eqb g (type k) then
    if end_millis k =? 0 then (l, false)
    else if u32 (now - end_millis k) <? 50 then (set_newest l (Stroke (type k) (start_millis k) now), false)
    else rest
  else rest.

(** A call of DetectTwist or DetectShake at millis() = t. Motion values are floats in the
    code; here they are integers, in thousandths of the code's unit. *)
Inductive call := Twist (t gx gy gz : Z) | Shake (t x y z speed : Z).

(** 940-948: which gesture the gyro shows *)
Definition twist_kind (gx gy gz : Z) : kind :=
  if (Z.abs gx >? 200000) && (Z.abs gx >? 3 * Z.abs gy) && (Z.abs gx >? 3 * Z.abs gz)
  then (if gx >? 0 then TWIST_LEFT else TWIST_RIGHT) else TWIST_CLOSE.
(** 949-969 the rest of DetectTwist *)
Definition is_twist (l : list stroke) : bool :=
  let a := nth 0 l zero in let b := nth 1 l zero in
  ((kind_eqb (type a) TWIST_LEFT && kind_eqb (type b) TWIST_RIGHT) || (kind_eqb (type a) TWIST_RIGHT && kind_eqb (type b) TWIST_LEFT)) &&
  ((length_ a >? 90) && (length_ a <? 300) && (length_ b >? 90) && (length_ b <? 300)) &&
  (u32 (start_millis a - end_millis b) <? 200).
(** 976-981: which gesture the acceleration shows *)
Definition shake_kind (x y z speed : Z) : kind :=
  if (y * y + z * z <? 16000000) && ((x >? 7000) || (x <? -6000)) && (speed <? 150000)
  then (if x >? 0 then SHAKE_FWD else SHAKE_REW) else SHAKE_CLOSE.
(** 985-996: the loop over the last five strokes; [i] counts up, [n] is what is left *)
Fixpoint shake_from (l : list stroke) (n i : nat) : bool :=
  match n with
  | O => true
  | S n =>
    kind_eqb (type (nth i l zero)) (if Nat.odd i then SHAKE_REW else SHAKE_FWD) &&
    (match i with O => true | S j => negb (u32 (start_millis (nth j l zero) - end_millis (nth i l zero)) >? 250) end) &&
    shake_from l n (S i)
  end.

(** What is reported *)
Inductive event := EVENT_TWIST | EVENT_SHAKE.
(** 939-970 DetectTwist, 973-1002 DetectShake *)
Definition step (l : list stroke) (c : call) : list stroke * list event :=
  match c with
  | Twist t gx gy gz =>
    let '(l, process) := DoGesture l (twist_kind gx gy gz) t in
    (l, if process && is_twist l then [EVENT_TWIST] else [])
  | Shake t x y z speed =>
    let '(l, process) := DoGesture l (shake_kind x y z speed) t in
    if process && shake_from l 5 0 then (set_newest l (Stroke SHAKE_CLOSE (start_millis (newest l)) (end_millis (newest l))), [EVENT_SHAKE])
    else (l, [])
  end.

(** 1004-1014 DetectSwing: swinging_, and whether EVENT_SWING is reported, at this swing speed
    in degrees per second (an integer here) *)
Definition DetectSwing (swinging : bool) (speed : Z) : bool * bool :=
  let s1 := if negb swinging && (speed >? 250) then true else swinging in
  (if s1 && (speed <? 100) then false else s1, negb swinging && (speed >? 250)).
