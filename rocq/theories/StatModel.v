(** The status LED: common/status_led.h.  Simplifications: floats are rationals;
    SimplePWMPin is the value it was last set to, and [None] while it is not active. *)
From Coq Require Import ZArith QArith List Bool.
From Verif Require Import ArithModel PovModel.
Import ListNotations.
Local Open Scope Z_scope.

(** What a call of Loop finds: millis(), micros(), SaberBase::IsOn(), USBD_Connected(),
    MotionRequested(), the charge detection and hf_loop_counter.LoopsPerSecond(). *)
Record input := Inp { ms : Z; us : Z; ignited : bool; usb_on : bool; motion : bool; charging : bool; lps : Q }.
(** status_led.h:125-132.  last_micros_, last_millis_ and blink_start_ start as anything. *)
Record led := Led { blink_start : Z; blinks : Z; repeat_ : bool; last_us : Z; last_ms : Z;
                    pos : Q; active : bool; pin : option Z }.
(** status_led.h:110-114 Blink; [now] is millis() *)
Definition Blink (n : Z) (again : bool) (now : Z) (l : led) : led :=
  Led now n again (last_us l) (last_ms l) (pos l) (active l) (pin l).

(** status_led.h:84-90 *)
Definition speed (lps : Q) : Q :=
  let s := (500000 / (lps + 1))%Q in
  let s := if negb (Qle_bool 50 s) then 50%Q else s in
  if negb (Qle_bool s 250) then 250%Q else s.
(** status_led.h:94-107, the value for the pin *)
Definition level (i : input) (p : Q) : Z :=
  let v := if usb_on i then p else if negb (Qle_bool p (1 # 2)) then (2 - p * 2)%Q else (p * 2)%Q in
  let v := (v * (if ignited i then 32767 else 4096))%Q in
  let v := if charging i && (Z.land (ms i) 2047 <? 100) then 32767%Q else v in
  to_int v.
(** status_led.h:80-107 *)
Definition pulse (i : input) (l : led) : led :=
  let delta := u32 (us i - last_us l) in
  let p := fract (pos l + speed (lps i) * inject_Z delta * (1 # 1000000) / 60)%Q in
  Led (blink_start l) (blinks l) (repeat_ l) (us i) (last_ms l) p (active l) (Some (level i p)).
Definition set_pin (v : Z) (l : led) : led :=
  Led (blink_start l) (blinks l) (repeat_ l) (last_us l) (last_ms l) (pos l) (active l) (Some v).
(** status_led.h:61-79 *)
Definition show (i : input) (l : led) : led :=
  if blinks l =? 0 then pulse i l
  else
    let t := u32 (ms i - blink_start l) in
    let b := t / 500 in
    if b <? blinks l then set_pin (if t mod 500 >? 250 then 32768 else 0) l
    else if b <? blinks l + 3 then set_pin 0 l
    else if repeat_ l then Led (ms i) (blinks l) (repeat_ l) (last_us l) (last_ms l) (pos l) (active l) (pin l)
    else pulse i (Led (blink_start l) 0 (repeat_ l) (last_us l) (last_ms l) 0 (active l) (pin l)).
(** status_led.h:37-59 and the rest of Loop *)
Definition Loop (i : input) (l : led) : led :=
  if u32 (ms i - last_ms l) <? 5 then l
  else
    let l := Led (blink_start l) (blinks l) (repeat_ l) (last_us l) (ms i) (pos l) (active l) (pin l) in
    if negb (ignited i || usb_on i || motion i || negb (blinks l =? 0) || charging i) then
      if active l
      then Led (blink_start l) (blinks l) (repeat_ l) (last_us l) (last_ms l) (pos l) false None
      else l
    else
      let l := if active l then l
               else Led (blink_start l) (blinks l) (repeat_ l) (last_us l) (last_ms l) (pos l) true (Some 0) in
      show i l.
Fixpoint Loops (l : led) (is : list input) : led :=
  match is with [] => l | i :: is => Loops (Loop i l) is end.
