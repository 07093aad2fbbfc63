(** Driving power LEDs: blades/drive_logic.h, blades/leds.h and LSanalogWrite of blades/pwm_pin.h (STM32L4).
    Floats are rational numbers here. *)
From Coq Require Import ZArith QArith Qround List Bool.
From Verif Require Import ArithModel ColorModel.
Import ListNotations.
Open Scope Z_scope.

(** leds.h:9-34: what is known about a LED; R: the resistor. The color is in [selector]. *)
Record led := Led { MaxAmps : Q; MaxVolts : Q; P2Amps : Q; P2Volts : Q; R : Q }.
(** drive_logic.h:7-15 and 17-28: a LED of a color, and one that leaves the part of LED::SUBTRACT to that *)
Inductive selector := Plain (c : color) | Subtract (base : selector) (c : color).
(** drive_logic.h:12-14, 23-27. Color16 takes uint16_t. *)
Fixpoint Select (s : selector) (c : color) : Z :=
  match s with
  | Plain o => select 65535 c (c16_of_c8 o)
  | Subtract base o =>
    let white := Select base c in
    select 65535 (Color (u16 (r c - white)) (u16 (g c - white)) (u16 (b c - white))) (c16_of_c8 o)
  end.
(** drive_logic.h:72-74 *)
Definition PWM_overdrive (s : selector) (c : color) : Z := Select s c.
(** drive_logic.h:54-70. V: battery_monitor.battery() *)
Definition PWMMultiplier (l : led) (V : Q) : Q :=
  let dv := (MaxVolts l - P2Volts l)%Q in
  let di := (MaxAmps l - P2Amps l)%Q in
  let delta := (dv / di)%Q in
  let amps := ((V - MaxVolts l + MaxAmps l * delta) / (delta + R l))%Q in
  if Qle_bool amps (MaxAmps l) then 1%Q else (MaxAmps l / amps)%Q.
(** drive_logic.h:75-86: the product is converted to int; it is not negative *)
Definition PWM (l : led) (s : selector) (V : Q) (c : color) : Z := Qfloor (inject_Z (PWM_overdrive s c) * PWMMultiplier l V).
(** pwm_pin.h:90-104: the value of the compare register; the counter counts to 32768 *)
Definition LSanalogWrite (value : Z) : Z :=
  let value := Z.shiftr value 1 in
  let value := if value <? 0 then 0 else value in
  if 32768 <? value then 32768 else value.
(** simple_blade.h:18-20 PWMPin::set *)
Definition set (l : led) (s : selector) (V : Q) (c : color) : Z := LSanalogWrite (PWM l s V c).

(** leds.h: the LEDs listed; mo: milliohms / 1000.0 *)
Definition CreeXPE2White (mo : Q) : led := Led 1 (315 # 100) (7 # 10) (305 # 100) mo. (* :9-34 *)
Definition CreeXPE2Blue (mo : Q) : led := Led 1 (34 # 10) (35 # 100) (31 # 10) mo. (* :39-49 *)
Definition CreeXPE2Green (mo : Q) : led := Led 1 (37 # 10) (35 # 100) (32 # 10) mo. (* :53-63 *)
Definition CreeXPE2PCAmber (mo : Q) : led := Led 1 (328 # 100) (35 # 100) (305 # 100) mo. (* :67-78 *)
Definition CreeXPE2Red (mo : Q) : led := Led 1 (265 # 100) (35 # 100) (22 # 10) mo. (* :82-92; RedOrange and Amber: 96-122 *)
Definition CreeXPL (mo : Q) : led := Led 3 (332 # 100) (105 # 100) (295 # 100) mo. (* :126-136 *)
Definition Blue3mmLED : led := Led (45 # 10) (34 # 10) (24 # 10) (32 # 10) (5 # 100). (* :143-152 *)
Definition Red8mmLED100 : led := Led (1174 # 100) (297 # 100) (735 # 100) (25 # 10) (1 # 1000). (* :156-165 *)
Definition Blue8mmLED100 : led := Led (89 # 10) (38 # 10) (605 # 100) (35 # 10) (1 # 1000). (* :169-178 *)
Definition CH1LED : led := Led 1 1000 0 0 0. (* :181-234: NoLED, CH1LED, CH2LED, CH3LED, ServoSelector *)
