(** The battery: common/battery_monitor.h, and what props/prop_base.h and blades/simple_blade.h do with it.
    Voltages are rational numbers, not floats. *)
From Coq Require Import ZArith QArith List Bool.
From Verif Require Import Machine ArithModel.
Import ListNotations.
Open Scope Z_scope.

(** Where BatteryMonitor::Loop goes on (battery_monitor.h:59-64) *)
Inductive place := Begin | Wait | Start | Done.
(** battery_monitor.h:139-143. low_count_ and last_voltage_read_time_ are uint32_t. *)
Record monitor := Monitor { loaded_ : bool; last_voltage_ : Q; last_voltage_read_time_ : Z; low_count_ : Z; at_ : place }.
(** A reading, as noted for the properties only: when, the voltage shown after it, whether a computer was connected and
    whether the load was on. *)
Record reading := Reading { time : Z; shown : Q; usb : bool; load : bool }.
(** now: microseconds since the start, without wrap. on: SaberBase::IsOn(). lit: the blades that are on.
    readings, announced (times of low battery announcements, in microseconds): newest first, for the properties only. *)
Record state := State { mon : monitor; now : Z; on : bool; last_beep_ : Z; lit : list nat; readings : list reading; announced : list Z }.
Definition micros (s : state) : Z := u32 (now s).
Definition millis (s : state) : Z := u32 (now s / 1000).

(** battery_monitor.h:17-19 *)
Definition battery (m : monitor) : Q := last_voltage_ m.
(** battery_monitor.h:23 *)
Definition low (m : monitor) : bool := 1000 <? low_count_ m.
(** a < b for rational numbers *)
Definition Qltb (a b : Q) : bool := negb (Qle_bool b a).
(** battery_monitor.h:80-88. connected: USBD_Connected() *)
Definition IsLow (connected : bool) (m : monitor) : bool :=
  if connected then false
  else if Qltb (battery m) (1 # 2) then false
  else Qltb (battery m) (if loaded_ m then 26 # 10 else 30 # 10).
(** battery_monitor.h:65-75: one reading of [v] volts. mul: expf(logf(0.05) * elapsed / 1000000.0) *)
Definition sample (s : state) (v mul : Q) (connected : bool) : state :=
  let m := mon s in
  let m := Monitor (loaded_ m) (last_voltage_ m * mul + v * (1 - mul)) (micros s) (low_count_ m) Wait in
  let m := Monitor (loaded_ m) (last_voltage_ m) (last_voltage_read_time_ m) (if IsLow connected m then u32 (low_count_ m + 1) else 0) Wait in
  State m (now s) (on s) (last_beep_ s) (lit s) (Reading (now s) (last_voltage_ m) connected (loaded_ m) :: readings s) (announced s).
Definition set_mon (s : state) (m : monitor) : state := State m (now s) (on s) (last_beep_ s) (lit s) (readings s) (announced s).
Definition goto (s : state) (p : place) : state :=
  let m := mon s in set_mon s (Monitor (loaded_ m) (last_voltage_ m) (last_voltage_read_time_ m) (low_count_ m) p).
(** battery_monitor.h:64: started: reader_.Start(); done: reader_.Done() *)
Definition loop_done (s : state) (done : bool) (v mul : Q) (connected : bool) : state :=
  if done then sample s v mul connected else goto s Done.
(** battery_monitor.h:63 *)
Definition loop_start (s : state) (started done : bool) (v mul : Q) (connected : bool) : state :=
  if started then loop_done s done v mul connected else goto s Start.
(** battery_monitor.h:62 *)
Definition loop_wait (s : state) (started done : bool) (v mul : Q) (connected : bool) : state :=
  if u32 (micros s - last_voltage_read_time_ (mon s)) <? 1000 then goto s Wait else loop_start s started done v mul connected.
(** battery_monitor.h:59-77. The time does not change during a call, so that after a reading it waits (line 62). *)
Definition MonitorLoop (s : state) (started done : bool) (v mul : Q) (connected : bool) : state :=
  match at_ (mon s) with
  | Begin =>
    let m := mon s in
    loop_wait (set_mon s (Monitor (loaded_ m) (last_voltage_ m) (micros s) (low_count_ m) Begin)) started done v mul connected
  | Wait => loop_wait s started done v mul connected
  | Start => loop_start s started done v mul connected
  | Done => loop_done s done v mul connected
  end.
(** battery_monitor.h:20-22 *)
Definition SetLoad (s : state) (b : bool) : state :=
  let m := mon s in set_mon s (Monitor b (last_voltage_ m) (last_voltage_read_time_ m) (low_count_ m) (at_ m)).
(** battery_monitor.h:32-45, of which only the time is modelled *)
Definition SetPinHigh (s : state) (go_high : bool) : state :=
  let m := mon s in
  if go_high then s else set_mon s (Monitor (loaded_ m) (last_voltage_ m) (micros s) (low_count_ m) (at_ m)).
(** prop_base.h:1057-1063; Off() is taken to turn the saber off *)
Definition LowBatteryOff (s : state) : state :=
  if on s then State (mon s) (now s) false (last_beep_ s) (lit s) (readings s) (announced s) else s.
(** prop_base.h:1065-1076. style: there is a current_style(); charging: its Charging() *)
Definition CheckLowBattery (s : state) (style charging : bool) : state :=
  if low (mon s) then
    if style && negb charging then
      let s := LowBatteryOff s in
      if 15000 <? u32 (millis s - last_beep_ s) then State (mon s) (now s) (on s) (millis s) (lit s) (readings s) (now s :: announced s)
      else s
    else s
  else s.
(** simple_blade.h:220-225, 226-230, 231-238, as far as the battery is concerned *)
Definition BladeOn (s : state) (i : nat) : state :=
  let s := SetLoad s true in State (mon s) (now s) (on s) (last_beep_ s) (i :: lit s) (readings s) (announced s).
Definition BladeEffect (s : state) (i : nat) : state := SetLoad s true.
Definition BladeOff (s : state) (i : nat) : state :=
  let s := SetLoad s false in
  State (mon s) (now s) (on s) (last_beep_ s) (filter (fun j => negb (Nat.eqb i j)) (lit s)) (readings s) (announced s).

(** Tick: time passes. Turn: the user turns the saber on or off. *)
Inductive op :=
| Tick (t : Z) | Monitor_ (started done : bool) (v mul : Q) (connected : bool) | Pin (go_high : bool) | Check (style charging : bool)
| BOn (i : nat) | BEffect (i : nat) | BOff (i : nat) | Turn (b : bool).
Definition step (s : state) (o : op) : state :=
  match o with
  | Tick t => State (mon s) (now s + t) (on s) (last_beep_ s) (lit s) (readings s) (announced s)
  | Monitor_ a b v m c => MonitorLoop s a b v m c
  | Pin b => SetPinHigh s b
  | Check a b => CheckLowBattery s a b
  | BOn i => BladeOn s i
  | BEffect i => BladeEffect s i
  | BOff i => BladeOff s i
  | Turn b => State (mon s) (now s) b (last_beep_ s) (lit s) (readings s) (announced s)
  end.
(** After Setup (battery_monitor.h:47-50), [t] microseconds after the start; v: the first reading. last_beep_ is in static memory. *)
Definition state0 (v : Q) (t : Z) : state := State (Monitor false v (u32 t) 0 Begin) t false 0 [] [] [].
