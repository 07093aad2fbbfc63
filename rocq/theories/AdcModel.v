(** The analog-digital converter and its readers: common/analog_read.h (STM32L4), and
    functions/readpin.h. Not modelled: the temperature sensor's extra waits (147-171,
    216-236), calibration, clock cycles. *)
From Coq Require Import ZArith List Bool.
Import ListNotations.
Local Open Scope Z_scope.

(** Where loop() goes on: at its start, at the wait for the first or for the second
    conversion, or at its end. state_machine.h:12-16 *)
Inductive place := Begin | First | Second | Ended.

(** 246-250 pin_ (its adc channel), pin_mode_ == INPUT_PULLUP, state_machine_, value_ *)
Record reader := Reader { pin : Z; pullup : bool; pc : place; value : Z }.

(** The converter: taken or not (stm32l4_adc.state is BUSY or INIT); the channel it is set
    to; whether it is converting; EOC and DR; 252 current_AnalogReader; and all readers. *)
Record adc := Adc { busy : bool; sel : Z; converting : bool; eoc : bool; dr : Z;
                    current : option nat; readers : nat -> reader }.

Definition put (s : adc) (k : nat) (r : reader) : nat -> reader :=
  fun j => if Nat.eqb j k then r else readers s j.
Definition at_ (r : reader) (p : place) : reader := Reader (pin r) (pullup r) p (value r).

(** The level of the internal reference. ADC_CHANNEL_ADC1_VREFINT is channel 0. *)
Definition VREFINT : Z := 0.

(** 132-194: until the first conversion is started. *)
Definition begin (s : adc) (k : nat) : adc :=
  let r := readers s k in
  match pc r with
  | Begin =>
      if busy s then s
      else Adc true (if pullup r then VREFINT else pin r) true (eoc s) (dr s) (current s)
               (put s k (at_ r First))
  | _ => s
  end.

(** 196-208: its result is ignored, the second is started. *)
Definition first (s : adc) (k : nat) : adc :=
  let r := readers s k in
  match pc r with
  | First =>
      if eoc s
      then Adc (busy s) (pin r) true false (dr s) (current s)
               (put s k (Reader (pin r) (pullup r) Second (dr s)))
      else s
  | _ => s
  end.

(** 210-214, 238-240 *)
Definition second (s : adc) (k : nat) : adc :=
  let r := readers s k in
  match pc r with
  | Second =>
      if eoc s
      then Adc false (sel s) (converting s) false (dr s) None
               (put s k (Reader (pin r) (pullup r) Ended (dr s)))
      else s
  | _ => s
  end.

(** 127-242 *)
Definition loop (s : adc) (k : nat) : adc := second (first (begin s k) k) k.

(** 94-107; the converter has been made. *)
Definition Start (s : adc) (k : nat) : adc * bool :=
  if busy s then (s, false)
  else
    let s := Adc (busy s) (sel s) (converting s) (eoc s) (dr s) (Some k)
                 (put s k (at_ (readers s k) Begin)) in
    (loop s k, true).

(** 114-117 *)
Definition Done (s : adc) (k : nat) : adc * bool :=
  let s := loop s k in
  (s, match pc (readers s k) with Ended => true | _ => false end).

(** 110-112: one turn of LoopUntilStart; None is the use of a null pointer. *)
Definition turn (s : adc) (k : nat) : option (adc * bool) :=
  let '(s, ok) := Start s k in
  if ok then Some (s, true)
  else match current s with
       | None => None
       | Some j => Some (loop s j, false)
       end.

(** The conversion that is going on ends; [volts] is what each channel measures then. *)
Definition tick (s : adc) (volts : Z -> Z) : adc :=
  if converting s
  then Adc (busy s) (sel s) false true (volts (sel s)) (current s) (readers s)
  else s.

Inductive op := OStart (k : nat) | ODone (k : nat) | OTurn (k : nat) | OTick (volts : Z -> Z).
Definition step (s : adc) (o : op) : option (adc * bool) :=
  match o with
  | OStart k => Some (Start s k)
  | ODone k => Some (Done s k)
  | OTurn k => turn s k
  | OTick volts => Some (tick s volts, false)
  end.

(** 110-112 with conversions ending between the turns; None: null, or not in time. *)
Fixpoint LoopUntilStart (s : adc) (k : nat) (times : list (Z -> Z)) : option adc :=
  match turn s k with
  | None => None
  | Some (s, true) => Some s
  | Some (s, false) =>
      match times with
      | [] => None
      | volts :: times => LoopUntilStart (tick s volts) k times
      end
  end.

(** functions/readpin.h:60-62 *)
Record style := Style { level : Z; started : bool; sk : nat }.
(** 44-54: one turn of the loop in run(). *)
Definition style_turn (s : adc) (f : style) : adc * style :=
  if negb (started f)
  then let '(s, ok) := Start s (sk f) in (s, Style (level f) ok (sk f))
  else let '(s, ok) := Done s (sk f) in
       (s, if ok then Style (value (readers s (sk f)) * 8) false (sk f) else f).
(** 43-56, with conversions ending between the turns; None: still in the loop. *)
Fixpoint style_run (s : adc) (f : style) (times : list (Z -> Z)) : option (adc * style) :=
  let '(s, f) := style_turn s f in
  if level f =? -1
  then match times with
       | [] => None
       | volts :: times => style_run (tick s volts) f times
       end
  else Some (s, f).
