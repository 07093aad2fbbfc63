(** common/i2cdevice.h (who may use the I2C bus) and common/i2cbus.h (when it is powered). *)
From Coq Require Import ZArith List Bool Arith.
Import ListNotations.

(** * i2cdevice.h: the lock and its queue *)
(** current_i2c_device, last_i2c_device and each device's [next]; devices are numbers.  [due] counts the
    calls current_i2c_device->RunLocked() of I2CUnlock (line 66) that are still to come: interrupts are on
    again there, so an interrupt can get in between. *)
Record lk := Lk { cur : option nat; lst : option nat; nxt : nat -> option nat; due : nat }.
Definition lk0 : lk := Lk None None (fun _ => None) 0.
Definition is (o : option nat) (d : nat) : bool := match o with Some x => x =? d | None => false end.
Definition isnull {A} (o : option A) : bool := match o with Some _ => false | None => true end.
Definition put (f : nat -> option nat) (d : nat) (v : option nat) : nat -> option nat := fun x => if x =? d then v else f x.

(** The calls made by devices, with the result of i2cbus.inited() where it is asked; [Call] is the due
    call.  Between noInterrupts() and interrupts() nothing else happens. *)
Inductive op := Lock (d : nat) (recapture inited : bool) | LockAndRun (d : nat) (inited : bool) | Unlock (d : nat) | Call.
(** What is returned, and the device whose RunLocked was called.  RunLocked's own calls come after it. *)
Record out := Out { ret : bool; ran : option nat }.

(** 19-32 *)
Definition I2CLock (s : lk) (d : nat) (recapture inited : bool) : lk * out :=
  if negb inited then (s, Out false None)
  else if negb (isnull (cur s)) then (s, Out (recapture && is (cur s) d) None)
  else (Lk (Some d) (Some d) (nxt s) (due s), Out true None).
(** 34-56; last_i2c_device is used unchecked: [None] if it is null. *)
Definition I2CLockAndRun (s : lk) (d : nat) (inited : bool) : option (lk * out) :=
  if negb inited then Some (s, Out false None)
  else if negb (isnull (cur s)) then
    if is (cur s) d || is (lst s) d || negb (isnull (nxt s d)) then Some (s, Out false None)
    else match lst s with
         | None => None
         | Some l => Some (Lk (cur s) (Some d) (put (nxt s) l (Some d)) (due s), Out true None)
         end
  else Some (Lk (Some d) (Some d) (nxt s) (due s), Out true (Some d)).
(** 58-75, up to the call *)
Definition I2CUnlock (s : lk) (d : nat) : lk :=
  if is (cur s) d then
    if isnull (nxt s d) then Lk None None (nxt s) (due s)
    else Lk (nxt s d) (lst s) (put (nxt s) d None) (S (due s))
  else s.
Definition step (s : lk) (o : op) : option (lk * out) :=
  match o with
  | Lock d r i => Some (I2CLock s d r i)
  | LockAndRun d i => I2CLockAndRun s d i
  | Unlock d => Some (I2CUnlock s d, Out true None)
  | Call => match due s with
            | O => Some (s, Out true None)
            | S n => match cur s with
                     | Some c => Some (Lk (cur s) (lst s) (nxt s) n, Out true (Some c))
                     | None => None
                     end
            end
  end.
Fixpoint play (s : lk) (os : list op) : option (lk * list out) :=
  match os with
  | [] => Some (s, [])
  | o :: os => match step s o with
               | None => None
               | Some (s, x) => match play s os with None => None | Some (s, xs) => Some (s, x :: xs) end
               end
  end.

(** * i2cbus.h *)
Local Open Scope Z_scope.
Definition W : Z := 2 ^ 32.
(** The places where Loop can yield (lines 14-76, not Teensy): not started, in SLEEP(1000), in the
    loops at 68 and 72.  [last] is last_request_millis_, [on] is i2c_detected_; [ons] counts calls of
    Wire.begin(), [offs] of Wire.end(). *)
Inductive pc := Begin | Sleep (until : Z) | Awake | Asleep.
Record bus := Bus { at_ : pc; last : Z; on : bool; ons : nat; offs : nat }.
Definition bus0 : bus := Bus Begin 0 false 0 0.
(** 78-80: the difference is a uint32_t. *)
Definition used (s : bus) (now : Z) : bool := negb (negb (Z.shiftr ((last s + 2000 - now) mod W) 31 =? 0)).
(** 82-85 *)
Definition inited (s : bus) (now : Z) : bus * bool := (Bus (at_ s) now (on s) (ons s) (offs s), on s).
(** 64-67 *)
Definition init (s : bus) : bus := Bus Awake (last s) true (S (ons s)) (offs s).
(** 68-72; the check at 72 right after the one at 68 failed sees the same time. *)
Definition awake (s : bus) (now : Z) : bus :=
  if used s now then s else Bus Asleep (last s) false (ons s) (S (offs s)).
Definition Loop (s : bus) (now : Z) : bus :=
  match at_ s with
  | Begin => let u := (now + 1000) mod W in
             if now <? u then Bus (Sleep u) (last s) (on s) (ons s) (offs s) else awake (init s) now
  | Sleep u => if now <? u then s else awake (init s) now
  | Awake => awake s now
  | Asleep => if used s now then awake (init s) now else s
  end.
(** A device asks, or the loop runs. *)
Inductive bop := Ask (now : Z) | Tick (now : Z).
Definition bstep (s : bus) (o : bop) : bus := match o with Ask t => fst (inited s t) | Tick t => Loop s t end.
