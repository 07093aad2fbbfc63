(** Shared power pins: blades/power_pin.h with SHARED_POWER_PINS. *)
From Coq Require Import ZArith List Bool PeanoNat.
From Verif Require Import ColorModel.
Import ListNotations.
Open Scope Z_scope.

(** The static refs_ and init_refs_ of PowerPinSingleton<PIN> (power_pin.h:53-54), the mode and
    output level of the pin itself, and on_ of every PowerPinWrapper<PIN> object (78). *)
Record pin := Pin { refs : Z; init_refs : Z; output : bool; level : bool; on_ : nat -> bool }.
Definition pin0 : pin := Pin 0 0 false false (fun _ => false).
Definition set_on (f : nat -> bool) (u : nat) (v : bool) : nat -> bool := fun x => if Nat.eqb x u then v else f x.

(** What the user of object [u] may call. *)
Inductive req := Init (u : nat) | DeInit (u : nat) | Power (u : nat) (v : bool).

(** 44-47 PowerPinSingleton::Power *)
Definition single_power (p : pin) (v : bool) : pin :=
  let refs' := u8 (refs p + (if v then 1 else -1)) in
  Pin refs' (init_refs p) (output p) (negb (refs' =? 0)) (on_ p).
(** 69-73 PowerPinWrapper::Power *)
Definition power (p : pin) (u : nat) (v : bool) : pin :=
  if Bool.eqb v (on_ p u) then p
  else single_power (Pin (refs p) (init_refs p) (output p) (level p) (set_on (on_ p) u v)) v.
(** 33-38 and 62-64 Init; 39-43 and 65-68 DeInit *)
Definition pin_step (p : pin) (q : req) : pin :=
  match q with
  | Init _ =>
    let i := u8 (init_refs p + 1) in
    if init_refs p =? 0 then Pin (refs p) i true false (on_ p) else Pin (refs p) i (output p) (level p) (on_ p)
  | DeInit u =>
    let p := power p u false in
    let i := u8 (init_refs p - 1) in
    if i =? 0 then Pin (refs p) i false (level p) (on_ p) else Pin (refs p) i (output p) (level p) (on_ p)
  | Power u v => power p u v
  end.
(** 14-26 without SHARED_POWER_PINS: every request goes straight to the pin. *)
Definition plain_step (p : bool * bool) (q : req) : bool * bool :=
  match q with
  | Init _ => (true, snd p)
  | DeInit _ => (false, snd p)
  | Power _ v => (fst p, v)
  end.
