(** Who needs power, in terms of what happened. *)
From Coq Require Import ZArith List Bool.
From Verif Require Import Machine AmpModel.
Import ListNotations.
Open Scope Z_scope.

Definition after (t : Z) (ops : list op) : state := run step (state0 t) ops.
(** EnableAmplifier() is called *)
Definition enables (o : op) : bool := match o with Enable | AmpOn | Play _ _ => true | _ => false end.
Definition no_amp_off (o : op) : Prop := o <> AmpOff.
Definition no_booster_off (o : op) : Prop := o <> BoosterOff.
(** p holds after every part of ops *)
Definition throughout (p : state -> Prop) (s : state) (ops : list op) : Prop :=
  forall a b, ops = a ++ b -> p (run step s a).
(** The loop function l is called within d ms of each operation that [asks], or while [need]. *)
Definition prompt (l : op) (asks : op -> bool) (need : state -> Prop) (d t : Z) (ops : list op) : Prop :=
  forall a e b c, ops = a ++ e :: b ++ c -> asks e = true -> ~ In l b ->
    need (after t (a ++ e :: b)) \/ clk (after t (a ++ e :: b)) < clk (after t a) + d.
(** The loop function l is called n times, each d ms or more after the last, the first d ms or more from now. *)
Fixpoint rounds (l : op) (d : Z) (n : nat) (s : state) (ops : list op) : Prop :=
  match n with
  | O => True
  | S n => exists b c, ops = b ++ l :: c /\ clk s + d <= clk (run step s b) /\ rounds l d n (run step s (b ++ [l])) c
  end.
(** millis() begins again at 0 after this time, in ms (49.7 days) *)
Definition wrap : Z := 4294967296.
(** EnableBooster() is, or may be, called *)
Definition asks_booster (o : op) : bool := match o with EnableBooster | BoosterOn => true | _ => enables o end.
(** EnableBooster() is called: by itself, or because the amplifier gets power *)
Definition boosts (s : state) (o : op) : Prop :=
  o = EnableBooster \/ o = BoosterOn \/ (enables o = true /\ pin (am s) = false).
Definition mounts (o : op) : Prop := match o with MountCard _ true => True | Play _ true => True | _ => False end.
(** The blades or a sound need the booster *)
Definition wants_booster (s : state) : Prop := playing s = true \/ lit s = true \/ noonoff s = true \/ busy s = true.
(** The card is in use *)
Definition in_use (s : state) : Prop := playing s = true \/ stream s = true \/ lit s = true.
(** No call of its loop function finds the card broken or missing *)
Definition good_card (o : op) : Prop := match o with SD_Loop true true => True | SD_Loop _ _ => False | _ => True end.
