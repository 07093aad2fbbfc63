(** What a shared power pin must do. *)
From Coq Require Import ZArith List Bool PeanoNat.
From Verif Require Import PinModel.
Import ListNotations.

(** Does user u have the pin initialised / want it powered, after some requests (latest first)? *)
Fixpoint in_use (qs : list req) (u : nat) : bool :=
  match qs with
  | [] => false
  | Init x :: qs => if Nat.eqb x u then true else in_use qs u
  | DeInit x :: qs => if Nat.eqb x u then false else in_use qs u
  | Power _ _ :: qs => in_use qs u
  end.
Fixpoint wants (qs : list req) (u : nat) : bool :=
  match qs with
  | [] => false
  | Init _ :: qs => wants qs u
  | DeInit x :: qs => if Nat.eqb x u then false else wants qs u
  | Power x v :: qs => if Nat.eqb x u then v else wants qs u
  end.
(** Users 0 .. n-1 follow the protocol: Init when not initialised, DeInit and Power(true) when
    initialised; Power(false) at any time. *)
Fixpoint proper (n : nat) (qs : list req) : Prop :=
  match qs with
  | [] => True
  | q :: qs => proper n qs /\
    match q with
    | Init u => (u < n)%nat /\ in_use qs u = false
    | DeInit u => (u < n)%nat /\ in_use qs u = true
    | Power u v => (u < n)%nat /\ (v = true -> in_use qs u = true)
    end
  end.
