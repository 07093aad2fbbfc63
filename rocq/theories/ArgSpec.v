(** Specification of style arguments, in terms of words. *)
From Coq Require Import ZArith List Bool.
From Verif Require Import StrSpec ArgModel.
Import ListNotations.
Open Scope Z_scope.

(** Argument n (from 1) of a string: its n-th word, unless there is none or it
    starts with '~' (code 126). *)
Definition argument (s : list Z) (n : Z) : option (list Z) :=
  if n <? 1 then None
  else match nth_error (words s) (Z.to_nat (n - 1)) with
       | Some (c :: w) => if c =? 126 then None else Some (c :: w)
       | _ => None
       end.

(** [p] points at word [w]: it begins with w, which ends there. *)
Definition points_at (p w : list Z) : Prop :=
  exists r, p = w ++ r /\ (r = [] \/ exists c r', r = c :: r' /\ blank c).

(** The strings of a parser in order of precedence: the style string, then the
    wrappers' defaults from the innermost outwards. *)
Fixpoint p_strings (p : parser) : list (list Z) :=
  match p with PArg s => [s] | PWrap inner d => p_strings inner ++ [d] end.
(** The first string that supplies argument n. *)
Fixpoint first_argument (ss : list (list Z)) (n : Z) : option (list Z) :=
  match ss with
  | [] => None
  | s :: ss => match argument s n with Some w => Some w | None => first_argument ss n end
  end.

(** Members of a set of numbers below [size], in increasing order. *)
Fixpoint below (size : nat) : list Z :=
  match size with O => [] | S n => below n ++ [Z.of_nat n] end.
Definition members (size : nat) (b : Z) : list Z := filter (Z.testbit b) (below size).
(** How far after [from], going up and wrapping around, [x] is: 1 .. size. *)
Definition ahead (size from x : Z) : Z := 1 + (x - from - 1) mod size.
(** How far before. *)
Definition behind (size from x : Z) : Z := 1 + (from - x - 1) mod size.
