(** What the users of a pool of players expect, independent of PoolModel. *)
From Coq Require Import ZArith List Bool.
Import ListNotations.
Local Open Scope Z_scope.

(** Variable [v] exists and points to [p]. *)
Definition holds (p : nat) (v : option (option nat)) : bool :=
  match v with Some (Some q) => (q =? p)%nat | _ => false end.
(** How many variables point to [p]. *)
Definition holders (p : nat) (vs : list (option (option nat))) : Z :=
  Z.of_nat (length (filter (holds p) vs)).
