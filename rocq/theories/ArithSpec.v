(** Independent specification for the integer helpers. *)
From Coq Require Import ZArith List Bool.
Open Scope Z_scope.

(** Point x (covering x..x+1) lies in a stripe N*period+s .. N*period+e for some N. *)
Definition in_stripe (s e period x : Z) : Prop :=
  exists n, n * period + s <= x < n * period + e.

(** [counts P a b c]: exactly c integers x with a <= x < b satisfy P. *)
Inductive counts (P : Z -> Prop) (a : Z) : Z -> Z -> Prop :=
| counts_nil : forall b, b <= a -> counts P a b 0
| counts_in  : forall b c, a <= b -> counts P a b c -> P b -> counts P a (b + 1) (c + 1)
| counts_out : forall b c, a <= b -> counts P a b c -> ~ P b -> counts P a (b + 1) c.
