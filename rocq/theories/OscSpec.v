(** What going round with the clock means. *)
From Coq Require Import ZArith QArith List.
Import ListNotations.
Local Open Scope Z_scope.

(** Microseconds from one reading of the 32-bit clock to the next, and over many of them *)
Definition lapse (a b : Z) : Z := (b - a) mod 4294967296.
Fixpoint total (last : Z) (ts : list Z) : Z :=
  match ts with [] => 0 | t :: ts => lapse last t + total t ts end.
Definition between (a v b : Z) : Prop := Z.min a b <= v <= Z.max a b.
(** Less than one away *)
Definition near (v : Z) (x : Q) : Prop := (inject_Z v - 1 < x)%Q /\ (x < inject_Z v + 1)%Q.
