(** Which pins belong to blades that have power, and which timers those need. *)
From Coq Require Import ZArith List Bool Arith.
From Verif Require Import Machine LampModel.
Import ListNotations.
Open Scope Z_scope.

(** A saber: blades with these pins, each pin used once; the counters are 8 bits wide. *)
Definition saber (l : list (list nat)) : Prop := NoDup (concat l) /\ (length (concat l) <= 100)%nat.
Definition after (inst : nat -> nat) (l : list (list nat)) (ops : list (nat * op)) : state := run (step inst) (state0 l) ops.
Definition blade_at (s : state) (k : nat) (d : blade) : Prop := nth_error (blades s) k = Some d.
Definition lit_pin (inst : nat -> nat) (s : state) (p : nat) : Z := light inst (hw_ s) p.
(** Some powered blade uses timer [i]; timer 3 keeps the time for all. *)
Definition needed (inst : nat -> nat) (s : state) (i : nat) : Prop :=
  exists d p, In d (blades s) /\ power_ d = true /\ In p (pins d) /\ (inst p = i \/ i = 3%nat).
