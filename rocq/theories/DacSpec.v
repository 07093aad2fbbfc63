(** Sound output without gaps. *)
From Coq Require Import ZArith List.
From Verif Require Import DacModel.
Import ListNotations.
Local Open Scope Z_scope.

(** Half a ring is [n] words. A half in which the interrupt comes after [before] words and
    gets the samples [got], and one in which it does not come. *)
Inductive half := Filled (before : nat) (got : list Z) | Missed.

Definition events (n : nat) (h : half) : list op :=
  match h with
  | Filled before got => repeat Play before ++ Isr got :: repeat Play (n - before)
  | Missed => repeat Play n
  end.

(** The interrupt comes before the half is over. *)
Definition in_time (n : nat) (h : half) : Prop :=
  match h with Filled before _ => (before < n)%nat | Missed => True end.

(** [size] samples: those that came, then silence. *)
Definition block (size : nat) (got : list Z) : list Z :=
  map (fun i => nth i got 0) (seq 0 size).

(** What should be heard: [now] is what this half plays, [next] what the other one holds. *)
Fixpoint sound (size : nat) (code : Z -> list Z) (now next : list Z) (hs : list half) : list Z :=
  match hs with
  | [] => []
  | Filled _ got :: hs => now ++ sound size code (flat_map code (block size got)) now hs
  | Missed :: hs => now ++ sound size code next now hs
  end.
