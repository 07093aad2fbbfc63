(** Reading a file: characters come from where the reader is. *)
From Coq Require Import List ZArith.
From Verif Require Import BfrModel.
Import ListNotations.

Fixpoint follows (f : list Z) (p : nat) (o : list seen) : Prop :=
  match o with
  | [] => True
  | Got c :: o => nth_error f p = Some c /\ follows f (S p) o
  | Sought q :: o => follows f q o
  end.
(** Where the reader is afterwards *)
Fixpoint place (p : nat) (o : list seen) : nat :=
  match o with [] => p | Got _ :: o => place (S p) o | Sought q :: o => place q o end.
Definition text (o : list seen) : list Z := concat (map (fun s => match s with Got c => [c] | Sought _ => [] end) o).
Definition no_seek (ss : list step) : Prop := forall p, ~ In (Seek p) ss.
Definition seeks_inside (f : list Z) (ss : list step) : Prop := forall p, In (Seek p) ss -> p <= length f.
(** A reader that has been told which file to open *)
Definition told (b : bfr) : Prop := opening b = true /\ buf b = [].
