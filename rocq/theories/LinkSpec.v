(** What the list of background tasks must do. *)
From Coq Require Import List Bool PeanoNat.
From Verif Require Import LinkModel.
Import ListNotations.

(** The tasks linked: normal ones (latest first) and high-frequency ones (oldest first). *)
Definition tasks : Type := list nat * list nat.
Definition all (t : tasks) : list nat := fst t ++ snd t.
Definition after_op (t : tasks) (o : op) : tasks :=
  match o with
  | OLink x => (x :: fst t, snd t)
  | OHFLink x => (fst t, snd t ++ [x])
  | OUnlink x => (remove Nat.eq_dec x (fst t), remove Nat.eq_dec x (snd t))
  end.
(** Nothing is linked while it is linked. *)
Definition allowed (objs : nat) (t : tasks) (o : op) : Prop :=
  obj o < objs /\ match o with OLink x | OHFLink x => ~ In x (all t) | OUnlink _ => True end.
Fixpoint all_allowed (objs : nat) (t : tasks) (os : list op) : Prop :=
  match os with [] => True | o :: os => allowed objs t o /\ all_allowed objs (after_op t o) os end.
Definition after_ops (t : tasks) (os : list op) : tasks := fold_left after_op os t.
(** *** A pass over the list while tasks come and go
    What Loop() of a task does when it is called after [calls]: operations on other tasks, and
    then perhaps unlinking itself. *)
Definition behaviour : Type := list nat -> nat -> list op * bool.
Definition body (b : behaviour) (calls : list nat) (x : nat) : list op :=
  fst (b calls x) ++ (if snd (b calls x) then [OUnlink x] else []).
(** The tasks behind x in the list. *)
Fixpoint behind (x : nat) (l : list nat) : list nat :=
  match l with [] => [] | y :: l => if Nat.eqb y x then l else behind x l end.
(** During the pass that goes on with task [cur], every Loop() only does what is allowed. *)
Fixpoint well_behaved (fuel objs : nat) (b : behaviour) (t : tasks) (cur : option nat) (calls : list nat) : Prop :=
  match cur, fuel with
  | Some x, S fuel =>
    all_allowed objs t (body b calls x) /\ Forall (fun o => obj o <> x) (fst (b calls x)) /\
    well_behaved fuel objs b (after_ops t (body b calls x)) (hd_error (behind x (all (after_ops t (fst (b calls x)))))) (x :: calls)
  | _, _ => True
  end.
(** No Loop() links or unlinks task y. *)
Definition untouched (b : behaviour) (y : nat) : Prop := forall calls x o, In o (body b calls x) -> obj o <> y.
Definition no_hf (b : behaviour) : Prop := forall calls x y, ~ In (OHFLink y) (body b calls x).

(** Linked after a history: the last operation on x decides. *)
Fixpoint linked_by (os : list op) (x : nat) (before : Prop) : Prop :=
  match os with
  | [] => before
  | o :: os => linked_by os x (if Nat.eqb (obj o) x then match o with OUnlink _ => False | _ => True end else before)
  end.
