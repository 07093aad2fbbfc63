(** What menus must do. *)
From Coq Require Import ZArith List Bool PeanoNat.
From Verif Require Import ModeModel.
Import ListNotations.
Open Scope Z_scope.

(** Modes nest: the stack of modes, innermost first. *)
Definition stack_step (s : list nat) (o : mode_op) : list nat * list call :=
  match o, s with
  | Push m, _ => (m :: s, [Activate m false])
  | Pop, m :: p :: s => (p :: s, [Deactivate m; Activate p true])
  | Pop, _ => (s, [])
  end.
(** Allowed: a mode is entered only if it is not already active, and the outermost is not left. *)
Definition stack_allowed (s : list nat) (o : mode_op) : Prop :=
  match o with Push m => ~ In m s | Pop => (2 <= length s)%nat end.
Fixpoint stack_all_allowed (s : list nat) (os : list mode_op) : Prop :=
  match os with [] => True | o :: os => stack_allowed s o /\ stack_all_allowed (fst (stack_step s o)) os end.

(** How far a sequence of turns goes. *)
Fixpoint turned (ts : list turn) : Z :=
  match ts with [] => 0 | Next :: ts => 1 + turned ts | Prev :: ts => turned ts - 1 end.

(** The menu laid out: each entry once for each of its positions, numbered from 0. *)
Definition layout (l : list entry) : list (nat * nat) :=
  concat (map (fun e => map (fun i => (name e, i)) (seq 0 (size e))) l).
