(** What shared pointers must do. *)
From Coq Require Import List Bool PeanoNat.
From Verif Require Import OwnerModel.
Import ListNotations.

(** Who owns what: the live pointers, each with its object and the group of pointers it shares
    with (those made from each other by copying; groups are numbered as they are made). *)
Record owner := Owner { who : nat; group : nat; obj : option nat }.
Record owners := Owners { made : nat; now : list owner }.
Definition find_owner (w : list owner) (x : nat) : option owner := find (fun e => Nat.eqb (who e) x) w.
Definition without (x : nat) (w : list owner) : list owner := filter (fun e => negb (Nat.eqb (who e) x)) w.
Definition owns (w : list owner) (x : nat) : option nat := match find_owner w x with Some e => obj e | None => None end.
Definition live (w : list owner) (x : nat) : Prop := find_owner w x <> None.
Definition owned (w : list owner) (o : nat) : bool := existsb (fun e => match obj e with Some o' => Nat.eqb o' o | None => false end) w.
(** x lets go: its object is freed if nobody else owns it. *)
Definition lets_go (w : list owner) (x : nat) : list nat :=
  match owns w x with None => [] | Some o => if owned (without x w) o then [] else [o] end.
(** x becomes like y. *)
Definition joins (w : list owner) (x y : nat) : list owner :=
  match find_owner w y with None => w | Some e => Owner x (group e) (obj e) :: w end.
Definition spec (w : owners) (o : op) : owners * list nat :=
  match o with
  | New x p => (Owners (S (made w)) (Owner x (made w) p :: now w), [])
  | Copy x y => (Owners (made w) (joins (now w) x y), [])
  | Assign x y => if Nat.eqb y x then (w, []) else (Owners (made w) (joins (without x (now w)) x y), lets_go (now w) x)
  | AssignRaw x p => (Owners (S (made w)) (Owner x (made w) p :: without x (now w)), lets_go (now w) x)
  | Destroy x => (Owners (made w) (without x (now w)), lets_go (now w) x)
  end.
(** Allowed: only live pointers are used, only dead ones constructed, an object is handed over to a
    plain pointer once, and (because of a defect of the code) a pointer is overwritten by a plain
    pointer only while nobody shares with it. *)
Definition sharing (w : list owner) (x : nat) : Prop :=
  exists e f, find_owner w x = Some e /\ In f w /\ who f <> x /\ group f = group e.
Definition fresh (w : list owner) (p : option nat) : Prop := match p with None => True | Some o => owned w o = false end.
Definition allowed (w : list owner) (o : op) : Prop :=
  match o with
  | New x p => ~ live w x /\ fresh w p
  | Copy x y => ~ live w x /\ live w y
  | Assign x y => live w x /\ live w y
  | AssignRaw x p => live w x /\ fresh w p /\ ~ sharing w x
  | Destroy x => live w x
  end.
Definition owners0 : owners := Owners 0 [].
Fixpoint all_allowed (w : owners) (os : list op) : Prop :=
  match os with [] => True | o :: os => allowed (now w) o /\ all_allowed (fst (spec w o)) os end.
(** The objects handed over to plain-pointer constructors and assignments. *)
Definition given1 (o : op) : list nat := match o with New _ (Some p) | AssignRaw _ (Some p) => [p] | _ => [] end.
Definition given (os : list op) : list nat := concat (map given1 os).
