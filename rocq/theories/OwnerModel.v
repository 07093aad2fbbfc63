(** Model of common/linked_ptr.h: pointers that share an object form a ring; the last one to leave
    frees it.  Pointers are numbered; [None] in the heap is a destroyed (or not yet constructed)
    pointer, and touching one is undefined behaviour: result [None]. *)
From Coq Require Import List Bool PeanoNat.
Import ListNotations.

Record cell := Cell { ptr : option nat;   (* the object, or null *)
                      prev : nat; next : nat }.
Definition heap : Type := nat -> option cell.
Definition put (h : heap) (x : nat) (c : option cell) : heap := fun y => if Nat.eqb y x then c else h y.
Definition set_prev (h : heap) (x v : nat) : option heap := match h x with None => None | Some c => Some (put h x (Some (Cell (ptr c) v (next c)))) end.
Definition set_next (h : heap) (x v : nat) : option heap := match h x with None => None | Some c => Some (put h x (Some (Cell (ptr c) (prev c) v))) end.
(** What Free::Free is called with; null is not worth mentioning. *)
Definition freed (p : option nat) : list nat := match p with None => [] | Some o => [o] end.

(** 35-42 leave *)
Definition leave (h : heap) (x : nat) : option (heap * list nat) :=
  match h x with
  | None => None
  | Some c =>
    if Nat.eqb (next c) x then Some (h, freed (ptr c))
    else match set_prev h (next c) (prev c) with
         | None => None
         | Some h => match set_next h (prev c) (next c) with None => None | Some h => Some (h, []) end
         end
  end.
(** 43-49 join *)
Definition join (h : heap) (x other : nat) : option heap :=
  match h other with
  | None => None
  | Some c =>
    let h := put h x (Some (Cell (ptr c) other (next c))) in
    match set_prev h (next c) x with None => None | Some h => set_next h other x end
  end.

Inductive op :=
| New (x : nat) (p : option nat)     (* 10-11: LinkedPtr(), LinkedPtr(p) *)
| Copy (x y : nat)                   (* 13: LinkedPtr(other) *)
| Assign (x y : nat)                 (* 14-20: x = y *)
| AssignRaw (x : nat) (p : option nat) (* 21-25: x = p *)
| Destroy (x : nat).                 (* 12 *)
Definition step (h : heap) (o : op) : option (heap * list nat) :=
  match o with
  | New x p => Some (put h x (Some (Cell p x x)), [])
  | Copy x y => match join h x y with None => None | Some h => Some (h, []) end
  | Assign x y =>
    if Nat.eqb y x then Some (h, [])
    else match leave h x with
         | None => None
         | Some (h, f) => match join h x y with None => None | Some h => Some (h, f) end
         end
  | AssignRaw x p =>
    match leave h x with
    | None => None
    | Some (h, f) => match h x with None => None | Some c => Some (put h x (Some (Cell p (prev c) (next c))), f) end
    end
  | Destroy x => match leave h x with None => None | Some (h, f) => Some (put h x None, f) end
  end.
(** 27: get() *)
Definition get (h : heap) (x : nat) : option nat := match h x with Some c => ptr c | None => None end.
Definition heap0 : heap := fun _ => None.
(** A history: the heap it leaves and, for each step, the objects freed. *)
Fixpoint play (h : heap) (os : list op) : option (heap * list (list nat)) :=
  match os with
  | [] => Some (h, [])
  | o :: os => match step h o with
               | None => None
               | Some (h, f) => match play h os with None => None | Some (h, fs) => Some (h, f :: fs) end
               end
  end.
