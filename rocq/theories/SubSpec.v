(** What sub-blades and dimmed blades must do. *)
From Coq Require Import ZArith List Bool PeanoNat.
From Verif Require Import ColorModel SubModel.
Import ListNotations.
Open Scope Z_scope.

(** A sensible request: pixels first..last of a blade with [n] LEDs; a positive stride; a
    column of the panel; whole rows; whole units of four chips. *)
Definition sensible (k : kind) (first last n : Z) : Prop :=
  0 <= first <= last /\ last < n /\
  match k with
  | KFwd | KRev => True
  | KStride s => 0 < s
  | KZZ s c => 0 < s /\ 0 <= c < s /\ (last + 1 - first) mod s = 0
  | KBar _ => (last + 1 - first) mod 4 = 0
  end.

(** Which pixels of the parent belong to it. The panel of a zig-zag blade has rows of [s]
    pixels, wired right to left and left to right in turn: pixel number p is in row
    (p - first) / s, and in column s-1-x or x with x = (p - first) mod s. *)
Definition zz_column (s first p : Z) : Z :=
  let x := (p - first) mod s in if Z.even ((p - first) / s) then s - 1 - x else x.
Definition owns (k : kind) (first last p : Z) : Prop :=
  first <= p <= last /\
  match k with
  | KFwd | KRev | KBar _ => True
  | KStride s => (p - first) mod s = 0
  | KZZ s c => zz_column s first p = c
  end.

(** The families of sub-blades: those made from one blade, i.e. by a call that names the blade
    and the following calls with NULL. Newest family first; members newest first. [n] counts
    the sub-blades made. *)
Record families := Fam { made : nat; fams : list (nat * list nat) }.
Definition join (leds : nat -> Z) (f : families) (c : call) : families :=
  match cblade c, fams f with
  | Some b, fs => if clast c <? leds b then Fam (S (made f)) ((b, [made f]) :: fs) else Fam (made f) ((b, []) :: fs)
  | None, (b, m :: ms) :: fs => if clast c <? leds b then Fam (S (made f)) ((b, made f :: m :: ms) :: fs) else f
  | None, _ => f
  end.
Definition all_families (leds : nat -> Z) (cs : list call) : families := fold_left (join leds) cs (Fam O []).

(** Which sub-blades are active after some requests. *)
Fixpoint is_active (ops : list op) (w : nat) : bool := (* latest request first *)
  match ops with
  | [] => false
  | Activate x :: ops => if Nat.eqb x w then true else is_active ops w
  | Deactivate x :: ops => if Nat.eqb x w then false else is_active ops w
  end.
(** on, off, on, off, ... *)
Fixpoint alternates (v : bool) (l : list bool) : Prop :=
  match l with [] => True | x :: l => x = v /\ alternates (negb v) l end.
