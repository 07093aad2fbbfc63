(** What a low battery is, and when it is to be noticed. *)
From Coq Require Import ZArith QArith List Bool.
From Verif Require Import Machine BattModel.
Import ListNotations.
Open Scope Z_scope.

Definition after (v : Q) (t : Z) (ops : list op) : state := run step (state0 v t) ops.
(** Time goes forward; the averaging weight is between 0 and 1. *)
Definition sane (ops : list op) : Prop :=
  Forall (fun o => match o with Tick t => 0 <= t | Monitor_ _ _ _ mul _ => (0 <= mul <= 1)%Q | _ => True end) ops.
(** All voltages read are from lo to hi. *)
Definition reads_within (lo hi : Q) (ops : list op) : Prop :=
  Forall (fun o => match o with Monitor_ _ _ v _ _ => (lo <= v <= hi)%Q | _ => True end) ops.
(** A reading that counts as low: there is a battery, no computer, and less than 3.0 V, or 2.6 V under load. *)
Definition low_reading (r : reading) : Prop :=
  usb r = false /\ (1 # 2 <= shown r)%Q /\ (shown r < if load r then 13 # 5 else 3)%Q.
(** Times in a list, newest first, are at least d apart. *)
Fixpoint apart (d : Z) (l : list Z) : Prop :=
  match l with
  | a :: (b :: _) as l' => b + d <= a /\ apart d l'
  | _ => True
  end.
(** Operations that neither call the monitor's loop function nor switch its pin *)
Definition elsewhere (o : op) : Prop := match o with Monitor_ _ _ _ _ _ | Pin _ => False | _ => True end.
(** Only blade [i] is ever mentioned. *)
Definition only_blade (i : nat) (o : op) : Prop := match o with BOn j | BEffect j | BOff j => j = i | _ => True end.
