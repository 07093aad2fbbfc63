(** The nearest resistor, and which blades should be active. *)
From Coq Require Import ZArith QArith Qabs List Bool.
From Verif Require Import Machine IdentModel.
Import ListNotations.
Open Scope Z_scope.

(** How far a measured resistor is from a configured one *)
Definition off (r : Q) (o : Z) : Q := Qabs (r - inject_Z o).
Definition ohm_at (cs : list config) (i : nat) (o : Z) : Prop := exists c, nth_error cs i = Some c /\ ohm c = o.
(** [i] is the first of those nearest to [r] *)
Definition nearest (cs : list config) (r : Q) (i : nat) : Prop :=
  exists o, ohm_at cs i o /\ forall j o', ohm_at cs j o' -> (off r o <= off r o')%Q /\ ((j < i)%nat -> (off r o < off r o')%Q).
(** Resistors of blades are up to 40 megaohms; configurations for an empty saber have a billion more. *)
Definition plausible (o : Z) : Prop := 0 <= o <= 40000000.
Definition blade_kind (o : Z) : Prop := plausible o.
Definition empty_kind (o : Z) : Prop := plausible (o - 1000000000).
(** What a pin with a pullup resistor [p] reads when a resistor [r] pulls it down: 1024 steps *)
Definition adc (p r : Q) (x : Z) : Prop := (inject_Z x * (r + p) <= inject_Z 1024 * r)%Q /\ (inject_Z 1024 * r < inject_Z (x + 1) * (r + p))%Q.

(** Some configuration is near what is measured *)
Definition nearby (pin : bool) (cs : list config) (d : bool) (r : Q) : Prop :=
  exists i o, ohm_at cs i o /\ (off (if pin && negb d then r + inject_Z 1000000000 else r) o < inject_Z 100000000)%Q.
(** The configuration for a blade of [r] ohms, if [d] says whether one is detected: the nearest, or the first if none is near *)
Definition right_config (pin : bool) (cs : list config) (d : bool) (r : Q) (i : nat) : Prop :=
  (nearby pin cs d r -> nearest cs (if pin && negb d then r + inject_Z 1000000000 else r)%Q i) /\ (~ nearby pin cs d r -> i = 0%nat).

Section Histories.
Variable pin : bool.
Variable cs : list config.
Variable scan_millis : Z.
Definition after (t : Z) (d : bool) (r : Q) (ops : list op) : state :=
  run (fun s o => fst (step pin cs scan_millis s o)) (fst (boot pin cs t d r)) ops.
Definition events (s : state) (o : op) : list event := snd (step pin cs scan_millis s o).
Definition next (s : state) (o : op) : state := fst (step pin cs scan_millis s o).
End Histories.
(** No blade is missing, and something is near whatever is measured *)
Definition no_null (cs : list config) : Prop := forall c, In c cs -> ~ In None (blades c).
Definition in_config (cs : list config) (i b : nat) : Prop := exists c, nth_error cs i = Some c /\ In (Some b) (blades c).
(** Whether a blade is detected after these operations, by the last report *)
Fixpoint detect_now (d : bool) (ops : list op) : bool :=
  match ops with [] => d | Detected on _ :: ops => detect_now on ops | _ :: ops => detect_now d ops end.
Definition is_poll (o : op) : bool := match o with Poll _ => true | _ => false end.
Definition is_scan (o : op) : bool := match o with Scan _ => true | _ => false end.
(** A scan since the last call of the loop function found another configuration than the current one. *)
Definition found_other pin cs n (t : Z) (d : bool) (r0 : Q) (ops : list op) : Prop :=
  exists a r b j, ops = a ++ Scan r :: b /\ Forall (fun o => is_poll o = false) b /\
    events pin cs n (after pin cs n t d r0 a) (Scan r) = [Scanned] /\
    right_config pin cs (detect_now d a) r j /\ current (after pin cs n t d r0 a) <> Some j.
