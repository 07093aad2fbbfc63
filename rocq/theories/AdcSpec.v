(** What readers of one converter may rely on. *)
From Coq Require Import ZArith List Bool.
From Verif Require Import AdcModel.
Import ListNotations.

(** Nobody reads. *)
Definition free (s : adc) : Prop :=
  busy s = false /\ converting s = false /\ eoc s = false /\ current s = None /\
  forall j, pc (readers s j) = Begin \/ pc (readers s j) = Ended.

(** Reader [k] has started and has not got its value. *)
Definition pending (s : adc) (k : nat) : Prop :=
  pc (readers s k) = First \/ pc (readers s k) = Second.

(** Readers ask whether they are done only after they have started. *)
Fixpoint proper (s : adc) (ops : list op) : Prop :=
  match ops with
  | [] => True
  | o :: ops =>
      (match o with ODone k => pc (readers s k) <> Begin | _ => True end) /\
      (forall s' b, step s o = Some (s', b) -> proper s' ops)
  end.

(** All steps in turn; None is the use of a null pointer. *)
Fixpoint run (s : adc) (ops : list op) : option adc :=
  match ops with
  | [] => Some s
  | o :: ops => match step s o with Some (s', _) => run s' ops | None => None end
  end.

(** [x] is what channel [c] measured at the end of one of these conversions. *)
Definition measured (c x : Z) (ops : list op) : Prop :=
  exists volts, In (OTick volts) ops /\ x = volts c.
