(** Specification notions for saved text. *)
From Coq Require Import ZArith List Bool.
From Verif Require Import FileModel.
Import ListNotations.
Open Scope Z_scope.

(** A value as it is expected back: leading spaces (code 32) dropped. *)
Fixpoint drop_spaces (v : list Z) : list Z :=
  match v with c :: v' => if c =? 32 then drop_spaces v' else v | [] => [] end.

(** Bytes of a C string. *)
Definition text (v : list Z) : Prop := Forall (fun c => 0 < c < 256) v.

(** The reader's position is at a character that is not a decimal digit. *)
Definition no_digit (r : list Z) : Prop :=
  match r with [] => True | c :: _ => c < 48 \/ 57 < c end.

(** Value of a digit string. *)
Definition digits_value (ds : list Z) : Z := fold_left (fun a c => 10 * a + (c - 48)) ds 0.
Definition digit_string (ds : list Z) : Prop := ds <> [] /\ Forall (fun c => 48 <= c <= 57) ds.

(** What reading back a saved setting gives: the setting cut to two decimals. *)
Definition two_decimals (d : dec) : dec := Dec ((mant d * 100) / 10 ^ Z.of_nat (places d)) 2.
