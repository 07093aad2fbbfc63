(** What C140 and C141 speak of, without the code. *)
From Coq Require Import List ZArith.
From Verif Require Import ColorModel.
Import ListNotations.
Local Open Scope Z_scope.

(** A 32 bit number read as signed. *)
Definition signed (v : Z) : Z := if v <? 2 ^ 31 then v else v - 2 ^ 32.

(** The alternative a variation stands for when there are [n]. *)
Definition stands_for (v n : Z) : Z := signed v mod n.

(** A dimmed channel: [d] of 16384, rounded down. *)
Definition dim_channel (d x : Z) : Z := x * d / 16384.

Definition channels_ok (c : color) : Prop :=
  0 <= r c <= 65535 /\ 0 <= g c <= 65535 /\ 0 <= b c <= 65535.

Definition black : color := Color 0 0 0.
Definition primary (c : color) : Prop :=
  c = Color 65535 0 0 \/ c = Color 0 65535 0 \/ c = Color 0 0 65535.
