(** What mixing and volume changes should do. *)
From Coq Require Import ZArith List Bool.
From Verif Require Import MixModel.
Import ListNotations.
Open Scope Z_scope.

Definition sample (x : Z) : Prop := -32768 <= x <= 32767.
Definition clip16 (x : Z) : Z := Z.max (-32768) (Z.min 32767 x).
(** Sum of the i-th samples of the streams. *)
Fixpoint total (streams : list (list Z)) (i : nat) : Z :=
  match streams with [] => 0 | s :: ss => nth i s 0 + total ss i end.
(** The loudness is a running average: each sample's magnitude is added and a 256th part is
    taken off; the sum is scaled by volume / (square root of the loudness + 100), rounded
    towards zero and clipped. *)
Definition louder (l v : Z) : Z := (l + Z.abs v) * 255 / 256.
Fixpoint mixed (volume l : Z) (vs : list Z) : list Z :=
  match vs with
  | [] => []
  | v :: vs => let l := louder l v in
               clip16 (Z.sgn (v * volume) * (Z.abs (v * volume) / (Z.sqrt l + 100))) :: mixed volume l vs
  end.
(** Volume after k samples on the way from c to t with s per sample. *)
Definition volume_after (c t s : Z) (k : nat) : Z :=
  if c <=? t then Z.min t (c + Z.of_nat k * s) else Z.max t (c - Z.of_nat k * s).
Definition scaled_by (x g : Z) : Z := clip16 (x * g / 16384).
Fixpoint ramped (c t s : Z) (k : nat) (xs : list Z) : list Z :=
  match xs with [] => [] | x :: xs => scaled_by x (volume_after c t s k) :: ramped c t s (S k) xs end.
(** Reading block after block: what was delivered, and whether some block stopped the stream. *)
Fixpoint blocks (o : overlay) (bs : list (list Z)) : option (overlay * list (list Z * bool)) :=
  match bs with
  | [] => Some (o, [])
  | b :: bs => match ov_read o b with
               | None => None
               | Some (o, ys, stop) => match blocks o bs with None => None | Some (o, r) => Some (o, (ys, stop) :: r) end
               end
  end.
