(** What a blade of several colors must show. *)
From Coq Require Import ZArith List Bool.
From Verif Require Import ColorModel ColorSpec.
Import ListNotations.
Local Open Scope Z_scope.

Definition count {A} (l : list A) : Z := Z.of_nat (length l).
(** [c] is color number [i]. *)
Definition nth_is {A} (l : list A) (i : Z) (c : A) : Prop := 0 <= i /\ nth_error l (Z.to_nat i) = Some c.
Definition colors_ok (cs : list opaque) : Prop := Forall (fun o => is16 (oc o)) cs.

(** [out] is t/32768 of the way from [a] to [b], rounded down. *)
Definition lerp (t out a b : Z) : Prop :=
  out * 32768 <= a * (32768 - t) + b * t < out * 32768 + 32768.

(** [out] is what is to be seen at position [pos] of the colors [cs], which stand 32768 apart:
    between two colors their mix, and the overdrive flag of the nearer. *)
Definition on_way (cs : list opaque) (pos : Z) (out : opaque) : Prop :=
  exists a b, nth_is cs (pos / 32768) a /\ nth_is cs (Z.min (pos / 32768 + 1) (count cs - 1)) b /\
    each3 (lerp (pos mod 32768)) (oc out) (oc a) (oc b) /\
    o_od out = (if 16384 <? pos mod 32768 then o_od b else o_od a).

(** Clock readings, as real times: the first at or after [t0], each at most [p] after the one
    before. *)
Fixpoint steady (p t0 : Z) (ts : list Z) : Prop :=
  match ts with [] => True | t :: rest => t0 <= t <= t0 + p /\ steady p t rest end.

(** Stripes: a color's part of a channel, at strength w/16384. *)
Definition part (w c : Z) : Z := c * w / 16384.
(** The pattern repeats every 341 * n; color number i fades in over 171 units, starting at
    341 * i, and out over the first 171 of the next color. *)
Definition stripe_shows (sin : Z -> Z) (cs : list color) (p : Z) (out : color) : Prop :=
  exists cur prev,
    nth_is cs (p / 341) cur /\ nth_is cs ((p / 341 - 1) mod count cs) prev /\
    each3 (fun o c d =>
      o = Z.min 65535 (part (sin (p mod 341)) c + (if p mod 341 <? 171 then part (sin (p mod 341 + 341)) d else 0)))
      out cur prev.

(** A frame: when it was run and what the width and speed were then. *)
Record frame := Frame { f_now : Z; f_width : Z; f_speed : Z }.
