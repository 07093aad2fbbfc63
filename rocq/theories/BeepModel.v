(** Warning beeps: sound/beeper.h. *)
From Coq Require Import ZArith QArith Qround List Bool.
Import ListNotations.
Local Open Scope Z_scope.

(** sound/beeper.h:63-69: the queue of beeps (half a period and a length, both in samples;
    half a period of 0 is silence), oldest first, the rest x_ of the half period being played
    and its value.  The queue is a CircularBuffer of 16 (see BufferModel: a bounded FIFO). *)
Record beeper := Beeper { q : list (Z * Z); x_ : Z; value_ : Z }.

(** beeper.h:11-41 read: the samples it gives and the state it leaves.  [fuel] bounds the
    loop; each round but the last gives a sample, so elements + 1 is enough.  Simplification:
    Beep() does not run in the middle of a read. *)
Fixpoint read (fuel : nat) (b : beeper) (elements : Z) : list Z * beeper :=
  match fuel with
  | O => ([], b)
  | S fuel =>
    match q b with
    | [] => ([], b)
    | (f, samples) :: rest =>
      let s := Z.min elements samples in
      let '(x, v) :=
        if x_ b =? 0 then
          if f =? 0 then (samples, 0)
          else (f, if value_ b <=? 0 then 200 else -200)
        else (x_ b, value_ b) in
      let s := Z.min s x in
      if s <=? 0 then ([], Beeper ((f, samples) :: rest) x v)
      else
        let q' := if samples - s =? 0 then rest else (f, samples - s) :: rest in
        let '(out, b') := read fuel (Beeper q' (x - s) v) (elements - s) in
        (repeat v (Z.to_nat s) ++ out, b')
    end
  end.
Definition Read (b : beeper) (elements : Z) : list Z * beeper :=
  read (Z.to_nat elements + 1) b elements.

(** beeper.h:43-50 Beep (without the amplifier, see AmpModel), for a frequency and a length in
    seconds; common/config: AUDIO_RATE is 44100.  Simplification: floats are rationals. *)
Definition AUDIO_RATE : Z := 44100.
Definition trunc (r : Q) : Z := Z.quot (Qnum r) (Zpos (Qden r)).
Definition half_period (freq : Q) : Z :=
  if Qeq_bool freq 0 then 0 else trunc (inject_Z AUDIO_RATE / freq / 2).
Definition push (b : beeper) (p : Z * Z) : beeper :=
  if Nat.ltb (length (q b)) 16 then Beeper (q b ++ [p]) (x_ b) (value_ b) else b.
Definition Beep (b : beeper) (len freq : Q) : beeper :=
  push b (half_period freq, trunc (inject_Z AUDIO_RATE * len)).
(** beeper.h:51-53 Silence *)
Definition Silence (b : beeper) (len : Q) : beeper := Beep b len 0.
(** beeper.h:55-61 isPlaying, eof *)
Definition isPlaying (b : beeper) : bool := negb (Nat.eqb (length (q b)) 0).
