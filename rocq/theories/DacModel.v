(** The sound output: sound/dac.h. DMA plays a ring of two halves; its interrupt, at the
    end of each half, fills the half that is not playing. Not modelled: the registers, the
    optional filter and the second outputs. *)
From Coq Require Import ZArith List Bool.
Import ListNotations.
Local Open Scope Z_scope.

(** 676-686: what is written for a sample: one channel, two channels, or the 12-bit
    converter of a Teensy. *)
Definition i2s (x : Z) : list Z := [x].
Definition stereo (x : Z) : list Z := [x; x].
Definition teensy (x : Z) : list Z := [Z.shiftr (x mod 65536 + 32768) 4].

Section Dac.
(** AUDIO_BUFFER_SIZE, CHANNELS and the coding. *)
Variables (size channels : nat) (code : Z -> list Z).

(** 701 dac_dma_buffer; the next word that will be played. *)
Record dac := Dac { buf : list Z; pos : nat }.

(** 371-376, 407-416 begin() *)
Definition begin : dac := Dac (repeat 0 (size * 2 * channels)) 0.

(** 643-648: [got] is what the mixer gives, at most the [size] samples it is asked for. *)
Definition pad (got : list Z) : list Z :=
  firstn size got ++ repeat 0 (size - length (firstn size got)).

(** 596-687 isr *)
Definition isr (s : dac) (got : list Z) : dac :=
  let block := flat_map code (pad got) in
  let dest := (if Nat.ltb (pos s) (length (buf s) / 2) then size * channels else 0)%nat in
  Dac (firstn dest (buf s) ++ block ++ skipn (dest + length block) (buf s)) (pos s).

(** DMA plays a word. *)
Definition play (s : dac) : dac * Z :=
  (Dac (buf s) (if Nat.leb (length (buf s)) (pos s + 1) then 0 else pos s + 1)%nat,
   nth (pos s) (buf s) 0).

Inductive op := Play | Isr (got : list Z).
Definition step (s : dac) (o : op) : dac * list Z :=
  match o with
  | Play => let '(s, x) := play s in (s, [x])
  | Isr got => (isr s got, [])
  end.
(** What is heard. *)
Fixpoint heard (s : dac) (ops : list op) : list Z :=
  match ops with
  | [] => []
  | o :: ops => let '(s, xs) := step s o in xs ++ heard s ops
  end.
End Dac.
