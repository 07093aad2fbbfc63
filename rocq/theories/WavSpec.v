(** What playing a sound file should sound like, independent of the player. *)
From Coq Require Import ZArith List Bool.
From Verif Require Import WavModel.
Import ListNotations.
Open Scope Z_scope.

Definition le2 (n : Z) : list Z := [n mod 256; n / 256].
Definition le4 (n : Z) : list Z := [n mod 256; n / 256 mod 256; n / 65536 mod 256; n / 16777216].
Definition isbyte (b : Z) : Prop := 0 <= b <= 255.
Record format := Format { fm_channels : Z; fm_rate : Z; fm_bits : Z }.
Definition format_ok (m : format) : Prop :=
  (fm_channels m = 1 \/ fm_channels m = 2) /\ (fm_rate m = 44100 \/ fm_rate m = 22050 \/ fm_rate m = 11025) /\ (fm_bits m = 8 \/ fm_bits m = 16).

(** Sequence of chunks: an identifier, a length, contents.  No padding (see the finding). *)
Definition RIFF : list Z := [82; 73; 70; 70].
Definition WAVE : list Z := [87; 65; 86; 69].
Definition FMT : list Z := [102; 109; 116; 32].
Definition DATA : list Z := [100; 97; 116; 97].
Definition chunk (id body : list Z) : list Z := id ++ le4 (Z.of_nat (length body)) ++ body.
Definition small (l : list Z) : Prop := Z.of_nat (length l) < 2147483648.
(** Chunks other than [id] *)
Inductive others (id : list Z) : list Z -> Prop :=
| O_nil : others id []
| O_cons i b l : length i = 4%nat -> Forall isbyte i -> i <> id -> small b -> others id l -> others id (chunk i b ++ l).
(** The audio data in the chunks behind the fmt chunk; the last data chunk may be cut off,
    and up to seven bytes at the end are ignored. *)
Inductive chunks : list Z -> list Z -> Prop :=
| K_end l : (length l < 8)%nat -> chunks l []
| K_other i b l d : length i = 4%nat -> Forall isbyte i -> i <> DATA -> small b -> chunks l d -> chunks (chunk i b ++ l) d
| K_data b l d : small b -> chunks l d -> chunks (chunk DATA b ++ l) (b ++ d)
| K_cut n b : Z.of_nat (length b) < n < 4294967296 -> chunks (DATA ++ le4 n ++ b) b.
(** A file with its format and audio data. *)
Inductive holds : wfile -> format -> list Z -> Prop :=
| H_raw l : Forall isbyte l -> small l -> holds (WFile false l) (Format 1 44100 16) l
| H_wav m n4 before b6 extra l d :
    format_ok m -> length n4 = 4%nat -> others FMT before -> length b6 = 6%nat ->
    let body := le2 1 ++ le2 (fm_channels m) ++ le4 (fm_rate m) ++ b6 ++ le2 (fm_bits m) ++ extra in
    let bytes := RIFF ++ n4 ++ WAVE ++ before ++ chunk FMT body ++ l in
    chunks l d -> Forall isbyte bytes -> small bytes ->
    holds (WFile true bytes) m d.

(** Frames: one value per channel; two channels are averaged, rounding down. *)
Definition value (m : format) (d : nat -> Z) (i : nat) : Z :=
  if fm_bits m =? 8 then (d i - 128) * 256
  else let x := d (2 * i)%nat + 256 * d (2 * i + 1)%nat in if x <? 32768 then x else x - 65536.
Definition frame (m : format) (d : nat -> Z) : Z :=
  if fm_channels m =? 1 then value m d 0 else (value m d 0 + value m d 1) / 2.
Definition frame_bytes (m : format) : nat := Z.to_nat (fm_channels m * fm_bits m / 8).
(** The frames that are played: all that are followed by at least one more byte. *)
Definition samples (m : format) (d : list Z) : list Z :=
  map (fun i => frame m (fun j => nth (i * frame_bytes m + j) d 0)) (seq 0 ((length d - 1) / frame_bytes m)).

(** Doubling the rate: after three earlier samples a, b, c and a new one x, a sample between b
    and c is computed and c follows it.  The sum is a 32-bit int. *)
Definition history : Type := Z * Z * Z.
Definition wrapped (x : Z) : Z := (x + 2147483648) mod 4294967296 - 2147483648.
Definition clip (x : Z) : Z := Z.max (-32768) (Z.min 32767 x).
Definition blend (a b c x : Z) : Z := clip (wrapped (24757 * (b + c) - 8191 * (a + x)) / 32768).
Fixpoint twice (h : history) (l : list Z) : list Z * history :=
  match l with
  | [] => ([], h)
  | x :: l => let '(a, b, c) := h in let '(o, h') := twice (b, c, x) l in (blend a b c x :: c :: o, h')
  end.
(** To 44100 samples per second; [h2] and [h4] are left over from the previous file. *)
Definition resample (rate : Z) (h : history * history) (l : list Z) : list Z * (history * history) :=
  let '(h2, h4) := h in
  if rate =? 44100 then (l, h)
  else if rate =? 22050 then let '(o, h2) := twice h2 l in (o, (h2, h4))
  else let '(o, h4) := twice h4 l in let '(o, h2) := twice h2 o in (o, (h2, h4)).
Fixpoint sound (h : history * history) (l : list (format * list Z)) : list Z :=
  match l with
  | [] => []
  | (m, d) :: l => let '(o, h) := resample (fm_rate m) h (samples m d) in o ++ sound h l
  end.
(** The upsampler's memory of the previous file. *)
Definition is16 (x : Z) : Prop := -32768 <= x <= 32767.
Definition quad_ok (q : quad) : Prop := let '(a, b, c, d) := q in is16 a /\ is16 b /\ is16 c /\ is16 d.
Definition hist (q : quad) : history := let '(a, b, c, d) := q in (b, c, d).
(** Files that follow, with their formats and data. *)
Definition queued (q : list wfile) (l : list (format * list Z)) : Prop := Forall2 (fun f md => holds f (fst md) (snd md)) q l.
(** The player has nothing left to play. *)
Definition silent (p : player) : Prop := pc p = Top /\ run_ p = false /\ queue p = [].
