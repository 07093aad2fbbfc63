(** Mixing and volume: sound/dynamic_mixer.h, click_avoider_lin.h, volume_overlay.h. *)
From Coq Require Import ZArith List Bool.
From Verif Require Import Machine ArithModel.
Import ListNotations.
Open Scope Z_scope.

(** ** sound/dynamic_mixer.h *)
(** dynamic_mixer.h:186-199: vol_ (unsigned 32 bits) and the memory of my_sqrt. *)
Record mixer := Mixer { vol : Z; last_square : Z }.
(** int arithmetic that overflows is an error (None), unless every value fits. *)
Definition int_ok (x : Z) : bool := (-2147483648 <=? x) && (x <=? 2147483647).
(** dynamic_mixer.h:83-93: one sample, from the sum of the streams; [volume] is volume_.
    abs, the product and my_sqrt are int; vol_ is converted to int for my_sqrt. *)
Definition mix_step (volume : Z) (m : mixer) (v : Z) : option (mixer * Z) :=
  if negb (int_ok (- v)) then None else
  let w := (vol m + Z.abs v) mod 4294967296 in
  let w := (w - (w + 255) mod 4294967296 / 256) mod 4294967296 in
  let x := (w + 2147483648) mod 4294967296 - 2147483648 in
  match my_sqrt (last_square m) x with
  | SOk r =>
    if negb (int_ok (v * volume)) then None else
    Some (Mixer w (my_sqrt_last (last_square m) x), clamptoi16 (Z.quot (v * volume) (r + 100)))
  | _ => None
  end.
(** dynamic_mixer.h:80-82: the sum of what the streams delivered, one list per stream; a
    stream that delivered fewer samples adds nothing at the end.  sum[] is int32. *)
Definition sum_at (streams : list (list Z)) (i : nat) : Z := fold_right Z.add 0 (map (fun s => nth i s 0) streams).
Fixpoint mix_all (volume : Z) (m : mixer) (vs : list Z) : option (mixer * list Z) :=
  match vs with
  | [] => Some (m, [])
  | v :: vs => match mix_step volume m v with
               | None => None
               | Some (m, o) => match mix_all volume m vs with None => None | Some (m, os) => Some (m, o :: os) end
               end
  end.
(** dynamic_mixer.h:60-103 read for blocks of at most AUDIO_BUFFER_SIZE samples. *)
Definition mix_block (volume : Z) (m : mixer) (streams : list (list Z)) (elements : nat) : option (mixer * list Z) :=
  mix_all volume m (map (sum_at streams) (seq 0 elements)).

(** ** sound/click_avoider_lin.h:9-36 ClickAvoiderLin; all fields unsigned 32 bits *)
Record ramp := Ramp { current : Z; target : Z; speed : Z }.
Definition advance (r : ramp) : ramp :=
  if current r >? target r then Ramp (current r - Z.min (speed r) (current r - target r)) (target r) (speed r)
  else if current r <? target r then Ramp (current r + Z.min (speed r) (target r - current r)) (target r) (speed r)
  else r.
Definition isConstant (r : ramp) : bool := current r =? target r.

(** ** sound/volume_overlay.h *)
Definition kMaxVolume : Z := 16384.
(** volume_overlay.h:8: 500 * kMaxVolume / AUDIO_RATE *)
Definition kDefaultSpeed : Z := 185.
Record overlay := Overlay { ov_ramp : ramp; stop_when_zero : bool }.
(** One scaled sample; the product is an int32: None if it overflows. *)
Definition scaled (x mult : Z) : option Z :=
  if int_ok (x * mult) then Some (clamptoi16 (x * mult / 16384)) else None.
Fixpoint ramp_samples (r : ramp) (xs : list Z) : option (ramp * list Z) :=
  match xs with
  | [] => Some (r, [])
  | x :: xs => match scaled x (current r) with
               | None => None
               | Some y => match ramp_samples (advance r) xs with None => None | Some (r, ys) => Some (r, y :: ys) end
               end
  end.
Fixpoint const_samples (mult : Z) (xs : list Z) : option (list Z) :=
  match xs with
  | [] => Some []
  | x :: xs => match scaled x mult with
               | None => None
               | Some y => match const_samples mult xs with None => None | Some ys => Some (y :: ys) end
               end
  end.
(** volume_overlay.h:19-47 read: [xs] is what the overlaid stream delivers; the result also
    says whether the stream is stopped. *)
Definition ov_read (o : overlay) (xs : list Z) : option (overlay * list Z * bool) :=
  let r := ov_ramp o in
  if isConstant r then
    if current r =? kMaxVolume then Some (o, xs, false)
    else if current r =? 0 then
      if stop_when_zero o then Some (Overlay (Ramp (current r) (target r) kDefaultSpeed) true, map (fun _ => 0) xs, true)
      else Some (o, map (fun _ => 0) xs, false)
    else match const_samples (current r) xs with None => None | Some ys => Some (o, ys, false) end
  else match ramp_samples r xs with None => None | Some (r, ys) => Some (Overlay r (stop_when_zero o), ys, false) end.
(** volume_overlay.h:54-56 set_volume, 57-60 set_volume_now (set takes 16 bits), 72-74
    set_speed, 85-88 FadeAndStop, 90-92 ResetStopWhenZero, 61-65 reset_volume. *)
Inductive ov_op := ORead (xs : list Z) | OVolume (v : Z) | OVolumeNow (v : Z) | OSpeed (v : Z) | OFadeAndStop | OResetStop | OReset.
Definition ov_set (o : overlay) (p : ov_op) : overlay :=
  let r := ov_ramp o in
  match p with
  | ORead _ => o
  | OVolume v => Overlay (Ramp (current r) v (speed r)) (stop_when_zero o)
  | OVolumeNow v => Overlay (Ramp (v mod 65536) v (speed r)) (stop_when_zero o)
  | OSpeed v => Overlay (Ramp (current r) (target r) v) (stop_when_zero o)
  | OFadeAndStop => Overlay (Ramp (current r) 0 (speed r)) true
  | OResetStop => Overlay r false
  | OReset => Overlay (Ramp 8192 8192 kDefaultSpeed) false
  end.
