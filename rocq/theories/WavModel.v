(** Playing .wav and .raw files: sound/playwav.h. *)
From Coq Require Import ZArith List Bool.
From Verif Require Import Machine ArithModel SoundModel.
Import ListNotations.
Open Scope Z_scope.

(** A file as PlayWav sees it: whether its name ends in .wav, and its bytes. *)
Record wfile := WFile { f_wav : bool; f_bytes : list Z }.
(** common/file_reader.h:189-192 Read: the bytes at a position, fewer at the end. *)
Definition bytes_at (f : wfile) (pos n : Z) : list Z := firstn (Z.to_nat n) (skipn (Z.to_nat pos) (f_bytes f)).
Definition size (f : wfile) : Z := Z.of_nat (length (f_bytes f)).
(** common/file_reader.h:273 Skip: the length is turned into a signed int; seeking beyond the
    end stops at the end (as FatFS does for files opened for reading). *)
Definition to_int (n : Z) : Z := (n + 2147483648) mod 4294967296 - 2147483648.
Definition skip (f : wfile) (pos n : Z) : Z := Z.min (size f) ((pos + to_int n) mod 4294967296).
(** common/file_reader.h:262-272 AlignRead, for files on an SD card. *)
Definition AlignRead (pos n : Z) : Z := Z.min n ((pos + 512) / 512 * 512 - pos).

(** playwav.h:128-130 header(n), little endian. *)
Definition le_word (l : list Z) (i : nat) : Z := nth i l 0 + 256 * nth (i + 1) l 0 + 65536 * nth (i + 2) l 0 + 16777216 * nth (i + 3) l 0.
Definition header (l : list Z) (n : nat) : Z := le_word l (4 * n).

(** playwav.h:13-35 the last four samples given to an upsampler. *)
Definition quad : Type := Z * Z * Z * Z.
Definition shift (q : quad) (x : Z) : quad := let '(a, b, c, d) := q in (b, c, d, x).
(** playwav.h:20-23; the sum is an int and may wrap. *)
Definition between (q : quad) : Z :=
  let '(a, b, c, d) := q in clamptoi16 (to_int (a * -8191 + b * 24757 + c * 24757 + d * -8191) / 32768).
Definition third (q : quad) : Z := let '(a, b, c, d) := q in c.

(** The part of the player that decoding changes: samples_[0..num_samples_) and upsamplers. *)
Record emitter := Emitter { em_out : list Z; em_2 : quad; em_4 : quad }.
(** playwav.h:121-123 Emit1; samples_ has room for 32: one more is an overrun (None). *)
Definition Emit1 (e : emitter) (x : Z) : option emitter :=
  if 32 <=? Z.of_nat (length (em_out e)) then None else Some (Emitter (em_out e ++ [wrap16 x]) (em_2 e) (em_4 e)).
Definition bind {A B} (o : option A) (k : A -> option B) : option B := match o with Some x => k x | None => None end.
(** playwav.h:124 Emit2 *)
Definition Emit2 (e : emitter) (x : Z) : option emitter :=
  let q := shift (em_2 e) (wrap16 x) in
  bind (Emit1 (Emitter (em_out e) q (em_4 e)) (between q)) (fun e => Emit1 e (third q)).
(** playwav.h:125 Emit4 *)
Definition Emit4 (e : emitter) (x : Z) : option emitter :=
  let q := shift (em_4 e) (wrap16 x) in
  bind (Emit2 (Emitter (em_out e) (em_2 e) q) (between q)) (fun e => Emit2 e (third q)).
Definition emit (rate : Z) : emitter -> Z -> option emitter :=
  if rate =? 44100 then Emit1 else if rate =? 22050 then Emit2 else Emit4.

(** playwav.h:132-138 read2, for 8 and 16 bits: the value and the bytes behind it. *)
Definition read2 (bits : Z) (p : list Z) : Z * list Z :=
  if bits =? 8 then (nth 0 p 0 * 256 - 32768, skipn 1 p)
  else (wrap16 (nth 0 p 0 + 256 * nth 1 p 0), skipn 2 p).
(** playwav.h:152-159 one frame *)
Definition read_frame (bits channels : Z) (p : list Z) : Z * list Z :=
  let '(v, p) := read2 bits p in
  if channels =? 1 then (v, p) else let '(w, p) := read2 bits p in ((v + w) / 2, p).
(** playwav.h:148-172 DecodeBytes4: while there is more than a frame and room. *)
Fixpoint DecodeBytes4 (fuel : nat) (bits channels rate : Z) (p : list Z) (e : emitter) : option (list Z * emitter) :=
  match fuel with
  | O => Some (p, e)
  | S fuel =>
    if (channels * bits / 8 <? Z.of_nat (length p)) && (Z.of_nat (length (em_out e)) <? 32) then
      let '(v, p) := read_frame bits channels p in
      bind (emit rate e v) (DecodeBytes4 fuel bits channels rate p)
    else Some (p, e)
  end.
(** playwav.h:174-199: the supported formats. *)
Definition supported (bits channels rate : Z) : bool :=
  ((bits =? 8) || (bits =? 16)) && ((channels =? 1) || (channels =? 2)) &&
  ((rate =? 44100) || (rate =? 22050) || (rate =? 11025)).

(** Where loop() is (playwav.h:206-354). *)
Inductive where_ :=
| Top       (* 209-228 waiting, or about to open a file *)
| Opened    (* 229 after the YIELD behind OpenFast *)
| Chunk     (* 289-299 looking for a data chunk *)
| Data      (* 311 while (len_) *)
| Decode    (* 319 while (ptr_ < end_ - ...) *)
| Copy.     (* 322 while (written_ < num_samples_) *)
(** [pend] are the bytes from ptr_ to end_; [out] are the samples not yet handed out.
    [queue] are the files that effect_ makes follow.  Simplified: starting at an offset
    (start_ <> 0) is left out; every file exists; opening always yields. *)
Record player := Player {
  pc : where_; run_ : bool; cur : wfile; queue : list wfile; pos : Z;
  channels : Z; rate : Z; bits : Z; len : Z; pend : list Z; em : emitter; nreads : nat }.
Definition at_ (p : player) (w : where_) : player := Player w (run_ p) (cur p) (queue p) (pos p) (channels p) (rate p) (bits p) (len p) (pend p) (em p) (nreads p).
Definition set_pos (p : player) (x : Z) : player := Player (pc p) (run_ p) (cur p) (queue p) x (channels p) (rate p) (bits p) (len p) (pend p) (em p) (nreads p).
Definition set_len (p : player) (x : Z) : player := Player (pc p) (run_ p) (cur p) (queue p) (pos p) (channels p) (rate p) (bits p) x (pend p) (em p) (nreads p).
Definition set_pend (p : player) (x : list Z) : player := Player (pc p) (run_ p) (cur p) (queue p) (pos p) (channels p) (rate p) (bits p) (len p) x (em p) (nreads p).
Definition set_em (p : player) (e : emitter) : player := Player (pc p) (run_ p) (cur p) (queue p) (pos p) (channels p) (rate p) (bits p) (len p) (pend p) e (nreads p).
Definition set_out (p : player) (o : list Z) : player := set_em p (Emitter o (em_2 (em p)) (em_4 (em p))).
Definition set_format (p : player) (c r b : Z) : player := Player (pc p) (run_ p) (cur p) (queue p) (pos p) c r b (len p) (pend p) (em p) (nreads p).
Definition stopped (p : player) : player := Player Top false (cur p) (queue p) (pos p) (channels p) (rate p) (bits p) (len p) (pend p) (em p) (nreads p).
Definition open_next (p : player) (f : wfile) (q : list wfile) : player :=
  Player Opened true f q 0 (channels p) (rate p) (bits p) (len p) (pend p) (em p) (nreads p).

(** playwav.h:243-260 looking for the fmt chunk: position and length of its contents. *)
Fixpoint find_fmt (fuel : nat) (f : wfile) (pos : Z) : option (option (Z * Z)) :=
  match fuel with
  | O => None
  | S fuel =>
    let h := bytes_at f pos 8 in
    if negb (Z.of_nat (length h) =? 8) then Some None else
    let len := header h 1 in
    if negb (header h 0 =? 544501094) then find_fmt fuel f (skip f (pos + 8) len)
    else if len <? 16 then Some None else Some (Some (pos + 8, len))
  end.
(** playwav.h:231-278: channels, rate, bits and position behind the fmt chunk. *)
Definition open_file (fuel : nat) (f : wfile) : option (option (Z * Z * Z * Z)) :=
  if negb (f_wav f) then Some (Some (1, 44100, 16, 0)) else
  let h := bytes_at f 0 12 in
  if negb (Z.of_nat (length h) =? 12) then Some None else
  if negb (header h 0 =? 1179011410) || negb (header h 2 =? 1163280727) then Some None else
  match find_fmt fuel f 12 with
  | None => None
  | Some None => Some None
  | Some (Some (pos, len)) =>
    let h := bytes_at f pos 16 in
    if negb (Z.of_nat (length h) =? 16) then Some None else
    let pos := if 16 <? len then skip f (pos + 16) (len - 16) else pos + 16 in
    if negb (header h 0 mod 65536 =? 1) then Some None else
    Some (Some ((header h 0 / 65536) mod 256, to_int (header h 1), (header h 3 / 65536) mod 256, pos))
  end.

(** One step of loop(): go on, return to the caller (YIELD), never return, or overrun an array. *)
Inductive action := Go (p : player) (written : list Z) (to_read : Z) | Yield (p : player) | Hang | Overrun.
(** [sizes] says how many bytes the i-th read of data delivers; at least one if there are
    any, at most what was asked for. *)
Definition delivered (sizes : nat -> Z) (p : player) : list Z :=
  let n := AlignRead (pos p) (Z.min (len p) 512) in
  bytes_at (cur p) (pos p) (Z.max 1 (Z.min n (sizes (nreads p)))).
Definition wstep (sizes : nat -> Z) (fuel : nat) (p : player) (to_read : Z) : action :=
  match pc p with
  | Top =>
    if run_ p then Yield (open_next p (cur p) (queue p))
    else match queue p with [] => Yield p | f :: q => Yield (open_next p f q) end
  | Opened =>
    match open_file fuel (cur p) with
    | None => Hang
    | Some None => Yield (stopped p)
    | Some (Some (c, r, b, x)) => Go (at_ (set_pend (set_pos (set_format p c r b) x) []) Chunk) [] to_read
    end
  | Chunk =>
    if f_wav (cur p) then
      let h := bytes_at (cur p) (pos p) 8 in
      if negb (Z.of_nat (length h) =? 8) then Go (stopped p) [] to_read else
      let l := header h 1 in
      if negb (header h 0 =? 1635017060) then Go (set_pos p (skip (cur p) (pos p + 8) l)) [] to_read
      else Go (at_ (set_len (set_pos p (pos p + 8)) l) Data) [] to_read
    else if size (cur p) <=? pos p then Go (stopped p) [] to_read
    else Go (at_ (set_len p (size (cur p) - pos p)) Data) [] to_read
  | Data =>
    if len p =? 0 then Yield (at_ p Chunk) else
    let b := delivered sizes p in
    let k := Z.of_nat (length b) in
    if k =? 0 then Yield (at_ p Chunk) else
    Go (Player Decode (run_ p) (cur p) (queue p) (pos p + k) (channels p) (rate p) (bits p) (len p - k) (pend p ++ b) (em p) (S (nreads p))) [] to_read
  | Decode =>
    if channels p * bits p / 8 <? Z.of_nat (length (pend p)) then
      if supported (bits p) (channels p) (rate p) then
        match DecodeBytes4 (length (pend p)) (bits p) (channels p) (rate p) (pend p) (em p) with
        | None => Overrun
        | Some (rest, e) => Go (at_ (set_em (set_pend p rest) e) Copy) [] to_read
        end
      else (* AbortDecodeBytes, 140-146 *)
        Go (at_ (set_len (set_pend (Player Decode (run_ p) (cur p) [] (pos p) (channels p) (rate p) (bits p) (len p) (pend p) (em p) (nreads p)) []) 0) Copy) [] 0
    else (* 334-339: the rest is moved in front of the buffer, where there are 8 bytes *)
      if 8 <? Z.of_nat (length (pend p)) then Overrun else Go (at_ p Data) [] to_read
  | Copy =>
    match em_out (em p) with
    | [] => Go (at_ p Decode) [] to_read
    | o => if to_read =? 0 then Yield p
           else Go (set_out p (skipn (Z.to_nat to_read) o)) (firstn (Z.to_nat to_read) o) (to_read - Z.of_nat (length (firstn (Z.to_nat to_read) o)))
    end
  end.
(** playwav.h:358-364 read; [fuel] bounds the steps of one call. *)
Inductive result := Done (p : player) (samples : list Z) | Hangs | Overruns.
Fixpoint loop (sizes : nat -> Z) (ffuel fuel : nat) (p : player) (to_read : Z) (written : list Z) : result :=
  match fuel with
  | O => Hangs
  | S fuel =>
    match wstep sizes ffuel p to_read with
    | Go p w n => loop sizes ffuel fuel p n (written ++ w)
    | Yield p => Done p written
    | Hang => Hangs
    | Overrun => Overruns
    end
  end.
(** Enough fuel for files in which no chunk length turns negative. *)
Definition file_fuel (f : wfile) : nat := S (length (f_bytes f)).
Definition loop_fuel (p : player) : nat := (6 * (length (f_bytes (cur p)) + length (pend p)) + 20)%nat.
Definition read (sizes : nat -> Z) (p : player) (n : Z) : result := loop sizes (file_fuel (cur p)) (loop_fuel p) p n [].
(** A sequence of calls; the samples each one delivered. *)
Fixpoint reads (sizes : nat -> Z) (p : player) (ns : list Z) : option (player * list (list Z)) :=
  match ns with
  | [] => Some (p, [])
  | n :: ns => match read sizes p n with
               | Done p o => match reads sizes p ns with Some (p, os) => Some (p, o :: os) | None => None end
               | _ => None
               end
  end.
(** playwav.h:69-75 Play and 81-95 PlayOnce on a player that is not playing. *)
Definition play (q2 q4 : quad) (f : wfile) (q : list wfile) : player :=
  Player Top true f q 0 0 0 0 0 [] (Emitter [] q2 q4) 0.
(** playwav.h:109-114 StopFromReader *)
Definition StopFromReader (p : player) : player :=
  Player Top false (cur p) [] (pos p) (channels p) (rate p) (bits p) (len p) (pend p) (Emitter [] (em_2 (em p)) (em_4 (em p))) (nreads p).
