(** Ring buffers: common/circular_buffer.h, sound/buffered_audio_stream.h,
    sound/sound_queue.h, common/box_filter.h. *)
From Coq Require Import ZArith List Bool.
Import ListNotations.
Open Scope Z_scope.

Definition W : Z := 2 ^ 32. (* size_t is 32 bits on the boards *)
Definition upd (m : Z -> Z) (i x : Z) : Z -> Z := fun j => if j =? i then x else m j.
(** memcpy-like write of [xs] at [i]. *)
Fixpoint write_at (m : Z -> Z) (i : Z) (xs : list Z) : Z -> Z :=
  match xs with [] => m | x :: xs => write_at (upd m i x) (i + 1) xs end.
(** read [n] elements from [i]. *)
Fixpoint read_at (m : Z -> Z) (i : Z) (n : nat) : list Z :=
  match n with O => [] | S n => m i :: read_at m (i + 1) n end.

(** circular_buffer.h:38-41 members; the element type is any type represented by Z. *)
Record ring := Ring { data : Z -> Z; first : Z; last : Z }.
Section Circular.
  Variable SIZE : Z.
  (** circular_buffer.h:16 size *)
  Definition size (r : ring) : Z := (first r - last r) mod W.
  (** circular_buffer.h:18 space_available *)
  Definition space_available (r : ring) : Z := (SIZE - size r) mod W.
  (** circular_buffer.h:19-21 continuous_space *)
  Definition continuous_space (r : ring) : Z := Z.min (space_available r) (SIZE - first r mod SIZE).
  (** circular_buffer.h:22-24 continuous_data *)
  Definition continuous_data (r : ring) : Z := Z.min (size r) (SIZE - last r mod SIZE).
  (** circular_buffer.h:27 push(elements) *)
  Definition push (r : ring) (n : Z) : ring := Ring (data r) ((first r + n) mod W) (last r).
  (** circular_buffer.h:33 pop(elements) *)
  Definition pop (r : ring) (n : Z) : ring := Ring (data r) (first r) ((last r + n) mod W).

  (** How clients use it (display/layer_controller.h, display/rgb565frame.h, sound/beeper.h):
      fill the contiguous free space at space() and push what was stored; consume from
      data() and pop; single elements through next()/push() and current()/pop(). *)
  Inductive ring_op :=
  | Fill (xs : list Z)      (* copy as many of xs as fit in continuous_space() to space(), push(k) *)
  | Take (n : nat)          (* use up to n elements of continuous_data() at data(), pop(k) *)
  | PutOne (x : Z)          (* if (space_available()) { next() = x; push(); } *)
  | PopOne                  (* if (!empty()) pop() *)
  | Size.
  Inductive ring_out := Accepted (k : nat) | Delivered (xs : list Z) | Count (n : Z).
  Definition ring_step (r : ring) (o : ring_op) : ring * ring_out :=
    match o with
    | Fill xs =>
      let k := Nat.min (length xs) (Z.to_nat (continuous_space r)) in
      (push (Ring (write_at (data r) (first r mod SIZE) (firstn k xs)) (first r) (last r)) (Z.of_nat k), Accepted k)
    | Take n =>
      let k := Nat.min n (Z.to_nat (continuous_data r)) in
      (pop r (Z.of_nat k), Delivered (read_at (data r) (last r mod SIZE) k))
    | PutOne x =>
      if space_available r =? 0 then (r, Accepted 0)
      else (push (Ring (upd (data r) (first r mod SIZE) x) (first r) (last r)) 1, Accepted 1)
    | PopOne =>
      if size r =? 0 then (r, Delivered [])
      else (pop r 1, Delivered [data r (last r mod SIZE)])
    | Size => (r, Count (size r))
    end.
End Circular.

(** ** BufferedAudioStream: the producer FillBuffer and the consumer read interleaved
    at the level of single memory accesses. *)
Inductive producer :=
| PIdle
| PFilling (end_pos to_read : Z) (got : Z).   (* inside stream_->read(buffer_ + end_pos, to_read) *)
Inductive consumer :=
| CIdle
| CCopying (start_pos to_copy : Z) (done : Z). (* inside the memcpy *)
Record astream := AStream { buffer : Z -> Z; buf_start : Z; buf_end : Z; prod : producer; cons : consumer }.
Inductive sched :=
| PBegin            (* buffered_audio_stream.h:77-80: compute space, end_pos, to_read *)
| PSample (x : Z)   (* line 81: the source stores one more sample *)
| PEnd              (* line 81 returns got; line 89 buf_end_ += got *)
| CBegin (want : Z) (* lines 31-35: compute to_copy and start_pos for a request of want *)
| CSample           (* line 36: one element of the memcpy *)
| CEnd.             (* line 38: buf_start_ += to_copy *)
Inductive saw := Stored (x : Z) | Received (x : Z) | Quiet.
(** buffered_audio_stream.h:24-45 and 74-93.  Simplifications: the end-of-file flag and a
    missing stream (which only make FillBuffer do nothing) are not modelled; [x & (N-1)]
    is [x mod N] for N a power of two. *)
Definition astream_step (N : Z) (s : astream) (e : sched) : astream * saw :=
  let buffered := (buf_end s - buf_start s) mod W in
  match e, prod s, cons s with
  | PBegin, PIdle, _ =>
    let space := (N - buffered) mod W in
    if space =? 0 then (s, Quiet)
    else
      let end_pos := buf_end s mod N in
      (AStream (buffer s) (buf_start s) (buf_end s) (PFilling end_pos (Z.min space (N - end_pos)) 0) (cons s), Quiet)
  | PSample x, PFilling end_pos to_read got, _ =>
    if got <? to_read then
      (AStream (upd (buffer s) (end_pos + got) x) (buf_start s) (buf_end s) (PFilling end_pos to_read (got + 1)) (cons s), Stored x)
    else (s, Quiet)
  | PEnd, PFilling _ _ got, _ =>
    (AStream (buffer s) (buf_start s) ((buf_end s + got) mod W) PIdle (cons s), Quiet)
  | CBegin want, _, CIdle =>
    if (buffered =? 0) || (want <=? 0) then (s, Quiet)
    else
      let start_pos := buf_start s mod N in
      (AStream (buffer s) (buf_start s) (buf_end s) (prod s)
         (CCopying start_pos (Z.min (Z.min buffered want) (N - start_pos)) 0), Quiet)
  | CSample, _, CCopying start_pos to_copy done =>
    if done <? to_copy then
      (AStream (buffer s) (buf_start s) (buf_end s) (prod s) (CCopying start_pos to_copy (done + 1)),
       Received (buffer s (start_pos + done)))
    else (s, Quiet)
  | CEnd, _, CCopying _ to_copy done =>
    if done =? to_copy then (AStream (buffer s) ((buf_start s + to_copy) mod W) (buf_end s) (prod s) CIdle, Quiet)
    else (s, Quiet)
  | _, _, _ => (s, Quiet)
  end.
Definition astream_start (b : Z -> Z) (pos : Z) : astream := AStream b pos pos PIdle CIdle.

(** ** SoundQueue *)
(** sound_queue.h:93-97; [player] is whether a wav player is held.  Sounds are numbers. *)
Record squeue := SQueue { sounds : Z; queue : Z -> Z; player : bool; fade : bool; busy : bool }.
Inductive sq_op :=
| Play (x : Z)                    (* Play(SoundToPlay) *)
| Poll (playing free : bool)      (* PollSoundQueue; playing: isPlaying() of the held player; free: GetFreeWavPlayer() finds one *)
| Fadeout.                        (* fadeout(len) *)
Inductive sq_out := Queued (ok : bool) | Nothing | Started (x : Z) | Fading | Freed.
(** sound_queue.h:73 for (int i = 0; i < sounds_; i++) queue_[i] = queue_[i+1]; *)
Fixpoint shift (n : nat) (i : Z) (q : Z -> Z) : Z -> Z :=
  match n with O => q | S n => shift n (i + 1) (upd q i (q (i + 1))) end.
(** sound_queue.h:43-82 *)
Definition sq_step (QueueLength : Z) (s : squeue) (o : sq_op) : squeue * sq_out :=
  match o with
  | Play x =>
    if sounds s <? QueueLength
    then (SQueue (sounds s + 1) (upd (queue s) (sounds s) x) (player s) (fade s) (busy s), Queued true)
    else (s, Queued false)
  | Poll playing free =>
    let b := player s && playing in
    if b then (SQueue (sounds s) (queue s) (player s) false true, if fade s then Fading else Nothing)
    else if negb (sounds s =? 0) then
      if negb (player s) && negb free then (SQueue (sounds s) (queue s) false false true, Nothing)
      else
        let n := sounds s - 1 in
        (SQueue n (shift (Z.to_nat n) 0 (queue s)) true false true, Started (queue s 0))
    else (SQueue (sounds s) (queue s) false false false, if player s then Freed else Nothing)
  | Fadeout => (SQueue 0 (queue s) (player s) true (busy s), Nothing)
  end.
Definition sq_start (q : Z -> Z) : squeue := SQueue 0 q false false false.

(** ** BoxFilter (N >= 3, the general template) *)
Record boxf := BoxF { bdata : Z -> Z; bpos : Z }.
(** box_filter.h:12-16 push *)
Definition bpush (N : Z) (b : boxf) (v : Z) : boxf :=
  let p := bpos b + 1 in BoxF (upd (bdata b) (bpos b) v) (if p =? N then 0 else p).
(** box_filter.h:17-23 get, before the division by N; elements are numbers, whose sum is
    taken without overflow (the instances filter Vec3 floats). *)
Definition bsum (N : nat) (b : boxf) : Z := fold_left Z.add (read_at (bdata b) 1 (N - 1)) (bdata b 0).
(** box_filter.h:7-11 clear: starts at index 1 *)
Definition bclear (N : nat) (b : boxf) (v : Z) : boxf := BoxF (write_at (bdata b) 1 (repeat v (N - 1))) (bpos b).
