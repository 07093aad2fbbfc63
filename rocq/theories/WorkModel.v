(** Filling the audio buffers: sound/audio_stream_work.h (not ESP32), with the buffers of
    sound/buffered_audio_stream.h. The contents of the buffers are in BufferModel.v; here only how full they are. *)
From Coq Require Import ZArith List Bool.
From Verif Require Import Machine.
Import ListNotations.
Open Scope Z_scope.

(** What the source of a stream answers to the next reads: how many samples it has (at most those asked for are
    given) and whether it is at its end. Afterwards it gives all that is asked for. *)
Definition source := list (Z * bool).
(** buffered_audio_stream.h:94-99. size: N. buf_start_, buf_end_ are size_t, without the wrap at 2^32.
    linked: stream_ is not null. paused: pause_ of buffered_wav_player.h. *)
Record stream := Stream { size : Z; buf_start : Z; buf_end : Z; eof_ : bool; linked : bool; paused : bool; src : source }.
(** buffered_audio_stream.h:58-60 *)
Definition buffered (d : stream) : Z := buf_end d - buf_start d.
(** buffered_audio_stream.h:70-73 *)
Definition real_space_available (d : stream) : Z := if eof_ d || negb (linked d) then 0 else size d - buffered d.
(** buffered_wav_player.h:115-121 *)
Definition space_available (d : stream) : Z :=
  let ret := real_space_available d in
  if paused d && negb (ret =? 0) then 2 else ret.
(** buffered_audio_stream.h:74-93 *)
Definition FillBuffer (d : stream) : stream :=
  if linked d then
    let space := real_space_available d in
    if 0 <? space then
      let end_pos := buf_end d mod size d in
      let to_read := Z.min space (size d - end_pos) in
      let '(got, e, rest) := match src d with [] => (to_read, false, []) | (g, e) :: r => (Z.min g to_read, e, r) end in
      Stream (size d) (buf_start d) (buf_end d + got) (if got =? 0 then e else false) true (paused d) rest
    else d
  else d.
(** buffered_audio_stream.h:24-45: n samples, or as many as there are, are taken. *)
Definition take (n : Z) (d : stream) : stream :=
  Stream (size d) (buf_start d + Z.min n (buffered d)) (buf_end d) (eof_ d) (linked d) (paused d) (src d).

(** audio_stream_work.h:113-118 *)
Definition max_space (l : list stream) : Z := fold_left (fun m d => Z.max m (space_available d)) l 0.
(** audio_stream_work.h:121-126, from stream [k] on. The log gives the filled stream's number and all
    streams just before it is filled. *)
Fixpoint fill_all (m : Z) (done l : list stream) : list stream * list (nat * list stream) :=
  match l with
  | [] => (done, [])
  | d :: l =>
    if m <=? space_available d then
      let '(r, log) := fill_all m (done ++ [FillBuffer d]) l in
      (r, (length done, done ++ d :: l) :: log)
    else fill_all m (done ++ [d]) l
  end.
(** audio_stream_work.h:112-127 *)
Fixpoint rounds (n : nat) (l : list stream) : list stream * list (nat * list stream) :=
  match n with
  | O => (l, [])
  | S n =>
    let m := max_space l in
    if m =? 0 then (l, [])
    else
      let '(l, log) := fill_all m [] l in
      let '(l, log') := rounds n l in (l, log ++ log')
  end.
(** audio_stream_work.h:101-137, not interrupted *)
Definition ProcessAudioStreams (locked : bool) (l : list stream) : list stream * list (nat * list stream) :=
  if locked then (l, []) else rounds 50 l.

(** With interrupts: the audio interrupt may come between any two of the steps of a run. *)
(** Where ProcessAudioStreams is *)
Inductive phase :=
| Idle                               (* not running *)
| Entered                            (* line 101 *)
| Round (i : nat)                    (* line 112 *)
| Filling (i : nat) (m : Z) (k : nat)(* line 121, at stream k *)
| Ending.                            (* line 136, or 104 *)
(** pending: fill_buffers_pending_; queued: how often the routine is in the PendSV queue *)
Record state := State { streams : list stream; sd_locked : bool; pending : bool; queued : nat; where_ : phase }.
Definition upd (f : stream -> stream) (k : nat) (l : list stream) : list stream :=
  firstn k l ++ match skipn k l with [] => [] | d :: r => f d :: r end.
(** audio_stream_work.h:52-69 scheduleFillBuffer; it runs with interrupts off up to the enqueuing. *)
Definition schedule (s : state) : state :=
  if pending s then s else State (streams s) (sd_locked s) true (S (queued s)) (where_ s).
(** One step of ProcessAudioStreams *)
Definition work (s : state) : state :=
  let go l p := State l (sd_locked s) (pending s) (queued s) p in
  match where_ s with
  | Idle => match queued s with O => s | S q => State (streams s) (sd_locked s) (pending s) q Entered end
  | Entered => if sd_locked s then go (streams s) Ending else go (streams s) (Round 0)
  | Round i =>
    if (50 <=? i)%nat then go (streams s) Ending
    else let m := max_space (streams s) in
      if m =? 0 then go (streams s) Ending else go (streams s) (Filling i m 0)
  | Filling i m k =>
    match nth_error (streams s) k with
    | None => go (streams s) (Round (S i))
    | Some d => go (if m <=? space_available d then upd FillBuffer k (streams s) else streams s) (Filling i m (S k))
    end
  | Ending => State (streams s) (sd_locked s) false (queued s) Idle
  end.
(** Request: scheduleFillBuffer(). Take: the audio interrupt reads n samples of stream k (and calls scheduleFillBuffer).
    Lock: LockSD (the mounting left out). *)
Inductive op := Request | Take (k : nat) (n : Z) | Lock (b : bool) | Work.
Definition step (s : state) (o : op) : state :=
  match o with
  | Request => schedule s
  | Take k n => schedule (State (upd (take n) k (streams s)) (sd_locked s) (pending s) (queued s) (where_ s))
  | Lock b => State (streams s) b (pending s) (queued s) (where_ s)
  | Work => work s
  end.
Definition state0 (l : list stream) : state := State l false false 0 Idle.
