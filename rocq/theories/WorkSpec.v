(** Which buffers are to be filled, and when. *)
From Coq Require Import ZArith List Bool.
From Verif Require Import Machine WorkModel.
Import ListNotations.
Open Scope Z_scope.

(** A buffer is within its bounds; its source never gives a negative number of samples. *)
Definition sound_stream (d : stream) : Prop :=
  0 < size d /\ 0 <= buf_start d <= buf_end d /\ buf_end d <= buf_start d + size d /\ Forall (fun r => 0 <= fst r) (src d).
(** Nothing is wanted: the buffer is full or the stream has ended *)
Definition satisfied (d : stream) : Prop := linked d = false \/ eof_ d = true \/ buf_end d - buf_start d = size d.
(** How much it matters: by the room in the buffer, but hardly at all while the player is paused *)
Definition room (d : stream) : Z := if linked d && negb (eof_ d) then size d - (buf_end d - buf_start d) else 0.
Definition wants (d : stream) : Z := if 0 <? room d then (if paused d then 2 else room d) else 0.
(** Two reads for each stream, and one more for each answer that is short *)
Definition effort (l : list stream) : nat := fold_right (fun d n => length (src d) + 2 + n)%nat 0%nat l.
Definition after (l : list stream) (ops : list op) : state := run step (state0 l) ops.
Definition works (n : nat) : list op := repeat Work n.
Definition count_work (ops : list op) : nat := length (filter (fun o => match o with Work => true | _ => false end) ops).
Definition running (s : state) : bool := match where_ s with Idle => false | _ => true end.
(** The audio interrupt never takes a negative number of samples. *)
Definition sane (ops : list op) : Prop := Forall (fun o => match o with Take _ n => 0 <= n | _ => True end) ops.
(** Enough uninterrupted steps for one whole run over [l] *)
Definition whole_run_steps (l : list stream) : nat := (50 * (length l + 2) + 4)%nat.
