(** The buffered reader of screens and pictures: BufferedFileReader of
    display/layer_controller.h:111-246.  Simplifications: the ring of 1024 bytes is a queue with
    a count of what was taken out of it; positions do not wrap; a read gets what is asked for as
    far as the file goes; SEEK does not come in the middle of FillBuffer. *)
From Coq Require Import Arith List Bool ZArith.
Import ListNotations.
Local Open Scope nat_scope.

(** layer_controller.h:232-244: file_.get_do_open(), file_size_ ([None]: 0xFFFFFFFF), the
    file's own position, do_seek_, seek_pos_, and of input_buffer_ the count and the queue.
    do_seek_ starts as anything. *)
Record bfr := Bfr { opening : bool; fsize : option nat; fpos : nat; do_seek : bool; seek_pos : nat;
                    popped : nat; buf : list Z }.
Definition SIZE : nat := 1024.
(** layer_controller.h:127-131 *)
Definition TELL (b : bfr) : nat := seek_pos b + popped b.
(** layer_controller.h:134-139 *)
Definition ATEOF (b : bfr) : bool :=
  if opening b then false
  else match fsize b with None => true | Some n => TELL b =? n end.
(** layer_controller.h:142-147 *)
Definition BUFATEOF (b : bfr) : bool :=
  if opening b then false
  else match fsize b with None => true | Some n => TELL b + length (buf b) =? n end.
(** layer_controller.h:113-125 *)
Definition SEEK (pos : nat) (b : bfr) : bfr :=
  if (TELL b <? pos) && (pos - TELL b <? length (buf b))
  then Bfr (opening b) (fsize b) (fpos b) (do_seek b) (seek_pos b) (popped b + (pos - TELL b)) (skipn (pos - TELL b) (buf b))
  else Bfr (opening b) (fsize b) (fpos b) true pos 0 [].
(** circular_buffer.h:19-21 and layer_controller.h:181-182: how much is read at once *)
Definition amount (b : bfr) : nat :=
  let first := popped b + length (buf b) in
  Nat.min (Nat.min (SIZE - length (buf b)) (SIZE - first mod SIZE)) (512 - fpos b mod 512).
(** layer_controller.h:149-205 FillBuffer; [file] is what the file holds, [None] if there is none *)
Definition FillBuffer (file : option (list Z)) (b : bfr) : bfr :=
  if SIZE - length (buf b) =? 0 then b
  else if opening b then
    Bfr false (Some (match file with Some f => length f | None => 0 end)) 0 (do_seek b) 0 0 []
  else if BUFATEOF b then b
  else if do_seek b then Bfr false (fsize b) (seek_pos b) false (seek_pos b) (popped b) (buf b)
  else
    let f := match file with Some f => f | None => [] end in
    let got := firstn (amount b) (skipn (fpos b) f) in
    Bfr false (fsize b) (fpos b + length got) false (seek_pos b) (popped b) (buf b ++ got).
(** layer_controller.h:230 getc, called when there is something in the buffer *)
Definition getc (b : bfr) : option (Z * bfr) :=
  match buf b with
  | [] => None
  | c :: r => Some (c, Bfr (opening b) (fsize b) (fpos b) (do_seek b) (seek_pos b) (S (popped b)) r)
  end.

(** A schedule: the filling runs when it wants to, the reader takes a character if there is one
    (else it yields) or seeks.  What the reader sees: *)
Inductive step := Fill | Take | Seek (pos : nat).
Inductive seen := Got (c : Z) | Sought (pos : nat).
Fixpoint run (file : option (list Z)) (b : bfr) (ss : list step) : bfr * list seen :=
  match ss with
  | [] => (b, [])
  | Fill :: ss => run file (FillBuffer file b) ss
  | Take :: ss =>
    match getc b with
    | None => run file b ss
    | Some (c, b) => let (b, o) := run file b ss in (b, Got c :: o)
    end
  | Seek p :: ss => let (b, o) := run file (SEEK p b) ss in (b, Sought p :: o)
  end.
