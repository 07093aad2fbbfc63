(** C20 circular buffer, C21 buffered audio, C22 sound queue, C62 box filter. *)
From Coq Require Import ZArith List Bool Lia.
From Verif Require Import Machine BufferModel BufferSpec BufferProofs.
Import ListNotations.
Open Scope Z_scope.

(** C20: for every capacity dividing 2^32, every start value of the counters and every
    sequence of operations the buffer answers as a queue. *)
Theorem C20_circular_buffer_is_fifo : forall SIZE mem pos ops,
  0 < SIZE -> SIZE < 2 ^ 32 -> 2 ^ 32 mod SIZE = 0 -> 0 <= pos < 2 ^ 32 ->
  fifo_ok (Z.to_nat SIZE) [] ops (run_outs (ring_step SIZE) (Ring mem pos pos) ops).
Proof.
  intros SIZE mem pos ops S0 S1 S2 P. apply ring_ok; auto. unfold holds. cbn [first last length].
  split; [exact P|]. split; [exact P|]. split; [change (Z.of_nat 0) with 0; lia|]. split; [|intros; lia]. change (Z.of_nat 0) with 0. rewrite Z.add_0_r, Z.mod_small; [reflexivity|exact P].
Qed.
(* counters wrapping around in the middle of a capacity 4 buffer *)
Example C20_ex :
  run_outs (ring_step 4) (Ring (fun _ => 0) 4294967294 4294967294)
    [Fill [1;2;3]; PutOne 4; Take 1; Fill [5;6;7]; Fill [6;7]; Size; Take 9; Take 9; PopOne] =
  [Accepted 2; Accepted 1; Delivered [1]; Accepted 2; Accepted 0; Count 4; Delivered [2]; Delivered [4;5;6]; Delivered []].
Proof. vm_compute. reflexivity. Qed.

(** C21: in every interleaving the samples received are a prefix of the samples stored;
    what is missing is at most the buffer size, and it is what is still buffered when
    both sides are at rest. *)
Theorem C21_buffered_audio_in_order : forall N mem pos es,
  0 < N -> N < 2 ^ 32 -> 2 ^ 32 mod N = 0 -> 0 <= pos < 2 ^ 32 ->
  let outs := run_outs (astream_step N) (astream_start mem pos) es in
  let f := run_state (astream_step N) (astream_start mem pos) es in
  exists waiting, stored outs = received outs ++ waiting /\ Z.of_nat (length waiting) <= N /\
    (prod f = PIdle -> cons f = CIdle -> (buf_end f - buf_start f) mod 2 ^ 32 = Z.of_nat (length waiting)).
Proof.
  intros N mem pos es N0 N1 N2 P outs f.
  destruct (astream_ok N N0 N1 N2 es (astream_start mem pos) [] [] 0%nat) as (w & E & B & F).
  - unfold ainv, astream_start. cbn [buffer buf_start buf_end prod cons length].
    split; [exact P|]. split; [change (Z.of_nat 0) with 0; lia|]. split; [change (Z.of_nat 0) with 0; rewrite Z.add_0_r, Z.mod_small; [reflexivity|exact P]|]. split; [intros; lia|auto].
  - exists w. auto.
Qed.
Example C21_ex :
  let es := [PBegin; PSample 1; PSample 2; CBegin 5; PEnd; CBegin 5; CSample; PBegin; PSample 3; CSample; PSample 4; CEnd; PEnd; CBegin 1; CSample; CEnd] in
  let outs := run_outs (astream_step 4) (astream_start (fun _ => 0) 4294967295) es in
  stored outs = [1;3;4] /\ received outs = [1;3].
Proof. vm_compute. auto. Qed.
Example C21_ex2 :
  let es := [PBegin; PSample 1; PSample 2; CBegin 5; PEnd; CBegin 5; CSample; PBegin; PSample 3; CSample; PSample 4; CEnd; PEnd; CBegin 1; CSample; CEnd] in
  let outs := run_outs (astream_step 4) (astream_start (fun _ => 0) 0) es in
  stored outs = [1;2;3;4] /\ received outs = [1;2;3].
Proof. vm_compute. auto. Qed.

(** C22: the sound queue is a queue, and without fade-outs each accepted sound is started
    once, in order. *)
Theorem C22_sound_queue : forall Q mem ops, 0 <= Q ->
  let outs := run_outs (sq_step Q) (sq_start mem) ops in
  squeue_ok (Z.to_nat Q) [] ops outs /\
  (~ In Fadeout ops -> exists waiting, accepted ops outs = started outs ++ waiting /\ Z.of_nat (length waiting) <= Q).
Proof.
  intros Q mem ops Q0. apply (squeue_all Q ops Q0 (sq_start mem) []). unfold squeue_inv. cbn. repeat split; try lia. 
Qed.
Example C22_ex :
  run_outs (sq_step 2) (sq_start (fun _ => 0))
    [Play 7; Play 8; Play 9; Poll false false; Poll false true; Poll true true; Poll false false; Poll false false; Play 5; Fadeout; Poll false true] =
  [Queued true; Queued true; Queued false; Nothing; Started 7; Nothing; Started 8; Freed; Queued true; Nothing; Nothing].
Proof. vm_compute. reflexivity. Qed.

(** C62: after at least N pushes the box filter's sum is the sum of the last N values. *)
Theorem C62_box_filter : forall N l b, (0 < N)%nat -> 0 <= bpos b < Z.of_nat N -> (N <= length l)%nat ->
  bsum N (fold_left (bpush (Z.of_nat N)) l b) = sum_last N l.
Proof. exact box_sum. Qed.
(** C62 finding: clear(v) does not make the average v. *)
Theorem C62_clear_refuted : exists N b v, (3 <= N)%nat /\ bsum N (bclear N b v) <> Z.of_nat N * v.
Proof. exists 3%nat, (BoxF (fun _ => 0) 0), 1. split; [lia|]. vm_compute. discriminate. Qed.
Example C62_ex : bsum 3 (fold_left (bpush 3) [1;2;3;4;5] (BoxF (fun _ => 9) 1)) = 12.
Proof. reflexivity. Qed.

Print Assumptions C20_circular_buffer_is_fifo.
Print Assumptions C21_buffered_audio_in_order.
Print Assumptions C22_sound_queue.
Print Assumptions C62_box_filter.
Print Assumptions C62_clear_refuted.
