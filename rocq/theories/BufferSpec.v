(** What the buffers must do. *)
From Coq Require Import ZArith List Bool.
From Verif Require Import BufferModel.
Import ListNotations.
Open Scope Z_scope.

(** A queue of at most [cap] elements holding [q] may answer the operations with [outs]:
    it accepts a prefix of what is offered (something, if there is room), delivers its
    oldest elements (something, if there is any and it is asked for), and reports its
    size. *)
Fixpoint fifo_ok (cap : nat) (q : list Z) (ops : list ring_op) (outs : list ring_out) : Prop :=
  match ops, outs with
  | [], [] => True
  | Fill xs :: ops, Accepted k :: outs =>
    (k <= length xs /\ length q + k <= cap /\ (xs <> [] -> length q < cap -> 0 < k))%nat /\
    fifo_ok cap (q ++ firstn k xs) ops outs
  | PutOne x :: ops, Accepted k :: outs =>
    (k = if length q <? cap then 1 else 0)%nat /\ fifo_ok cap (q ++ firstn k [x]) ops outs
  | Take n :: ops, Delivered ys :: outs =>
    (length ys <= n /\ (0 < n -> q <> [] -> 0 < length ys))%nat /\
    exists q', q = ys ++ q' /\ fifo_ok cap q' ops outs
  | PopOne :: ops, Delivered ys :: outs =>
    ys = firstn 1 q /\ fifo_ok cap (skipn 1 q) ops outs
  | Size :: ops, Count n :: outs => n = Z.of_nat (length q) /\ fifo_ok cap q ops outs
  | _, _ => False
  end.

(** Samples stored by the source, samples received by the reader, in order. *)
Fixpoint stored (l : list saw) : list Z :=
  match l with [] => [] | Stored x :: l => x :: stored l | _ :: l => stored l end.
Fixpoint received (l : list saw) : list Z :=
  match l with [] => [] | Received x :: l => x :: received l | _ :: l => received l end.

(** The sound queue as a list: [q] waiting. *)
Fixpoint squeue_ok (cap : nat) (q : list Z) (ops : list sq_op) (outs : list sq_out) : Prop :=
  match ops, outs with
  | [], [] => True
  | Play x :: ops, Queued ok :: outs =>
    ok = (length q <? cap)%nat /\ squeue_ok cap (if ok then q ++ [x] else q) ops outs
  | Fadeout :: ops, Nothing :: outs => squeue_ok cap [] ops outs
  | Poll playing free :: ops, Started x :: outs =>
    exists q', q = x :: q' /\ squeue_ok cap q' ops outs
  | Poll playing free :: ops, Freed :: outs => q = [] /\ playing = false /\ squeue_ok cap q ops outs
  | Poll playing free :: ops, Fading :: outs => playing = true /\ squeue_ok cap q ops outs
  | Poll playing free :: ops, Nothing :: outs => (q = [] \/ playing = true \/ free = false) /\ squeue_ok cap q ops outs
  | _, _ => False
  end.
(** Sounds accepted and sounds started. *)
Fixpoint accepted (ops : list sq_op) (outs : list sq_out) : list Z :=
  match ops, outs with
  | Play x :: ops, Queued true :: outs => x :: accepted ops outs
  | _ :: ops, _ :: outs => accepted ops outs
  | _, _ => []
  end.
Fixpoint started (outs : list sq_out) : list Z :=
  match outs with [] => [] | Started x :: l => x :: started l | _ :: l => started l end.
(** Sum of the last [n] elements of a list. *)
Definition sum_last (n : nat) (l : list Z) : Z := fold_right Z.add 0 (skipn (length l - n) l).
