(** Model of the list of background tasks: common/looper.h.  (common/command_parser.h:13-29 and
    common/saber_base.h:252-270 keep their lists the same way, without the second entry point.)
    Objects are numbers below [objs]; [None] is the null pointer; a walk that does not end
    within the number of objects (a cycle) is [None] as a result: the firmware hangs. *)
From Coq Require Import List Bool PeanoNat.
Import ListNotations.

Record state := State { next : nat -> option nat;   (* next_looper_ of every object *)
                        loopers : option nat; hf_loopers : option nat }.
(** looper.h:7-8.  next_looper_ (130) of an unlinked object is arbitrary. *)
Definition state0 (junk : nat -> option nat) : state := State junk None None.
Definition set_next (s : state) (x : nat) (v : option nat) : state :=
  State (fun y => if Nat.eqb y x then v else next s y) (loopers s) (hf_loopers s).
(** What the pointer-to-pointer [i] of the loops points to. *)
Inductive place := Head | NextOf (x : nat).
Definition deref (s : state) (i : place) : option nat := match i with Head => loopers s | NextOf x => next s x end.
Definition store (s : state) (i : place) (v : option nat) : state :=
  match i with Head => State (next s) v (hf_loopers s) | NextOf x => set_next s x v end.
Definition is (p : option nat) (x : nat) : bool := match p with Some y => Nat.eqb x y | None => false end.

(** looper.h:20-25 Link *)
Definition Link (s : state) (x : nat) : state := let s := set_next s x (loopers s) in State (next s) (Some x) (hf_loopers s).
(** looper.h:29-30: to the end of the list *)
Fixpoint find_end (fuel : nat) (s : state) (i : place) : option place :=
  match fuel with
  | O => None
  | S fuel => match deref s i with None => Some i | Some y => find_end fuel s (NextOf y) end
  end.
(** looper.h:27-35 HighFrequencyLink *)
Definition HighFrequencyLink (objs : nat) (s : state) (x : nat) : option state :=
  match find_end (S objs) s Head with
  | None => None
  | Some i =>
    let s := store (set_next s x None) i (Some x) in
    Some (State (next s) (loopers s) (match hf_loopers s with None => Some x | h => h end))
  end.
(** looper.h:39-45: the loop of Unlink *)
Fixpoint unlink_from (fuel : nat) (s : state) (i : place) (x : nat) : option state :=
  match fuel with
  | O => None
  | S fuel =>
    match deref s i with
    | None => Some s
    | Some y => if Nat.eqb y x then Some (store s i (next s x)) else unlink_from fuel s (NextOf y) x
    end
  end.
(** looper.h:36-47 Unlink *)
Definition Unlink (objs : nat) (s : state) (x : nat) : option state :=
  unlink_from (S objs) (if is (hf_loopers s) x then State (next s) (loopers s) (next s x) else s) Head x.

Inductive op := OLink (x : nat) | OHFLink (x : nat) | OUnlink (x : nat).
Definition obj (o : op) : nat := match o with OLink x | OHFLink x | OUnlink x => x end.
Definition do_op (objs : nat) (s : state) (o : op) : option state :=
  match o with OLink x => Some (Link s x) | OHFLink x => HighFrequencyLink objs s x | OUnlink x => Unlink objs s x end.
Fixpoint do_ops (objs : nat) (s : state) (os : list op) : option state :=
  match os with [] => Some s | o :: os => match do_op objs s o with None => None | Some s => do_ops objs s os end end.

(** looper.h:79-88, 89-99 DoLoop and DoHFLoop from pointer [l] on.  [body calls l]: what the Loop()
    of l links and unlinks when it is called after the calls [calls] (latest first).
    Result: the objects called (latest first) and the state; None if not finished within [fuel]
    calls, or a call hangs. *)
Fixpoint walk (fuel : nat) (objs : nat) (body : list nat -> nat -> list op) (s : state) (l : option nat) (calls : list nat) : option (list nat * state) :=
  match l with
  | None => Some (calls, s)
  | Some x =>
    match fuel with
    | O => None
    | S fuel => match do_ops objs s (body calls x) with None => None | Some s => walk fuel objs body s (next s x) (x :: calls) end
    end
  end.
Definition DoLoop (fuel objs : nat) (body : list nat -> nat -> list op) (s : state) : option (list nat * state) := walk fuel objs body s (loopers s) [].
Definition DoHFLoop (fuel objs : nat) (body : list nat -> nat -> list op) (s : state) : option (list nat * state) := walk fuel objs body s (hf_loopers s) [].
