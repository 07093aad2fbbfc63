(** Specification: the bus lock is a queue; the bus sleeps when nobody asks. *)
From Coq Require Import ZArith List Bool Arith.
From Verif Require Import BusModel.
Import ListNotations.

(** The queue: its head holds the bus; [true]: the head has been given the bus but not been called yet. *)
Definition queue := (list nat * bool)%type.
Definition spec_step (s : queue) (o : op) : queue * out :=
  let (q, d) := s in
  match o with
  | Lock x r true => match q with
                     | [] => (([x], d), Out true None)
                     | h :: _ => (s, Out (r && (h =? x)) None)
                     end
  | LockAndRun x true => if existsb (Nat.eqb x) q then (s, Out false None)
                         else match q with
                              | [] => (([x], d), Out true (Some x))
                              | _ => ((q ++ [x], d), Out true None)
                              end
  | Lock _ _ false | LockAndRun _ false => (s, Out false None)
  | Unlock x => match q with
                | h :: t => if h =? x then ((t, match t with [] => d | _ => true end), Out true None) else (s, Out true None)
                | [] => (s, Out true None)
                end
  | Call => if d then ((q, false), Out true (hd_error q)) else (s, Out true None)
  end.
(** A device does not give back the bus before it has been called. *)
Definition allowed (s : queue) (o : op) : Prop :=
  match o with Unlock x => ~ (snd s = true /\ hd_error (fst s) = Some x) | _ => True end.
Fixpoint polite (s : queue) (os : list op) : Prop :=
  match os with [] => True | o :: os => allowed s o /\ polite (fst (spec_step s o)) os end.
Fixpoint spec_play (s : queue) (os : list op) : queue * list out :=
  match os with
  | [] => (s, [])
  | o :: os => let (s, x) := spec_step s o in let (s, xs) := spec_play s os in (s, x :: xs)
  end.
Definition free : queue := ([], false).

(** The requests that were accepted and the devices that got the bus, in order, as seen from outside:
    a Lock that returns true is both. *)
Fixpoint accepted (os : list op) (xs : list out) : list nat :=
  match os, xs with
  | Lock d _ _ :: os, x :: xs => (if ret x then [d] else []) ++ accepted os xs
  | LockAndRun d _ :: os, x :: xs => (if ret x then [d] else []) ++ accepted os xs
  | _ :: os, _ :: xs => accepted os xs
  | _, _ => []
  end.
Fixpoint served (os : list op) (xs : list out) : list nat :=
  match os, xs with
  | Lock d _ _ :: os, x :: xs => (if ret x then [d] else []) ++ served os xs
  | _ :: os, x :: xs => (match ran x with Some d => [d] | None => [] end) ++ served os xs
  | _, _ => []
  end.
Definition no_recapture (o : op) : Prop := match o with Lock _ true _ => False | _ => True end.

(** Nobody is called, and nobody but [d] is told to have the bus. *)
Definition quiet (d : nat) (o : op) (x : out) : Prop :=
  ran x = None /\ match o with Lock e _ _ => ret x = true -> e = d | _ => True end.

(** * The bus *)
(** Real time runs on; what the code sees of it is a 32-bit counter. *)
Definition seen (o : bop) : bop :=
  match o with Ask t => Ask (t mod 2 ^ 32)%Z | Tick t => Tick (t mod 2 ^ 32)%Z end.
(** From a request at [t0] on, every run of the loop comes within two seconds of the latest request. *)
Fixpoint busy (t0 : Z) (os : list bop) : Prop :=
  match os with
  | [] => True
  | Ask t :: os => busy t os
  | Tick t :: os => (t0 <= t <= t0 + 2000)%Z /\ busy t0 os
  end.
(** Only the loop runs, and not within two seconds of [t0], nor 2^31 milliseconds later. *)
Definition idle (t0 : Z) (o : bop) : Prop :=
  match o with Ask _ => False | Tick t => (t0 + 2000 < t <= t0 + 2000 + 2 ^ 31)%Z end.
