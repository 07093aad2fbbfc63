(** Specification: smooth swings. *)
From Coq Require Import ZArith QArith List Bool.
From Verif Require Import SwingModel.
Import ListNotations.
Local Open Scope Q_scope.

(** * The plan of a swing *)
(** Turning the hilt passes transitions, in turn to the one sound and to the other: the first is centred
    [m] degrees ahead; a transition to the first sound is [wx] degrees wide and followed, [gx] degrees
    later, by one to the second. *)
Record plan := Plan { m : Q; wx : Q; wy : Q; gx : Q; gy : Q }.
Definition rest (p : plan) : plan := Plan (m p + gx p) (wy p) (wx p) (gy p) (gx p).
Fixpoint nth_plan (p : plan) (k : nat) : plan := match k with O => p | S k => nth_plan (rest p) k end.
Definition starts (p : plan) (k : nat) : Q := m (nth_plan p k) - wx (nth_plan p k) / 2.
Definition ends (p : plan) (k : nat) : Q := m (nth_plan p k) + wx (nth_plan p k) / 2.
(** After [r] degrees the transition to be made is the first that has not ended. *)
Definition passing (p : plan) (r : Q) (k : nat) : Prop := (forall j, (j < k)%nat -> ends p j < r) /\ r <= ends p k.
(** How far it is made: from 0 to 1 over its width. *)
Definition done (p : plan) (k : nat) (r : Q) : Q :=
  if Qle_bool r (starts p k) then 0 else (r - starts p k) / wx (nth_plan p k).
(** The part of the first sound. *)
Definition part (p : plan) (k : nat) (r : Q) : Q := if Nat.even k then done p k r else 1 - done p k r.
Definition plan_of (s : sw) : plan := Plan (mid (A s)) (wid (A s)) (wid (B s)) (sep (A s)) (sep (B s)).
(** One transition ends before the next begins. *)
Definition apart (p : plan) : Prop := 0 < wx p /\ 0 < wy p /\ wx p / 2 + wy p / 2 <= gx p /\ wx p / 2 + wy p / 2 <= gy p.

(** Degrees turned by a motion: the speed for the time since the one before; none to speak of if that is
    more than a second. *)
Definition dt (last now : Z) : Q := let d := ((now - last) mod 2 ^ 32)%Z in inject_Z (if (d <=? 1000000)%Z then d else 1%Z) / 1000000.
Fixpoint turned (last : Z) (ms : list motion) : Q :=
  match ms with [] => 0 | i :: ms => speed i * dt last (micros i) + turned (micros i) ms end.

(** * The events *)
(** The volume given to a player. *)
Fixpoint volume_of (p : nat) (e : list event) : option Q :=
  match e with
  | [] => None
  | Vol q v :: e => match volume_of p e with Some w => Some w | None => if Nat.eqb p q then Some v else None end
  | _ :: e => volume_of p e
  end.
Definition hums (e : list event) : list Q := flat_map (fun x => match x with Hum v => [v] | _ => [] end) e.
(** A swing begins at the threshold and goes on down to nine tenths of it. *)
Definition goes_on (c : config) (now : bool) (i : motion) : bool :=
  if now then Qle_bool (thr c * (9 # 10)) (speed i) else Qle_bool (thr c) (speed i).
Fixpoint in_swing (c : config) (now : bool) (os : list op) : bool :=
  match os with [] => now | Move i :: os => in_swing c (goes_on c now i) os | _ :: os => in_swing c now os end.
Fixpoint powered (now : bool) (os : list op) : bool :=
  match os with [] => now | On _ :: os => powered true os | Off true :: os => powered false os | _ :: os => powered now os end.
Definition silent (x : event) : Prop := match x with Vol _ v => v = 0 | Play _ _ _ => False | _ => True end.
Definition no_volume (x : event) : Prop := match x with Vol _ v => v = 0 | _ => True end.
Definition plays (e : list event) : list (nat * which * Z) := flat_map (fun x => match x with Play p w n => [(p, w, n)] | _ => [] end) e.
Definition pick_of (o : op) : option pick := match o with On i => Some i | Move i => Some (picking i) | _ => None end.
(** How strong a swing is, and so the volume of the swing sounds that is asked for. *)
Definition strength (c : config) (i : motion) : Q := if Qle_bool (sens c) (speed i) then 1 else speed i / sens c.
Definition loud (c : config) (i : motion) : Q := ducked i (pow c (strength c i) * maxvol c).
(** A swing goes on through [ms], or begins with its first motion. *)
Definition swings (c : config) (s : sw) (ms : list motion) : Prop :=
  Forall (fun i => 0 <= speed i /\ thr c * (9 # 10) <= speed i) ms /\
  (st s = ON \/ st s = OFF /\ match ms with i :: _ => thr c <= speed i | [] => True end).
