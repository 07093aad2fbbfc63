(** What gestures are, in terms of the motion measured at each call. *)
From Coq Require Import ZArith List Bool.
From Verif Require Import GestModel.
Import ListNotations.
Open Scope Z_scope.

(** Directions of movement: rotation around the blade to the left and right, thrust forward
    and pull back. *)
Inductive dir := Left | Right | Forward | Back.
Definition opposite (d : dir) : dir := match d with Left => Right | Right => Left | Forward => Back | Back => Forward end.
Definition time (c : call) : Z := match c with Twist t _ _ _ => t | Shake t _ _ _ _ => t end.
Definition is_twist_call (c : call) : Prop := match c with Twist _ _ _ _ => True | _ => False end.
Definition same_detector (a b : call) : Prop := is_twist_call a <-> is_twist_call b.

(** The blade is moving in direction [d] at this call: turning at more than 200 degrees per
    second, three times as fast as around the other axes; or accelerating along the blade by more
    than 7 m/s/s forward or 6 back, less than 4 across, and hardly swinging. *)
Definition moves (c : call) (d : dir) : Prop :=
  match c, d with
  | Twist _ gx gy gz, Left => gx > 200000 /\ gx > 3 * Z.abs gy /\ gx > 3 * Z.abs gz
  | Twist _ gx gy gz, Right => - gx > 200000 /\ - gx > 3 * Z.abs gy /\ - gx > 3 * Z.abs gz
  | Shake _ x y z s, Forward => x > 7000 /\ y * y + z * z < 4000 * 4000 /\ s < 150000
  | Shake _ x y z s, Back => - x > 6000 /\ y * y + z * z < 4000 * 4000 /\ s < 150000
  | _, _ => False
  end.

(** Times are after power-on, do not go backwards and the counter does not wrap. *)
Fixpoint ordered (t0 : Z) (l : list call) : Prop :=
  match l with [] => True | c :: l => t0 <= time c < 2 ^ 31 /\ ordered (time c) l end.

(** Calls number [p] to [q] of [h] are a stroke in direction [d]: it begins with a movement
    in that direction, and whenever the same detector sees something else before [q], it sees the
    movement again within less than 50 ms and not after [q]. *)
Definition stroke_at (h : list call) (d : dir) (p q : nat) : Prop :=
  (p < q)%nat /\ (exists c, nth_error h p = Some c /\ moves c d) /\ (exists c, nth_error h q = Some c) /\
  forall i a b, (p <= i < q)%nat -> nth_error h i = Some a -> nth_error h p = Some b -> same_detector a b -> ~ moves a d ->
    exists j c, (i < j <= q)%nat /\ nth_error h j = Some c /\ moves c d /\ time c - time a < 50.
Definition at_time (h : list call) (p : nat) (t : Z) : Prop := exists c, nth_error h p = Some c /\ time c = t.

(** A twist that ends at call number [n]: a stroke to one side and one to the other, each lasting
    more than 90 and less than 300 ms, the second beginning less than 200 ms after the
    first ends; the second is not interrupted. *)
Definition twist_at (h : list call) (n : nat) : Prop :=
  exists d p1 q1 p2 s1 e1 s2 e2, (d = Left \/ d = Right) /\
    stroke_at h d p1 q1 /\ stroke_at h (opposite d) p2 n /\ (q1 < p2)%nat /\
    (forall i c, (p2 <= i < n)%nat -> nth_error h i = Some c -> is_twist_call c -> moves c (opposite d)) /\
    at_time h p1 s1 /\ at_time h q1 e1 /\ at_time h p2 s2 /\ at_time h n e2 /\
    90 < e1 - s1 < 300 /\ 90 < e2 - s2 < 300 /\ s2 - e1 < 200.

(** Strokes in alternating directions, the newest first (its direction is [d]), each beginning at
    most 250 ms after the one before ended, none beginning before call number [lo]. *)
Fixpoint alternate (h : list call) (d : dir) (lo : nat) (l : list (nat * nat)) : Prop :=
  match l with
  | [] => True
  | (p, q) :: l =>
    stroke_at h d p q /\ (lo <= p)%nat /\
    match l with
    | [] => True
    | (_, q') :: _ => (q' < p)%nat /\ exists s e, at_time h p s /\ at_time h q' e /\ s - e <= 250
    end /\ alternate h (opposite d) lo l
  end.
(** A shake that ends at call number [n]: five strokes, forward, back, forward, back, forward. *)
Definition shake_at (h : list call) (lo n : nat) : Prop :=
  exists p l, length l = 4%nat /\ alternate h Forward lo ((p, n) :: l).

(** Clean movements, which must be recognised. A call shows no movement. *)
Definition still (c : call) : Prop := forall d, ~ moves c d.
(** A movement in direction [d] seen first at call [a] and then at each later call of the same
    detector in [m], until call [c]; the other detector sees nothing. *)
Definition clean (d : dir) (a : call) (m : list call) (c : call) : Prop :=
  moves a d /\ Forall (fun x => moves x d \/ ~ same_detector x a /\ still x) m /\ same_detector c a /\ ~ moves c d.
(** The blade has moved before, and came to rest at least 50 ms before [s]: the detector that [a]
    is a call of has seen it at rest. *)
Definition rested (l : list call) (a : call) (s : Z) : Prop :=
  exists l1 l2, l = l1 ++ l2 /\ (exists c d, In c l1 /\ moves c d) /\ Forall still l2 /\ (exists c, In c l2 /\ same_detector c a) /\
    Forall (fun c => time c + 50 <= s) l.
(** A clean movement and the rest after it. *)
Record thrust := Thrust { first : call; more : list call; stop : call; rest : list call }.
Definition calls (t : thrust) : list call := first t :: more t ++ stop t :: rest t.
Definition clean_thrust (d : dir) (t : thrust) : Prop := clean d (first t) (more t) (stop t) /\ Forall still (rest t).
