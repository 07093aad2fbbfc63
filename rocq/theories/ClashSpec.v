(** What clash detection should do, in terms of calls, times and reports. *)
From Coq Require Import ZArith List Bool.
From Verif Require Import Machine ClashModel.
Import ListNotations.
Open Scope Z_scope.

(** The time of a call; a shock has none, it is noticed by the next turn of the main loop. *)
Definition time (o : op) : option Z :=
  match o with Hit _ _ => None | Loop t _ => Some t | Button t _ _ _ => Some t | Ignore t _ => Some t end.
(** Times do not go backwards, starting from [t0]; they are real milliseconds since
    power-on, not the 32-bit counter. *)
Fixpoint ordered (t0 : Z) (l : list op) : Prop :=
  match l with
  | [] => True
  | o :: l => match time o with None => ordered t0 l | Some t => t0 <= t /\ ordered t l end
  end.
(** Requested periods are not negative and fit in 32 bits; press counts are counts. *)
Definition sane (o : op) : Prop :=
  match o with
  | Hit _ _ => True
  | Loop _ w => Forall (fun ms => 0 <= ms < 2 ^ 32) (asks w)
  | Button _ k n _ => 0 <= k <= 8 /\ 1 <= n <= 4
  | Ignore _ ms => 0 <= ms < 2 ^ 32
  end.

(** A plain "button released" (2) or "button pressed" (1) event reaches the prop. *)
Definition plain (o : op) (kind t : Z) : Prop := exists n, o = Button t kind n false.

(** A call and what it made visible. *)
Definition entry := (op * list out)%type.
(** The calls and what they make visible. *)
Definition hist (s : state) (l : list op) : list entry := combine l (run_outs step s l).
(** Is a clash put aside after these calls? It is, from when it is put aside until it is
    reported or a button is released. *)
Definition waits1 (b : bool) (x : entry) : bool :=
  match fst x with
  | Button _ 2 _ false => false
  | _ => fold_left (fun b o => match o with Deferred => true | Report _ _ _ => false | _ => b end) (snd x) b
  end.
Definition waits (h : list entry) : bool := fold_left waits1 h false.
(** The button is still held whenever the main loop runs while a clash is put aside. *)
Definition steady (h : list entry) : Prop :=
  forall a t w os b, h = a ++ (Loop t w, os) :: b -> waits a = true -> held w = true.

(** The clashes and stabs reported, with their strength. *)
Definition reports (os : list out) : list (bool * Z) :=
  flat_map (fun o => match o with Report stab v _ => [(stab, v)] | _ => [] end) os.
(** Until when an entry of the history forbids reports: 100 ms after a report, 400 ms if
    the prop made use of it; 50 ms after a plain release; 50 ms after a plain press and the
    requested period after a request by the handler of a report, or by any other call, if no clash is put aside at that time. *)
Inductive forbids (before : list entry) : entry -> Z -> Prop :=
| ForbidReport t w os stab v h : In (Report stab v h) os -> forbids before (Loop t w, os) (t + if h then 400 else 100)
| ForbidRelease o os t : plain o 2 t -> forbids before (o, os) (t + 50)
| ForbidPress o os t : plain o 1 t -> waits before = false -> forbids before (o, os) (t + 50)
| ForbidAsk t w os r ms : In r (reports os) -> In ms (asks w) -> forbids before (Loop t w, os) (t + ms)
| ForbidIgnore os t ms : waits before = false -> forbids before (Ignore t ms, os) (t + ms).

(** No shock, and all quiet times it asks for end by [t]. *)
Definition calm (t : Z) (o : op) : Prop :=
  match o with Hit _ _ => False | Loop t' _ => t' <= t | Button t' _ _ _ => t' + 50 <= t | Ignore t' ms => t' + ms <= t end.
(** Shocks in a row. *)
Definition hits (l : list (bool * Z)) : list op := map (fun x => Hit (fst x) (snd x)) l.
(** The periods a call asks for; none is longer than [M]. *)
Definition asked (o : op) : list Z := match o with Loop _ w => asks w | Ignore _ ms => [ms] | _ => [] end.
Definition asks_le (M : Z) (l : list op) : Prop := Forall (fun o => Forall (fun ms => ms <= M) (asked o)) l.

(** Shocks each followed by a turn of the main loop that notices it: whether it looks like a
    stab, its strength, the time and the circumstances of that turn. *)
Definition shocks (l : list (bool * Z * Z * world)) : list op := flat_map (fun x => let '(st, v, t, w) := x in [Hit st v; Loop t w]) l.
(** Each comes less than [d] ms after the one before, the first after [T]. *)
Fixpoint close (d T : Z) (l : list (bool * Z * Z * world)) : Prop :=
  match l with [] => True | (_, _, t, _) :: l => T <= t < T + d /\ close d t l end.
(** The time of the last one. *)
Fixpoint final (T : Z) (l : list (bool * Z * Z * world)) : Z := match l with [] => T | (_, _, t, _) :: l => final t l end.
(** The greatest strength. *)
Fixpoint strongest (v : Z) (l : list (bool * Z * Z * world)) : Z := match l with [] => v | (_, v', _, _) :: l => strongest (Z.max v v') l end.
