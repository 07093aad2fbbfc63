(** What sparkling, blasts, noise and times since an effect should look like. *)
From Coq Require Import ZArith List Bool.
From Verif Require Import ArithModel SparkModel.
Import ListNotations.
Local Open Scope Z_scope.

(** Random numbers a blade of [n] LEDs gets: one below 1000, one below [n]. *)
Definition fair (n : Z) (i : Z * Z * Z) : Prop :=
  let '(m, r1, r2) := i in 0 <= r1 < 1000 /\ 0 <= r2 < n.
(** The sparkles after a history of runs, if no run misbehaved.  [l0] is the uninitialised
    time of the last update. *)
Fixpoint sparkle_runs (n chance intensity : Z) (s : sparks) (is : list (Z * Z * Z)) : option sparks :=
  match is with
  | [] => Some s
  | i :: is => match sparkle_run n chance intensity s i with
               | Some s => sparkle_runs n chance intensity s is
               | None => None
               end
  end.
Definition sparkled (n chance intensity : Z) (s : sparks) : Prop :=
  exists l0 is, Forall (fair n) is /\ sparkle_runs n chance intensity (Sparks None l0) is = Some s.
(** The heat of an LED; there is none outside the blade. *)
Definition heat (n : Z) (s : sparks) (led : Z) : Z :=
  match k_arr s with
  | Some a => if (0 <=? led) && (led <? n) then a (led + 2) else 0
  | None => 0
  end.
(** An update is due ten milliseconds after the last. *)
Definition due (s : sparks) (m : Z) : Prop := 10 <= (m - k_last s) mod 2 ^ 32.
(** What heat becomes in one update: a fifth of each neighbour's and over half of its own. *)
Definition spread (l o r : Z) : Z := (200 * l + 570 * o + 200 * r) / 1024.
(** A history of due updates in which no spark is drawn. *)
Fixpoint quiet (chance : Z) (last : Z) (is : list (Z * Z * Z)) : Prop :=
  match is with
  | [] => True
  | (m, r1, _) :: is => 10 <= (m - last) mod 2 ^ 32 /\ chance <= r1 /\ quiet chance m is
  end.

(** The ages of the effects that count. *)
Definition mine (l : list blast) : list blast := filter b_mine l.
Definition age (now : Z) (b : blast) : Z := (now - b_start b) mod 2 ^ 32.
(** What a blast of this age gives: full at first, nothing after [fade] milliseconds. *)
Definition faded (fade age : Z) : Z :=
  if age <? 1000 * fade then 32768 * (1000 - age / fade) / 1000 else 0.
Definition total (l : list Z) : Z := fold_right Z.add 0 l.

(** Calls of TimeSinceEffect in true time (not wrapping): each gives the time of the call and
    the start of the newest remembered effect.  The list of answers. *)
Fixpoint answers (last : Z) (calls : list (Z * option Z)) : list Z :=
  match calls with
  | [] => []
  | (t, e) :: calls =>
    let '(last, v) := since last (option_map u32 e) (u32 t) in v :: answers last calls
  end.
(** Calls in order, each effect already begun, with at most 54 minutes between calls. *)
Fixpoint paced (t0 : Z) (calls : list (Z * option Z)) : Prop :=
  match calls with
  | [] => True
  | (t, e) :: calls =>
    t0 <= t <= t0 + 3240000000 /\
    (match e with Some s => t - 7000000 <= s <= t | None => True end) /\ paced t calls
  end.
(** The newest effect so far and the times asked. *)
Fixpoint true_starts (s0 : Z) (calls : list (Z * option Z)) : list (Z * Z) :=
  match calls with
  | [] => []
  | (t, e) :: calls =>
    let s := match e with Some s => s | None => s0 end in (t, s) :: true_starts s calls
  end.
(** The right answer: exact up to 1000 seconds; after that at least 1000 seconds and not more
    than the truth. *)
Definition right_answer (ts : Z * Z) (v : Z) : Prop :=
  let '(t, s) := ts in
  if t - s <=? 1000000000 then v = (t - s) / 1000 else 1000000 <= v <= (t - s) / 1000.
