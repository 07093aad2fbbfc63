(** What a button must report. *)
From Coq Require Import ZArith List Bool.
From Verif Require Import ButtonModel.
Import ListNotations.
Open Scope Z_scope.

(** * Debouncing, over the samples taken so far, newest first.  A sample is (time, level);
    the first sample ever only starts the clock, whatever its level. *)
(** Time of the newest unpressed sample, or of the very first sample. *)
Fixpoint last_unpressed (samples : list (Z * bool)) : option Z :=
  match samples with
  | [] => None
  | [(t, _)] => Some t
  | (t, l) :: rest => if l then last_unpressed rest else Some t
  end.
(** The two newest samples are pressed, not counting the first sample ever. *)
Definition pressed_twice (samples : list (Z * bool)) : Prop :=
  match samples with (_, true) :: (_, true) :: _ :: _ => True | _ => False end.
(** Reported as pressed: pressed in the two newest samples, and more than [timeout] ms
    after the last unpressed one. *)
Definition debounced (timeout : Z) (samples : list (Z * bool)) : Prop :=
  pressed_twice samples /\ exists t t0 l rest, samples = (t, l) :: rest /\ last_unpressed samples = Some t0 /\ t - t0 > timeout.

(** * Events.  Where a button is in its press/release cycle:
    up, with the time and number of the last press and whether a saved click is pending;
    down since [t] as press number [n], with [stage] hold events sent, [eaten] if another
    handler took over, and [low] polls unpressed so far. *)
Inductive phase :=
| Up (t n : Z) (pending : bool)
| Down (t n : Z) (stage : nat) (eaten : bool) (low : nat).
Definition threshold (stage : nat) : option (Z * Z) :=
  match stage with
  | O => Some (300, HELD) | 1%nat => Some (800, HELD_MEDIUM) | 2%nat => Some (2000, HELD_LONG) | _ => None
  end.
(** The events sent, without the numbers they were delivered as. *)
Definition kinds (l : list sent) : list (Z * Z) := map (fun s => (ev s, cnt s)) l.

(** [follows ph p d out ph'] : in phase [ph], polled with [p] with debounced level [d],
    the button sends [out] and is in [ph'] afterwards. *)
Inductive follows : phase -> poll -> bool -> list sent -> phase -> Prop :=
(* nothing happens while up, unless a saved click is due *)
| F_up t n s p : (s = true -> since (now p) t <= 500) ->
    follows (Up t n s) p false [] (Up t n s)
| F_saved t n p o : since (now p) t > 500 -> kinds [o] = [(SAVED_CLICK_SHORT, n)] ->
    follows (Up t n true) p false [o] (Up t n false)
(* a press, counted up to four if within half a second of the last one *)
| F_press t n s p o n' : n' = (if since (now p) t <? 500 then Z.min (n + 1) 4 else 1) -> kinds [o] = [(PRESSED, n')] ->
    follows (Up t n s) p true [o] (Down (now p) n' 0 false 0)
(* held: the next hold event exactly when its time has passed *)
| F_hold t n k p o limit e : eat p = false -> threshold k = Some (limit, e) -> since (now p) t > limit -> kinds [o] = [(e, n)] ->
    follows (Down t n k false 0) p true [o] (Down t n (S k) false 0)
| F_still t n k p : eat p = false -> (forall limit e, threshold k = Some (limit, e) -> since (now p) t <= limit) ->
    follows (Down t n k false 0) p true [] (Down t n k false 0)
(* taken over by another handler: silent until released *)
| F_taken t n k e p : e || eat p = true ->
    follows (Down t n k e 0) p true [] (Down t n k true 0)
(* unpressed: released within five polls *)
| F_low t n k e low p : (low < 4)%nat ->
    follows (Down t n k e low) p false [] (Down t n k (e || eat p) (S low))
| F_short t n k low p r c : eat p = false -> eat2 p = false -> since (now p) t < 500 -> kinds [r; c] = [(RELEASED, n); (CLICK_SHORT, n)] ->
    follows (Down t n k false low) p false [r; c] (Up t n (negb (ok c)))
| F_long t n k low p r c : eat p = false -> eat2 p = false -> 500 <= since (now p) t < 2500 -> kinds [r; c] = [(RELEASED, n); (CLICK_LONG, n)] ->
    follows (Down t n k false low) p false [r; c] (Up t n false)
| F_slow t n k low p r : eat p = false -> eat2 p = false -> 2500 <= since (now p) t -> kinds [r] = [(RELEASED, n)] ->
    follows (Down t n k false low) p false [r] (Up t n false)
| F_eaten t n k e low p r : e || eat p || eat2 p = true -> kinds [r] = [(RELEASED, n)] ->
    follows (Down t n k e low) p false [r] (Up ((now p - 10000) mod 2 ^ 32) n false).
(** A whole history. *)
Inductive cycle : phase -> list poll -> list (bool * list sent) -> phase -> Prop :=
| Cy_nil ph : cycle ph [] [] ph
| Cy_cons ph p d out ph1 ps outs ph2 : follows ph p d out ph1 -> cycle ph1 ps outs ph2 -> cycle ph (p :: ps) ((d, out) :: outs) ph2.

(** Polls are quick: each of the four polls after a poll comes at most [timeout] ms after
    it.  Times do not decrease and fit in 32 bits (49 days). *)
Fixpoint quick (timeout : Z) (ps : list poll) : Prop :=
  match ps with
  | [] => True
  | p :: ps => Forall (fun q => now q - now p <= timeout) (firstn 4 ps) /\ quick timeout ps
  end.
Fixpoint forward (t : Z) (ps : list poll) : Prop :=
  match ps with [] => True | p :: ps => t <= now p < 2 ^ 32 /\ forward (now p) ps end.

(** * Alternation: [l] alternates, starting with [b]. *)
Fixpoint alternating (b : bool) (l : list bool) : Prop :=
  match l with [] => True | x :: l => x = b /\ alternating (negb b) l end.
