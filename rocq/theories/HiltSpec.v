(** What is expected of a saber with the default prop.  The words used are those of the
    model's state, operations and actions. *)
From Coq Require Import ZArith List Bool.
From Verif Require Import Machine ButtonModel HiltModel.
Import ListNotations.
Open Scope Z_scope.

(** Time from [t0] to the read, in ms, by the 32 bit clock. *)
Definition ago (t t0 : Z) : Z := (t - t0) mod 4294967296.

(** A history that the hardware of configuration [c] can have: with one button only that
    one is ever pressed. *)
Definition fits (c : config) (ops : list op) : Prop := single c = true -> forall k e, In (Read k true e) ops -> k = PWR.
(** No one but the user's buttons calls the saber off while it is about to ignite. *)
Fixpoint undisturbed (c : config) (h : hilt) (ops : list op) : Prop :=
  match ops with
  | [] => True
  | o :: ops => (o = CallOff -> pending (sab (cor h)) = false) /\ undisturbed c (fst (hilt_step c h o)) ops
  end.
(** [k] is never read as pressed. *)
Definition untouched (k : btn) (ops : list op) : Prop := forall e, ~ In (Read k true e) ops.
(** How often [k] is read as released. *)
Fixpoint releases (k : btn) (ops : list op) : nat :=
  match ops with
  | [] => 0
  | Read j false _ :: ops => (if match j, k with PWR, PWR | AX, AX | AX2, AX2 => true | _, _ => false end then 1 else 0) + releases k ops
  | _ :: ops => releases k ops
  end.

(** Nobody touches the saber: no button is down, no lockup, no menu. *)
Definition resting (h : hilt) : Prop :=
  (forall k, at_ (button_of h k) = P70) /\ cmods (cor h) = Mods false false false /\
  lockup (sab (cor h)) = None /\ colors (sab (cor h)) = false.
(** The number of the press that a press at time [t] would be. *)
Definition press_number (b : bstate) (t : Z) : count :=
  if ago t (push b) <? 500 then
    match presses b with Plain => First | First => Second | Second => Third | Third => Fourth | Fourth => Fourth end
  else First.

(** Reads of the buttons while only [k] is down, with [ok] for the reads of [k]. *)
Definition holding (k : btn) (ok : env -> Prop) (ops : list op) : Prop :=
  Forall (fun o => match o with Read j d e => (j = k /\ d = true /\ ok e) \/ (j <> k /\ d = false) | _ => False end) ops.
(** Reads of the buttons while none is down; [k] has been let go (its loop sees that within
    five reads), with [ok] for the reads of [k]. *)
Definition letting_go (k : btn) (ok : env -> Prop) (ops : list op) : Prop :=
  Forall (fun o => match o with Read j d e => d = false /\ (j = k -> ok e) | _ => False end) ops /\ (5 <= releases k ops)%nat.

(** How long a click lasts. *)
Inductive length_ := Short | Long | Forever.
Definition lasts (l : length_) (t t0 : Z) : Prop :=
  match l with Short => ago t t0 < 500 | Long => 500 <= ago t t0 < 2500 | Forever => 2500 <= ago t t0 end.

Definition on_or_pending (s : saber) : bool := lit s || pending s.
(** saber.h:1-26, the table for one button: what the [n]th quick press of [k] does when it goes down at time [t], ... *)
Definition at_press (s : saber) (k : btn) (n : count) (t : Z) : list act :=
  match k, n, on_or_pending s with
  | PWR, Second, true => if negb (muted s) && (ago t (activated s) <? 500) then [AMute] else []
  | AX, Second, true => [ABlast]
  | _, _, _ => []
  end.
(** ... and what it does when it comes up again. *)
Definition at_release (s : saber) (k : btn) (n : count) (l : length_) : list act :=
  match k, l, on_or_pending s with
  | PWR, Short, false => [AIgnite]
  | PWR, Short, true =>
    match n with
    | First => if pending s then [ACancel] else [ARetract] ++ (if muted s then [AUnmute] else [])
    | _ => []
    end
  | PWR, Long, false => [ATrack]
  | PWR, Long, true => [AForce]
  | AX, Short, false => [ANext]
  | AX, Short, true => [ABlast]
  | AX2, Short, false => [APrevious]
  | _, _, _ => []
  end.
(** RequestMotion only wakes up the motion sensor. *)
Definition visible (l : list act) : list act := filter (fun a => match a with AMotion => false | _ => true end) l.
(** What the actions mean for the power state. *)
Definition power (p : bool * bool * bool) (a : act) : bool * bool * bool :=
  let '(l, pe, mu) := p in
  match a with
  | AIgnite => (l, true, mu) | ACancel => (l, false, mu) | ARetract => (false, false, mu)
  | AMute => (l, pe, true) | AUnmute => (l, pe, false) | _ => p
  end.
Definition power_of (s : saber) : bool * bool * bool := (lit s, pending s, muted s).
(** Everything the saber did, in order. *)
Definition acts (c : config) (h : hilt) (ops : list op) : list act := concat (run_outs (hilt_step c) h ops).
Definition final (c : config) (h : hilt) (ops : list op) : hilt := run_state (hilt_step c) h ops.

(** Reads of the buttons, [down j]: is [j] down?, with [ok] for the reads. *)
Definition reads (down : btn -> bool) (ok : btn -> env -> Prop) (ops : list op) : Prop :=
  Forall (fun o => match o with Read j d e => d = down j /\ ok j e | _ => False end) ops.
Definition just (a j : btn) : bool := match a, j with PWR, PWR | AX, AX | AX2, AX2 => true | _, _ => false end.
(** The same with clashes and stabs. *)
Definition reads_hits (down : btn -> bool) (ops : list op) : Prop :=
  Forall (fun o => match o with Read j d _ => d = down j | Hit _ _ => True | _ => False end) ops.
(** What hitting something does while POWER or AUX is held: a lockup, a drag if the blade pointed down, or a melt. *)
Definition hit_lockup (stab tip_down : bool) : lk := if stab then MELT else if tip_down then DRAG else NORMAL.
(** While [a] is held, [b] is clicked: what that does, and what letting go of [a] does then. *)
Definition with_held (s : saber) (a b : btn) : option (list act * list act) :=
  match a, b, on_or_pending s with
  | AX, PWR, false => Some ([APrevious], [])
  | PWR, AX, true => Some ([ALock LIGHTNING], [AEndLock])
  | _, _, _ => None
  end.
Definition both (a b j : btn) : bool := just a j || just b j.
