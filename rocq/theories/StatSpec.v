(** What the status LED should show. *)
From Coq Require Import ZArith QArith Qabs List Bool.
From Verif Require Import StatModel.
Import ListNotations.
Local Open Scope Z_scope.

(** Time from one reading of a 32-bit clock to another *)
Definition elapsed (a b : Z) : Z := (b - a) mod 4294967296.
(** [n] flashes of a quarter of a second, each after a quarter of a second of dark *)
Definition flash (n d : Z) : Z := if (d <? 500 * n) && (250 <? d mod 500) then 32768 else 0.
(** ... and a second and a half of dark at the end *)
Definition length_of (n : Z) : Z := 500 * (n + 3).
(** When the round that is on at the last of the times [ts] began *)
Fixpoint began (n start : Z) (ts : list Z) : Z :=
  match ts with
  | [] => start
  | t :: ts => began n (if length_of n <=? elapsed start t then t else start) ts
  end.
(** Calls of Loop that are not too close to each other to count *)
Fixpoint spaced (last : Z) (ts : list Z) : Prop :=
  match ts with [] => True | t :: ts => 5 <= elapsed last t /\ spaced t ts end.

(** Something to show other than blinks *)
Definition wanted (i : input) : bool := ignited i || usb_on i || motion i || charging i.
(** A history *)
Inductive event := EBlink (n : Z) (again : bool) (now : Z) | ELoop (i : input).
Definition happen (l : led) (e : event) : led :=
  match e with EBlink n again now => Blink n again now l | ELoop i => Loop i l end.
Definition fresh (l : led) : Prop := active l = false /\ pin l = None /\ blinks l = 0 /\ (pos l == 0)%Q.
Definition after (l : led) (es : list event) : led := fold_left happen es l.
Definition turn_eq (p q : Q) : Prop := exists k : Z, (p == q + inject_Z k)%Q.
(** How bright a place in the cycle is: a saw with USB, up and down without *)
Definition wave (usb : bool) (p : Q) : Q := if usb then p else (1 - Qabs (2 * p - 1))%Q.
