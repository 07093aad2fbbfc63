(** What beeps should sound like. *)
From Coq Require Import ZArith List Bool.
From Verif Require Import BeepModel.
Import ListNotations.
Local Open Scope Z_scope.

(** The numbers 0 .. n - 1. *)
Definition upto (n : Z) : list Z := map Z.of_nat (seq 0 (Z.to_nat n)).
(** A square wave of half period [f] that goes on from value [v], in the other direction (up,
    if [v] is not positive); silence for [f] = 0. *)
Definition first (v : Z) : Z := if v <=? 0 then 200 else -200.
Definition wave (f v k : Z) : Z :=
  if f =? 0 then 0 else if Z.even (k / f) then first v else - first v.
(** Sample [k] of a beep that starts with [x] samples of [v] left from before. *)
Definition sound (f x v k : Z) : Z := if k <? x then v else wave f v (k - x).
(** What is left when [n] samples of it have been played. *)
Definition left_x (f n x : Z) : Z := if n <=? x then x - n else if f =? 0 then 0 else (- (n - x)) mod f.
Definition left_v (f n x v : Z) : Z := if n <=? x then v else wave f v (n - x - 1).
(** A list of beeps, one after the other, each for its whole length. *)
Fixpoint song (x v : Z) (q : list (Z * Z)) : list Z :=
  match q with
  | [] => []
  | (f, n) :: q => map (sound f x v) (upto n) ++ song (left_x f n x) (left_v f n x v) q
  end.
(** A queue of beeps with a length. *)
Definition proper (b : beeper) : Prop :=
  0 <= x_ b /\ Forall (fun p => 0 <= fst p /\ 0 < snd p) (q b).
Definition samples (b : beeper) : Z := fold_right (fun p s => snd p + s) 0 (q b).
(** Several reads in a row. *)
Fixpoint reads (b : beeper) (sizes : list Z) : list Z * beeper :=
  match sizes with
  | [] => ([], b)
  | n :: sizes => let '(o, b) := Read b n in let '(o', b) := reads b sizes in (o ++ o', b)
  end.
