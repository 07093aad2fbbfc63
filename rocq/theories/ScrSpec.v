(** What the lines of a screen file mean (the comment at the top of layer_controller.h). *)
From Coq Require Import ZArith List Bool.
From Verif Require Import ScrModel SoundModel.
Import ListNotations.
Local Open Scope Z_scope.

Inductive directive :=
| DLayer
| DFile (name : list Z)
| DRestart
| DTime (ms : list Z)
| DVariable (which : nat) (value : list Z).

(** How a directive is written on a line of its own. *)
Definition written (d : directive) : list Z :=
  match d with
  | DLayer => [108; 97; 121; 101; 114]
  | DFile v => [102; 105; 108; 101; 61] ++ v
  | DRestart => [114; 101; 115; 116; 97; 114; 116]
  | DTime v => [116; 105; 109; 101; 61] ++ v
  | DVariable k v => [65 + Z.of_nat k; 61] ++ v
  end.
(** A value that can be written: short, and without the characters that end it. *)
Definition clean (v : list Z) : Prop :=
  (length v <= 150)%nat /\ Forall (fun c => c <> 0 /\ c <> 10 /\ c <> 13 /\ c <> 35) v.
Definition writable (d : directive) : Prop :=
  match d with
  | DFile v | DTime v => clean v
  | DVariable k v => (k < 5)%nat /\ clean v
  | _ => True
  end.
(** A file of such lines, each ended by one of the two line ends. *)
Definition text_of (ds : list (directive * bool)) : list Z :=
  concat (map (fun d : directive * bool => written (fst d) ++ [if snd d then 10 else 13]) ds).

(** What the layers are told.  [cur] is the layer, [same] that its file line named the file
    that it is showing already, [ahead] that a restart line has come before; [shown] is the file
    each layer shows. *)
Definition show (cur : nat) (f : list Z) (shown : nat -> list Z) : nat -> list Z :=
  fun i => if (i =? cur)%nat then f else shown i.
Fixpoint play (n : nat) (path : list Z -> list Z) (sound : Z) (cur : nat) (same ahead : bool)
    (shown : nat -> list Z) (ds : list directive) : list call :=
  match ds with
  | [] => []
  | DLayer :: ds => if (S cur <? n)%nat then play n path sound (S cur) false ahead shown ds else []
  | DFile v :: ds =>
    if list_eq_dec Z.eq_dec (shown cur) (path v) then
      if ahead then Restarted cur :: play n path sound cur same ahead shown ds
      else play n path sound cur true ahead shown ds
    else Played cur (path v) :: play n path sound cur same ahead (show cur (path v) shown) ds
  | DRestart :: ds =>
    if same then Restarted cur :: play n path sound cur false ahead shown ds
    else play n path sound cur same true shown ds
  | DTime v :: ds =>
    Timed cur (if list_eq_dec Z.eq_dec v [102; 114; 111; 109; 95; 115; 111; 117; 110; 100] then sound else fst (strtol v))
    :: play n path sound cur same ahead shown ds
  | DVariable k v :: ds =>
    Linked cur k (if list_eq_dec Z.eq_dec v [98; 97; 116; 116; 101; 114; 121] then Battery
                  else if list_eq_dec Z.eq_dec v [118; 111; 108; 117; 109; 101] then Volume else Unknown)
    :: play n path sound cur same ahead shown ds
  end.
Definition layer_of (c : call) : nat :=
  match c with Restarted l => l | Played l _ => l | Timed l _ => l | Linked l _ _ => l end.
Definition nth_name (names : list (list Z)) (i : nat) : list Z := nth i names [].
