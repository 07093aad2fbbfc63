(** Independent specification of the string helpers. *)
From Coq Require Import ZArith List Bool.
Import ListNotations.
Open Scope Z_scope.

(** ASCII lower case of one character code. *)
Definition lower (c : Z) : Z := if (c <? 65) || (90 <? c) then c else c + 32.
Definition lower_str : list Z -> list Z := map lower.

(** Equality ignoring ASCII case. *)
Definition same_nocase (a b : list Z) : Prop := lower_str a = lower_str b.

(** Dictionary order. *)
Inductive lex : list Z -> list Z -> Prop :=
| lex_nil  : forall y b, lex [] (y :: b)
| lex_head : forall x y a b, x < y -> lex (x :: a) (y :: b)
| lex_tail : forall x a b, lex a b -> lex (x :: a) (x :: b).

(** Space and tab separate words. *)
Definition blank (c : Z) : Prop := c = 32 \/ c = 9.
Definition blankb (c : Z) : bool := (c =? 32) || (c =? 9).

(** The words of a string: its maximal runs of non-blank characters, in order. *)
Fixpoint words (s : list Z) : list (list Z) :=
  match s with
  | [] => []
  | c :: s' =>
    if blankb c then words s'
    else match s' with
         | [] => [[c]]
         | d :: _ => if blankb d then [c] :: words s'
                     else match words s' with
                          | w :: ws => (c :: w) :: ws
                          | [] => [[c]]
                          end
         end
  end.

(** A word: non-empty, no blanks. *)
Definition is_word (w : list Z) : Prop := w <> [] /\ Forall (fun c => ~ blank c) w.
(** Text in which words are found back. *)
Fixpoint join (ws : list (list Z)) : list Z :=
  match ws with
  | [] => []
  | [w] => w
  | w :: ws => w ++ [32] ++ join ws
  end.
