(** Specification for style strings, in terms of words. *)
From Coq Require Import ZArith List Bool.
From Verif Require Import StrSpec StyleModel.
Import ListNotations.
Open Scope Z_scope.

(** A usable argument text: a word that does not start with '~'. *)
Definition arg_text (w : list Z) : Prop := is_word w /\ hd 0 w <> 126.

(** Well-formed calls: argument numbers from 1, shifts not negative, defaults usable. *)
Definition call_ok (c : call) : Prop :=
  match c with CGet n d => 1 <= n /\ arg_text d | CShift k => 0 <= k end.
Definition style_ok (st : style) : Prop :=
  match st with
  | Plain cs => Forall call_ok cs
  | Builtin pick => forall a b, Forall call_ok (pick a b)
  end.
Definition table_ok (t : list (list Z * style)) : Prop :=
  Forall (fun e => is_word (fst e) /\ style_ok (snd e)) t.

(** No blank at the very end. *)
Definition tidy (s : list Z) : Prop := forall a c, s = a ++ [c] -> ~ blank c.

(** Arguments that may be changed without changing which style is meant. *)
Definition settable (st : style) (n : Z) : Prop :=
  match st with Plain _ => 1 <= n | Builtin _ => 3 <= n end.

(** The number of words naming the style: 3 for "builtin X Y", else 1. *)
Definition id_words (s : list Z) : nat :=
  match words s with
  | [98; 117; 105; 108; 116; 105; 110] :: _ => 3
  | _ => 1
  end.
(** The words naming the style and those that are its arguments. *)
Definition name_words (s : list Z) : list (list Z) := firstn (id_words s) (words s).
Definition arg_words (s : list Z) : list (list Z) := skipn (id_words s) (words s).

(** Combine two argument lists position by position; missing ones become "~".
    [choose_to i f t]: take position i (whose words are f and t, empty if missing)
    from the target. *)
Fixpoint merge (choose_to : Z -> list Z -> list Z -> bool) (i : Z) (k : nat)
    (f t : list (list Z)) : list (list Z) :=
  match k with
  | O => []
  | S k => hd [126] (if choose_to i (hd [] f) (hd [] t) then t else f) ::
           merge choose_to (i + 1) k (tl f) (tl t)
  end.
