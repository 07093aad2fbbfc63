(** What picking lines must do. *)
From Coq Require Import ZArith List Bool Permutation Sorted.
From Verif Require Import StrModel StrSpec.
Import ListNotations.
Open Scope Z_scope.

(** Order ignoring case (StrSpec), and byte order. *)
Definition before (a b : str) : Prop := lex (lower_str a) (lower_str b).
(** [s] is the sorted list of these lines. *)
Definition sorted_lines (lines s : list str) : Prop := Permutation s lines /\ StronglySorted before s.
(** Lines a command can print and the finder can find: not empty, and starting with a character
    below 127. *)
Definition plain (l : str) : Prop := match l with [] => False | c :: _ => 0 <= c < 127 end.

(** Printing lines, each ended by \n or \r\n. *)
Definition printable (l : str) : Prop := ~ In 10 l /\ ~ In 13 l.
Fixpoint printed (ls : list (str * bool)) : list Z :=
  match ls with
  | [] => []
  | (l, cr) :: ls => l ++ (if cr then [13; 10] else [10]) ++ printed ls
  end.

(** The neighbour of [p] in (reversed) byte order: [None] if there is none. *)
Definition comes_next (reverse : bool) (a b : str) : Prop := if reverse then lex b a else lex a b.
Definition after (reverse : bool) (p : option str) (l : str) : Prop := match p with None => True | Some p => comes_next reverse p l end.
Definition is_next (reverse : bool) (p : option str) (lines : list str) (r : option str) : Prop :=
  match r with
  | None => forall l, In l lines -> ~ after reverse p l
  | Some r => In r lines /\ after reverse p r /\ forall l, In l lines -> after reverse p l -> ~ comes_next reverse l r
  end.
