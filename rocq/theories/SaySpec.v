(** What a sequence of spoken words means. *)
From Coq Require Import ZArith List Bool.
From Verif Require Import SayModel.
Import ListNotations.
Open Scope Z_scope.

(** The words are heard one after the other.  [big] is what has been multiplied by a thousand so far,
    [small] the part being said: hundred multiplies the part being said, thousand everything said. *)
Fixpoint hear (big small : Z) (l : list sound) : option Z :=
  match l with
  | [] => Some (big + small)
  | SZero :: l => hear big small l
  | Mnum i :: l => if (0 <=? i) && (i <? 19) then hear big (small + (i + 1)) l else None
  | Tens v :: l => if existsb (Z.eqb v) [20; 30; 40; 50; 60; 70; 80; 90] then hear big (small + v) l else None
  | Hundred :: l => hear big (small * 100) l
  | Thousand :: l => hear ((big + small) * 1000) 0 l
  | Point :: _ => None
  end.
Definition heard (l : list sound) : option Z := match l with [] => None | _ => hear 0 0 l end.
(** A single spoken digit. *)
Definition digit_word (d : Z) : list sound := if d =? 0 then [SZero] else [Mnum (d - 1)].
(** A hexadecimal digit as a character, in lower case. *)
Definition lower_hex (d : Z) : Z := if d <? 10 then 48 + d else 97 + (d - 10).
