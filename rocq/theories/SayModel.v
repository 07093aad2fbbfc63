(** Spoken numbers. *)
From Coq Require Import ZArith List Bool.
Import ListNotations.
Open Scope Z_scope.

(** sound/sound_library.h:199-233 the sounds used: [Mnum i] is sound number i (counted from 0) of the
    effect mnum, the others are files: mzero, mnum/mnum20, thirty ... ninety, hundred, thousand, mpoint. *)
Inductive sound := SZero | Mnum (selection : Z) | Tens (v : Z) | Hundred | Thousand | Point.

(** sound/sound_library.h:103-138 SayWhole; C's / and % round towards zero.  [fuel]: the depth of
    the recursion; an int needs at most five levels (SayProofs). *)
Fixpoint say_whole (fuel : nat) (number : Z) : option (list sound) :=
  match fuel with
  | O => None
  | S fuel =>
      if number =? 0 then Some [SZero]
      else
        let thousands := Z.quot number 1000 in
        match (if thousands =? 0 then Some ([], number)
               else option_map (fun l => (l ++ [Thousand], Z.rem number 1000)) (say_whole fuel thousands)) with
        | None => None
        | Some (l1, number) =>
            let hundreds := Z.quot number 100 in
            match (if hundreds =? 0 then Some ([], number)
                   else option_map (fun l => (l ++ [Hundred], Z.rem number 100)) (say_whole fuel hundreds)) with
            | None => None
            | Some (l2, number) =>
                let tens := Z.quot number 10 in
                let number := Z.rem number 10 in
                let '(l3, number) := if (2 <=? tens) && (tens <=? 9) then ([Tens (10 * tens)], number) else ([], number + tens * 10) in
                let l4 := if number =? 0 then [] else [Mnum (number - 1)] in
                Some (l1 ++ l2 ++ l3 ++ l4)
            end
        end
  end.

(** sound/sound_library.h:140-154 SayNumber for the number [hundredths] / 100 (of which only the
    floor and the hundredths matter); [decimal] = SAY_DECIMAL.  Simplification: the float arithmetic
    is exact. *)
Definition say_number (fuel : nat) (hundredths : Z) (decimal : bool) : option (list sound) :=
  match say_whole fuel (hundredths / 100) with
  | None => None
  | Some l =>
      if decimal then
        let h := hundredths mod 100 in
        match say_whole fuel (Z.quot h 10), say_whole fuel (Z.rem h 10) with
        | Some a, Some b => Some (l ++ [Point] ++ a ++ b)
        | _, _ => None
        end
      else Some l
  end.

(** sound/sound_queue.h:43-49 SoundQueue<16>::Play for each sound of a list, with [n] sounds waiting;
    the sounds that are queued *)
Fixpoint queue_all (n : nat) (l : list sound) : list sound :=
  match l with
  | [] => []
  | s :: l => if (n <? 16)%nat then s :: queue_all (S n) l else queue_all n l
  end.

(** sound/sound_queue.h:11, 22-32 the file name of a color: SoundToPlay(R, G, B)::Play *)
Definition color_selection (r g b : Z) : Z := Z.shiftl r 16 + Z.shiftl g 8 + b.
Definition hex_char (d : Z) : Z := nth (Z.to_nat d) [48; 49; 50; 51; 52; 53; 54; 55; 56; 57; 97; 98; 99; 100; 101; 102] 0.
Fixpoint color_digits (n : Z) (count : nat) : list Z :=
  match count with
  | O => []
  | S count => hex_char (Z.land (Z.shiftr n 20) 15) :: color_digits (Z.shiftl n 4 mod 2 ^ 32) count
  end.
(** "colors/" and ".wav" *)
Definition color_file (r g b : Z) : list Z := [99; 111; 108; 111; 114; 115; 47] ++ color_digits (color_selection r g b) 6 ++ [46; 119; 97; 118].
