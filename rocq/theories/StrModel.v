(** String helpers.  A C string is the list of its characters (as Z codes, none
    of them 0) without the terminating NUL; a pointer into a string is the
    remaining suffix.  Reading the NUL is reading the empty suffix. *)
From Coq Require Import ZArith List Bool.
Import ListNotations.
Open Scope Z_scope.

Definition str := list Z.

(** *p, 0 at the end of the string. *)
Definition hd0 (s : str) : Z := match s with [] => 0 | c :: _ => c end.

(** common/string_piece.h:4-6 toLower.  Characters are taken as unsigned codes
    (plain char is unsigned on the ARM targets). *)
Definition toLower (x : Z) : Z :=
  if (65 <=? x) && (x <=? 90) then x - 65 + 97 else x.

(** common/string_piece.h:14-29 StringPiece::cmp. *)
Fixpoint cmp (a b : str) : Z :=
  match a, b with
  | [], [] => 0
  | [], _ :: _ => -1
  | _ :: _, [] => 1
  | x :: a, y :: b =>
    if toLower x =? toLower y then cmp a b
    else if toLower x <? toLower y then -1 else 1
  end.
(** common/string_piece.h:30-35 operators; >= as written in the code. *)
Definition sp_lt a b := cmp a b <? 0.
Definition sp_gt a b := cmp a b >? 0.
Definition sp_le a b := cmp a b <=? 0.
Definition sp_ge a b := cmp a b <=? 0.
Definition sp_eq a b := cmp a b =? 0.
Definition sp_ne a b := negb (cmp a b =? 0).

(** common/strfun.h:6-13 startswith: the rest of x after the prefix, or nullptr. *)
Fixpoint startswith (prefix x : str) : option str :=
  match prefix with
  | [] => Some x
  | p :: prefix =>
    match x with
    | [] => None                       (* toLower(0) differs from any prefix char *)
    | c :: x => if toLower c =? toLower p then startswith prefix x else None
    end
  end.

(** common/strfun.h:15-24 cmpdir. *)
Fixpoint cmpdir (a b : str) : Z :=
  match a, b with
  | [], [] => 0
  | x :: a', y :: b' =>
    if toLower x =? toLower y then cmpdir a' b' else toLower x - toLower y
  | [], y :: _ => if y =? 47 then 0 else 0 - toLower y
  | x :: _, [] => if x =? 47 then 0 else toLower x
  end.

(** common/strfun.h:26-34 parse1hex / parse2hex, as written (> 'a'). *)
Definition parse1hex (x : Z) : Z :=
  let r := toLower x in if r >? 97 then r - 97 + 10 else r - 48.
Definition parse2hex (x y : Z) : Z := Z.lor (Z.shiftl (parse1hex x) 4) (parse1hex y).

(** common/strfun.h:36-46 endswith. *)
Fixpoint eq_nocase_prefix (postfix x : str) : bool :=
  match postfix with
  | [] => true
  | p :: postfix =>
    match x with
    | [] => false
    | c :: x => if toLower c =? toLower p then eq_nocase_prefix postfix x else false
    end
  end.
Definition endswith (postfix x : str) : bool :=
  if (length x <? length postfix)%nat then false
  else eq_nocase_prefix postfix (skipn (length x - length postfix) x).

Definition is_blank (c : Z) : bool := (c =? 32) || (c =? 9).

(** common/strfun.h:48-51 SkipSpace. *)
Fixpoint SkipSpace (s : str) : str :=
  match s with
  | c :: s' => if is_blank c then SkipSpace s' else s
  | [] => []
  end.
(** common/strfun.h:53-57 SkipWord (second loop, then the whole). *)
Fixpoint skip_nonblank (s : str) : str :=
  match s with
  | c :: s' => if is_blank c then s else skip_nonblank s'
  | [] => []
  end.
Definition SkipWord (s : str) : str := skip_nonblank (SkipSpace s).
(** The characters SkipWord's second loop passes over: what a consumer of a word
    pointer reads (e.g. common/arg_parser.h:104-106). *)
Fixpoint take_nonblank (s : str) : str :=
  match s with
  | c :: s' => if is_blank c then [] else c :: take_nonblank s'
  | [] => []
  end.
(** common/strfun.h:59-66 CountWords; every round consumes a character, so the
    length of the string is enough fuel. *)
Fixpoint count_words (fuel : nat) (s : str) : Z :=
  match fuel, s with
  | _, [] => 0
  | O, _ => 0
  | S f, _ => 1 + count_words f (SkipWord s)
  end.
Definition CountWords (s : str) : Z := count_words (length s) s.

(** common/arg_parser.h:14-24 FirstWord. *)
Fixpoint first_word (s word : str) : bool :=
  match s, word with
  | [], [] => true
  | c :: s', w :: word' => if c =? w then first_word s' word' else false
  | [], _ :: _ => false
  | c :: _, [] => is_blank c
  end.
Definition FirstWord (s word : str) : bool := first_word (SkipSpace s) word.

(** common/strfun.h:127-144 format_pattern: the characters written. *)
Definition star : Z := 42.
Fixpoint format_pattern (pattern value : str) : str :=
  match pattern with
  | [] => []
  | c :: p => if c =? star then value ++ format_pattern p value
              else c :: format_pattern p value
  end.
Fixpoint count_stars (p : str) : Z :=
  match p with [] => 0 | c :: p => (if c =? star then 1 else 0) + count_stars p end.
(** common/strfun.h:128-131: the number of bytes allocated (size_t arithmetic). *)
Definition format_alloc (pattern value : str) : Z :=
  (Z.of_nat (length pattern) +
   (count_stars pattern * ((Z.of_nat (length value) - 1) mod 2^32)) mod 2^32 + 1) mod 2^32.

(** common/strfun.h:146-174 match_pattern.  [None] stands for the null
    StringPiece(); [Some []] for a non-null empty one.  [MDivZero] is the division
    by zero when there is no star; [ret_length < 0] is tested on the int. *)
Inductive mres := MDivZero | MRes (r : option str).
Fixpoint match_go (p v : str) (n : nat) (ret : option str) : option str :=
  match p with
  | [] => ret
  | c :: p' =>
    if c =? star then
      let piece := firstn n v in
      match ret with
      | None | Some [] => match_go p' (skipn n v) n (Some piece)
      | Some r => if sp_ne r piece then None else match_go p' (skipn n v) n ret
      end
    else if hd0 v =? c then match_go p' (skipn 1 v) n ret else None
  end.
Definition match_pattern (pattern value : str) : mres :=
  let stars := count_stars pattern in
  let rl := Z.of_nat (length value) - (Z.of_nat (length pattern) - stars) in
  if rl <? 0 then MRes None
  else if stars =? 0 then MDivZero
  else if negb (rl mod stars =? 0) then MRes None
  else MRes (match_go pattern value (Z.to_nat (rl / stars)) None).
