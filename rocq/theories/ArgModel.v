(** Style argument parsing: common/arg_parser.h and styles/style_parser.h. *)
From Coq Require Import ZArith List Bool.
From Verif Require Import StrModel.
Import ListNotations.
Open Scope Z_scope.

Definition tilde : Z := 126.

(** common/arg_parser.h:30-44 ArgParser::GetArg.  [None] = the default is returned,
    otherwise the suffix (pointer) at which the argument starts.  The loop consumes
    at least one character per round; the length is enough fuel. *)
Fixpoint get_arg_go (fuel : nat) (ret : str) (arg arg_num : Z) : option str :=
  match fuel with
  | O => None
  | S f =>
    let ret := SkipSpace ret in
    match ret with
    | [] => None
    | c :: _ =>
      let arg := arg + 1 in
      if arg =? arg_num then (if c =? tilde then None else Some ret)
      else get_arg_go f (skip_nonblank ret) arg arg_num
    end
  end.
Definition get_arg_ptr (s : str) (arg_num : Z) : option str :=
  get_arg_go (S (length s)) s 0 arg_num.
Definition GetArg (s : str) (arg_num : Z) (default : str) : str :=
  match get_arg_ptr s arg_num with Some p => p | None => default end.

(** common/arg_parser.h:45-47 ArgParser::Shift (while (words-- > 0) ...). *)
Definition Shift (s : str) (words : Z) : str := Nat.iter (Z.to_nat words) SkipWord s.

(** common/arg_parser.h:255-269 DefaultArgumentParserWrapper, nested around an
    ArgParser: the innermost string first, wrappers' default strings outwards. *)
Inductive parser := PArg (s : str) | PWrap (inner : parser) (defaults : str).
Fixpoint p_get (p : parser) (n : Z) (default : str) : str :=
  match p with
  | PArg s => GetArg s n default
  | PWrap inner d => p_get inner n (GetArg d n default)
  end.
Fixpoint p_shift (p : parser) (k : Z) : parser :=
  match p with
  | PArg s => PArg (Shift s k)
  | PWrap inner d => PWrap (p_shift inner k) (Shift d k)
  end.

(** A sequence of shifts. *)
Fixpoint p_shifts (p : parser) (ks : list Z) : parser :=
  match ks with [] => p | k :: ks => p_shifts (p_shift p k) ks end.

(** arg_parser.h:104-106: memcpy(output_, ret, SkipWord(ret) - ret): the bytes from
    ret to the end of its first word, leading blanks included. *)
Definition copy_word (s : str) : str :=
  firstn (length s - length (SkipWord s)) s.

(** common/arg_parser.h:127-188 BitSet<SIZE>: the 32-bit words are abstracted to one
    number whose bits are the concatenated words; popcount as the count of bits. *)
Definition bs_get (b : Z) (i : Z) : bool := Z.testbit b i.
Definition bs_set (b : Z) (i : Z) : Z := Z.setbit b i.
Definition bs_clear (b : Z) (i : Z) : Z := Z.clearbit b i.
Fixpoint bs_count (n : nat) (b : Z) : Z :=
  match n with O => 0 | S n => (if bs_get b (Z.of_nat n) then 1 else 0) + bs_count n b end.
(** 151-157 next: i = 1 .. SIZE *)
Fixpoint bs_next_go (k : nat) (size : Z) (b bit i : Z) : option Z :=
  match k with
  | O => None
  | S k => let j := (bit + i) mod size in
           if bs_get b j then Some j else bs_next_go k size b bit (i + 1)
  end.
Definition bs_next (size : nat) (b bit : Z) : Z :=
  match bs_next_go size (Z.of_nat size) b bit 1 with Some j => j | None => bit end.
(** 158-164 prev *)
Fixpoint bs_prev_go (k : nat) (size : Z) (b bit i : Z) : option Z :=
  match k with
  | O => None
  | S k => let j := (bit + size - i) mod size in
           if bs_get b j then Some j else bs_prev_go k size b bit (i + 1)
  end.
Definition bs_prev (size : nat) (b bit : Z) : Z :=
  match bs_prev_go size (Z.of_nat size) b bit 1 with Some j => j | None => bit end.
(** 165-174 nth: i = 0 .. SIZE inclusive; reading bit SIZE is outside the array. *)
Inductive nres := NRes (i : Z) | NOutOfBounds.
Fixpoint bs_nth_go (k : nat) (size : Z) (b i bit : Z) : nres :=
  match k with
  | O => NRes 0
  | S k =>
    if i >=? size then NOutOfBounds else
    if bs_get b i then (if bit <=? 0 then NRes i else bs_nth_go k size b (i + 1) (bit - 1))
    else bs_nth_go k size b (i + 1) bit
  end.
Definition bs_nth (size : nat) (b bit : Z) : nres :=
  bs_nth_go (S size) (Z.of_nat size) b 0 bit.
(** 175-184 operator>>= *)
Fixpoint bs_shift_go (k : nat) (size : Z) (b i bits : Z) : Z :=
  match k with
  | O => b
  | S k =>
    let b' := if (i + bits <? size) && bs_get b (i + bits) then bs_set b i else bs_clear b i in
    bs_shift_go k size b' (i + 1) bits
  end.
Definition bs_shift (size : nat) (b bits : Z) : Z :=
  if bits =? 0 then b else bs_shift_go size (Z.of_nat size) b 0 bits.
