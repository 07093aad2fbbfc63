(** styles/style_parser.h: reading, setting and copying style arguments. *)
From Coq Require Import ZArith List Bool.
From Verif Require Import StrModel ArgModel.
Import ListNotations.
Open Scope Z_scope.

(** What constructing a style does to the argument parser: the calls of
    CurrentArgParser->GetArg and ->Shift made by make() (functions/int_arg.h:19-24,
    styles/rgb_arg.h:25-33).  Names are dropped; a template makes a fixed list of calls. *)
Inductive call := CGet (n : Z) (default : str) | CShift (k : Z).

(** A named style (style_parser.h:8-13): an ordinary template, or the builtin
    allocator (15-39), which reads arguments 1 and 2 (defaults 0 and 1), picks a
    preset's style by them, shifts by 2 and builds it.  Simplification: for an
    invalid preset the code stops before Shift(2); here the list of calls after the
    shift is then empty. *)
Inductive style := Plain (calls : list call) | Builtin (pick : str -> str -> list call).

Definition zero_text : str := [48].
Definition one_text : str := [49].

(** The calls made by make() when the parser was given [s] (= the text after the name). *)
Definition make_calls (st : style) (s : str) : list call :=
  match st with
  | Plain cs => cs
  | Builtin pick =>
    CGet 1 zero_text :: CGet 2 one_text :: CShift 2 ::
    pick (take_nonblank (GetArg s 1 zero_text)) (take_nonblank (GetArg s 2 one_text))
  end.

(** style_parser.h:120-129 FindStyle over the table of named styles. *)
Fixpoint FindStyle (table : list (str * style)) (name : str) : option style :=
  match table with
  | [] => None
  | (n, st) :: table => if FirstWord name n then Some st else FindStyle table name
  end.

(** common/arg_parser.h:94-125 GetArgParser driven by make(): the output text if the
    argument was asked for (the last matching GetArg wins). *)
Fixpoint ga_run (cs : list call) (s : str) (offset argument : Z) (out : option str) : option str :=
  match cs with
  | [] => out
  | CGet n d :: cs =>
    let ret := GetArg s n d in
    ga_run cs s offset argument (if argument =? n + offset then Some (copy_word ret) else out)
  | CShift k :: cs => ga_run cs (Shift s k) (offset + k) argument out
  end.

(** style_parser.h:238-263 GetArgument.  Result: return value and the text left in
    output; [None] = output not written. *)
Definition GetArgument (table : list (str * style)) (s : str) (argument : Z) : bool * option str :=
  match FindStyle table s with
  | None => (false, None)
  | Some st =>
    let out := if argument >=? 0
               then ga_run (make_calls st (SkipWord s)) (SkipWord s) 0 argument None
               else None in
    match out with
    | Some o => (true, Some o)
    | None =>
      if argument >=? CountWords s then (false, Some [])
      else
        let p := SkipSpace (Nat.iter (Z.to_nat argument) SkipWord s) in
        let w := copy_word p in
        match w with
        | [126] => (false, Some [])
        | _ => (true, Some w)
        end
    end
  end.

(** style_parser.h:268-287 SetArgument.  [garbage] is the string that happens to be
    in the uninitialised buffer ret[512].  Simplification: the overflow test is made
    on the final text (with its NUL). *)
Inductive set_res := SetOk (r : str) | SetOverflow.
Definition set_piece (table : list (str * style)) (s : str) (argument : Z) (v garbage : str) (i : Z) : str :=
  let here := if i =? 0 then garbage else [32] in
  if i =? argument then here ++ v
  else match GetArgument table s i with
       | (true, Some o) => (if i =? 0 then [] else [32]) ++ o
       | (true, None) => here
       | (false, Some o) => (if i =? 0 then [] else [32]) ++ o ++ [126]
       | (false, None) => here ++ [126]
       end.
Fixpoint set_loop (table : list (str * style)) (s : str) (argument : Z) (v garbage : str)
    (k : nat) (i : Z) : str :=
  match k with
  | O => []
  | S k => set_piece table s argument v garbage i ++ set_loop table s argument v garbage k (i + 1)
  end.
Definition SetArgument table s argument v garbage : set_res :=
  let output_args := Z.max (CountWords s) (argument + 1) in
  let r := set_loop table s argument v garbage (Z.to_nat output_args) 0 in
  if Z.of_nat (length r) <? 512 then SetOk r else SetOverflow.

Definition builtin_text : str := [98; 117; 105; 108; 116; 105; 110].

(** style_parser.h:292-298: the text after the style identifier, and the identifier. *)
Definition after_identifier (s : str) : str :=
  if FirstWord s builtin_text then SkipWord (SkipWord (SkipWord s)) else SkipWord s.
Definition identifier (s : str) : str := firstn (length s - length (after_identifier s)) s.

(** style_parser.h:301-309 ResetArguments. *)
Definition ResetArguments (s : str) : str := identifier s.

(** A copy result: the bytes requested from malloc and the text written (without
    its terminating NUL). *)
Record copied := Copied { allocated : Z; written : str }.
(** Does the text with its NUL fit the allocation? *)
Definition fits (c : copied) : Prop := Z.of_nat (length (written c)) + 1 <= allocated c.

(** style_parser.h:313-324 CopyArguments(from, to). *)
Definition CopyArguments (from to : str) : copied :=
  Copied (Z.of_nat (length from) - Z.of_nat (length (identifier from))
            + Z.of_nat (length (identifier to)) + 1)
         (identifier to ++ after_identifier from).

(** style_parser.h:326-352 ArgumentHelper: the three parts. *)
Definition part1 (s : str) (n : Z) : str :=
  let a := after_identifier s in firstn (length a - length (Shift a n)) a.
Definition part2 (s : str) (n : Z) : str := Shift (after_identifier s) n.
(** style_parser.h:357-368 CopyArguments(from, to, keep_arguments_after). *)
Definition CopyArgumentsAfter (from to : str) (n : Z) : copied :=
  Copied (Z.of_nat (length (identifier from)) + Z.of_nat (length (part1 to n))
            + Z.of_nat (length (part2 from n)) + 1)
         (identifier to ++ part1 from n ++ part2 to n).

(** style_parser.h:370-391 ArgumentIterator: [start] and [end] as suffixes. *)
Record iter := Iter { it_start : str; it_end : str }.
Definition it_begin (s : str) : iter := Iter s (after_identifier s).
Definition it_next (i : iter) : iter := Iter (it_end i) (SkipWord (it_end i)).
Definition it_piece (i : iter) : str :=
  firstn (length (it_start i) - length (it_end i)) (it_start i).
Definition it_bool (i : iter) : bool := negb (length (it_start i) =? length (it_end i))%nat.
Definition it_text (i : iter) : str := if it_bool i then it_piece i else [32; 126].

(** style_parser.h:405-475: the loop shared by CopyArguments(keep list) and
    CopyColorArguments; [choose_to i f t] = the piece is taken from TO.  Both passes
    run the same loop: the first adds up len(), the second appends.  Fuel: the
    lengths of both strings. *)
Fixpoint copy_len (fuel : nat) (choose_to : Z -> str -> str -> bool) (arg : Z) (F T : iter) : Z :=
  match fuel with
  | O => 0
  | S f =>
    if it_bool F || it_bool T then
      (if choose_to arg (it_piece F) (it_piece T) then Z.of_nat (length (it_text T))
       else Z.of_nat (length (it_text F))) +
      copy_len f choose_to (arg + 1) (it_next F) (it_next T)
    else 0
  end.
Fixpoint copy_text (fuel : nat) (choose_to : Z -> str -> str -> bool) (arg : Z) (F T : iter) : str :=
  match fuel with
  | O => []
  | S f =>
    if it_bool F || it_bool T then
      (if choose_to arg (it_piece F) (it_piece T) then it_text T else it_text F) ++
      copy_text f choose_to (arg + 1) (it_next F) (it_next T)
    else []
  end.
Definition copy_choose (choose_to : Z -> str -> str -> bool) (from to : str) : copied :=
  let fuel := S (length from + length to) in
  Copied (copy_len fuel choose_to 0 (it_begin from) (it_begin to) + 1)
         (copy_text fuel choose_to 0 (it_begin from) (it_begin to)).
(** style_parser.h:394-400 keep. *)
Definition keep (args : list Z) (arg : Z) : bool :=
  if arg =? 0 then true else existsb (Z.eqb arg) args.
(** style_parser.h:405-438 *)
Definition CopyArgumentsKeep (from to : str) (args : list Z) : copied :=
  copy_choose (fun i _ _ => keep args i) from to.
Definition contains (c : Z) (s : str) : bool := existsb (Z.eqb c) s.
(** style_parser.h:442-475 *)
Definition CopyColorArguments (from to : str) : copied :=
  copy_choose (fun _ f t => negb (contains 44 f || contains 44 t)) from to.
