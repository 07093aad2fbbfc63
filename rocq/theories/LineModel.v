(** Model of common/command_parser.h:82-246 (SortedLineHelper) and common/stdout.h:84-214: picking
    lines out of the output of a command.  A line is its characters, as in StrModel. *)
From Coq Require Import ZArith List Bool.
From Verif Require Import StrModel.
Import ListNotations.
Open Scope Z_scope.

(** stdout.h:197-210 CommandOutputCaptureHelper::write: the line being collected and the lines
    handed to GotLine. *)
Definition capture1 (maxline : Z) (s : str * list str) (b : Z) : str * list str :=
  if b =? 10 then (match fst s with [] => s | _ => ([], snd s ++ [fst s]) end)
  else if b =? 13 then s
  else if Z.of_nat (length (fst s)) <? maxline - 1 then (fst s ++ [b], snd s) else s.
Definition capture (maxline : Z) (bytes : list Z) : list str := snd (fold_left (capture1 maxline) bytes ([], [])).

(** stdout.h:84-110 CatchCommandOutput, used by RunCommandAndGetSingleLine: number of the line being
    written, and the target buffer of [bufsize] bytes. *)
Definition catch1 (target bufsize : Z) (s : Z * str) (b : Z) : Z * str :=
  if b =? 10 then (fst s + 1, snd s)
  else if b =? 13 then s
  else if (fst s =? target) && (bufsize - Z.of_nat (length (snd s)) >? 1) then (fst s, snd s ++ [b]) else s.
(** The buffer and the result, num_lines(). *)
Definition get_single_line (target bufsize : Z) (bytes : list Z) : str * Z :=
  let s := fold_left (catch1 target bufsize) bytes (1, []) in (snd s, fst s - 1).

(** strcmp *)
Fixpoint strcmp (a b : str) : Z :=
  match a, b with
  | [], [] => 0
  | [], _ :: _ => -1
  | _ :: _, [] => 1
  | x :: a, y :: b => if x =? y then strcmp a b else x - y
  end.
(** stdout.h:121-141 GetNextLineCommandOutput, on the lines collected as above ([MAXLINE] and the
    splitting into lines are the same as in CommandOutputCaptureHelper). *)
Definition next_compare (reverse : bool) (a b : str) : bool := if reverse then strcmp a b >? 0 else strcmp a b <? 0.
Definition next_got (reverse : bool) (previous : option str) (found : option str) (l : str) : option str :=
  if match previous with None => true | Some p => next_compare reverse p l end
  then match found with
       | None => Some l
       | Some f => if next_compare reverse l f then Some l else found
       end
  else found.
Definition next_line (reverse : bool) (previous : option str) (lines : list str) : option str :=
  fold_left (next_got reverse previous) lines None.

(** command_parser.h:102-118 InitialPositionFinder; 87-100 init: (total, lower, exists). *)
Definition position1 (cur : str) (s : Z * Z * Z) (l : str) : Z * Z * Z :=
  let '(total, higher, lower) := s in
  if cmp l cur >? 0 then (total + 1, higher + 1, lower)
  else if cmp l cur <? 0 then (total + 1, higher, lower + 1)
  else (total + 1, higher, lower).
Record helper := Helper { num_lines : Z; cur_pos : Z; cur_exists : bool; line : str; line_no : Z }.
Definition init (lines : list str) (cur : str) : helper :=
  let '(total, higher, lower) := fold_left (position1 cur) lines (0, 0, 0) in
  Helper total lower (lower + higher + 1 =? total) [] (-1).

(** 120-154 SortedLineFinder::GotLine.  An empty line means none. *)
Record scan := Scan { ret : str; guess : str; num_lower : Z; num_higher : Z }.
Definition got_line (min max : str) (first : bool) (wanted : Z) (s : scan) (l : str) : scan :=
  if cmp l min <=? 0 then s else if cmp l max >=? 0 then s
  else
    let r := match ret s with
             | [] => l
             | _ => if first then (if cmp l (ret s) <? 0 then l else ret s)
                    else (if cmp l (ret s) >? 0 then l else ret s)
             end in
    match guess s with
    | [] => Scan r l (num_lower s) (num_higher s)
    | _ =>
      if cmp l (guess s) >=? 0 then
        if (num_higher s =? 0) && (num_lower s <? wanted)
        then Scan r l (num_lower s + 1) (num_higher s)
        else Scan r (guess s) (num_lower s) (num_higher s + 1)
      else Scan r (guess s) (num_lower s + 1) (num_higher s)
    end.
(** 156-210 find; one turn of the loop.  A shift that leaves int is undefined behaviour: [None]. *)
Record finder := Finder { f_min : str; min_no : Z; f_max : str; max_no : Z; f_ret : str; ret_no : Z; shift : Z }.
Definition find_round (lines : list str) (n : Z) (f : finder) : option finder :=
  let first := n - min_no f <? max_no f - n in
  let sh := if shift f =? 0 then 0 else shift f - 1 in
  let wanted := (n - min_no f) * 2 ^ sh in
  if wanted >=? 2147483648 then None
  else
    let s := fold_left (got_line (f_min f) (f_max f) first wanted) lines (Scan [] [] 0 0) in
    let total := max_no f - min_no f in
    let expected := Z.quot (total - wanted) 2 in
    let actual := num_lower s - wanted in
    let sh := if expected >? actual then sh + 2 else sh in
    let rno := if first then min_no f + 1 else max_no f - 1 in
    let '(mn, mno) := if first then (ret s, rno) else (f_min f, min_no f) in
    let '(mx, xno) := if first then (f_max f, max_no f) else (ret s, rno) in
    let gno := mno + 1 + num_lower s in
    Some (if gno >? n then Finder mn mno (guess s) gno (ret s) rno sh
          else if gno <? n then Finder (guess s) gno mx xno (ret s) rno 0
          else Finder mn mno mx xno (guess s) gno sh).
Fixpoint find_loop (fuel : nat) (lines : list str) (n : Z) (f : finder) : option finder :=
  if ret_no f =? n then Some f
  else match fuel with
       | O => None
       | S fuel => match find_round lines n f with None => None | Some f => find_loop fuel lines n f end
       end.
Definition find_start (h : helper) (n : Z) : finder :=
  let f := Finder [] (-1) [127] (num_lines h + 1) (line h) (line_no h) 0 in
  if line_no h >=? 0 then
    if line_no h >? n then Finder [] (-1) (line h) (line_no h) (line h) (line_no h) 0
    else Finder (line h) (line_no h) [127] (num_lines h + 1) (line h) (line_no h) 0
  else f.
(** 224-236 get.  [None] is undefined behaviour or no end; one round for each line is enough. *)
Definition get (lines : list str) (cur : str) (h : helper) (n : Z) : option (helper * str) :=
  if (n >=? cur_pos h) && (n =? cur_pos h) then Some (h, cur)
  else
    let n := if (n >=? cur_pos h) && negb (cur_exists h) then n - 1 else n in
    if n =? line_no h then Some (h, line h)
    else match find_loop (S (length lines)) lines n (find_start h n) with
         | None => None
         | Some f => Some (Helper (num_lines h) (cur_pos h) (cur_exists h) (f_ret f) (ret_no f), f_ret f)
         end.
Fixpoint gets (lines : list str) (cur : str) (h : helper) (ns : list Z) : option (list str) :=
  match ns with
  | [] => Some []
  | n :: ns => match get lines cur h n with
               | None => None
               | Some (h, l) => match gets lines cur h ns with None => None | Some ls => Some (l :: ls) end
               end
  end.
