(** Text reading and writing: common/file_reader.h.  An open file is modelled by the
    bytes from the current position to the end; reading takes from the front.  Peek
    at the end of the file is -1 (dosfs File::peek and MemFile, file_reader.h:59-62). *)
From Coq Require Import ZArith List Bool.
From Verif Require Import StrModel.
Import ListNotations.
Open Scope Z_scope.

Definition LF : Z := 10.
Definition CR : Z := 13.
Definition TAB : Z := 9.
Definition SP : Z := 32.
Definition BSL : Z := 92.
Definition EQS : Z := 61.
Definition HASH : Z := 35.

Definition peek (f : list Z) : Z := match f with [] => -1 | c :: _ => c end.

(** file_reader.h:276-289 *)
Fixpoint skipwhite (f : list Z) : list Z :=
  match f with
  | c :: f' => if (c =? SP) || (c =? TAB) || (c =? LF) || (c =? CR) then skipwhite f' else f
  | [] => []
  end.
(** file_reader.h:290-301 *)
Fixpoint skipspace (f : list Z) : list Z :=
  match f with
  | c :: f' => if (c =? SP) || (c =? TAB) then skipspace f' else f
  | [] => []
  end.
(** file_reader.h:303-305 *)
Fixpoint skipline (f : list Z) : list Z :=
  match f with
  | c :: f' => if c =? LF then f' else skipline f'
  | [] => []
  end.

Definition is_digit (c : Z) : bool := (48 <=? c) && (c <=? 57).

(** file_reader.h:315-332 readIntValue.  Simplification: the int64 accumulator is
    unbounded (it is exact below 2^63). *)
Fixpoint read_digits (f : list Z) (ret : Z) : Z * list Z :=
  match f with
  | c :: f' => if is_digit c then read_digits f' (c - 48 + 10 * ret) else (ret, f)
  | [] => (ret, [])
  end.
Definition readIntValue (f : list Z) : Z * list Z :=
  if peek f =? 45
  then let (v, r) := read_digits (tl f) 0 in (v * -1, r)
  else let (v, r) := read_digits f 0 in (v * 1, r).

(** A decimal number: mantissa * 10^-places. *)
Record dec := Dec { mant : Z; places : nat }.

(** file_reader.h:334-362 readFloatValue.  Simplification: arithmetic is exact
    decimal instead of rounded float; [None] for places = mult is still 1.0. *)
Fixpoint read_float (f : list Z) (m : Z) (p : option nat) : dec * list Z :=
  let stop := (Dec m (match p with Some k => k | None => 0%nat end), f) in
  match f with
  | c :: f' =>
    if is_digit c then
      read_float f' (c - 48 + 10 * m) (match p with Some k => Some (S k) | None => None end)
    else if c =? 46 then
      match p with Some _ => stop | None => read_float f' m (Some 0%nat) end
    else stop
  | [] => stop
  end.
Definition neg_dec (d : dec) : dec := Dec (- mant d) (places d).
Definition readFloatValue (f : list Z) : dec * list Z :=
  if peek f =? 45
  then let (v, r) := read_float (tl f) 0 None in (neg_dec v, r)
  else read_float f 0 None.

(** file_reader.h:364-379 readVariable: at most 32 name characters, lower-cased. *)
Definition name_char (c : Z) : bool :=
  ((97 <=? c) && (c <=? 122)) || is_digit c || (c =? 95) || (c =? 46).
Fixpoint read_name (n : nat) (f : list Z) : list Z * list Z :=
  match n, f with
  | S n, c :: f' =>
    if name_char (toLower c)
    then let (v, r) := read_name n f' in (toLower c :: v, r)
    else ([], f)
  | _, _ => ([], f)
  end.
Definition readVariable (f : list Z) : list Z * list Z :=
  let (v, r) := read_name 32 (skipspace f) in (v, skipspace r).

(** file_reader.h:382-418 readString: the characters stored before the NUL, and
    what is left (the newline is not consumed).  A backslash at the end of the file
    stores (char)-1. *)
Fixpoint readString (f : list Z) : list Z * list Z :=
  match f with
  | [] => ([], [])
  | c :: f' =>
    if c =? LF then ([], f)
    else if c =? BSL then
      match f' with
      | [] => ([255], [])
      | d :: f'' =>
        let (s, r) := readString f'' in
        ((if d =? BSL then BSL else if d =? 110 then LF else if d =? 116 then TAB else d) :: s, r)
      end
    else let (s, r) := readString f' in (c :: s, r)
  end.

(** file_reader.h:420-433 and 664-679 write_key_value: the bytes written. *)
Fixpoint escape (v : list Z) : list Z :=
  match v with
  | [] => []
  | c :: v =>
    (if c =? LF then [BSL; 110] else if c =? TAB then [BSL; 116]
     else if c =? BSL then [BSL; BSL] else [c]) ++ escape v
  end.
Definition write_key_value (key value : list Z) : list Z := key ++ [EQS] ++ escape value ++ [LF].

(** itoa(v, buf, 10) of the C library: decimal digits, '-' for negative numbers. *)
Fixpoint digits_go (fuel : nat) (n : Z) (acc : list Z) : list Z :=
  match fuel with
  | O => acc
  | S f => let acc := (48 + n mod 10) :: acc in
           if n <? 10 then acc else digits_go f (n / 10) acc
  end.
Definition digits (n : Z) : list Z := digits_go (S (Z.to_nat (Z.log2 n))) n [].
Definition itoa (v : Z) : list Z := if v <? 0 then 45 :: digits (- v) else digits v.

(** file_reader.h:435-439 *)
Definition write_key_int (key : list Z) (v : Z) : list Z := write_key_value key (itoa v).

(** file_reader.h:441-448 write_key_value_float.  floorf(f), floorf(f*10) and
    floorf(f*100) of the exact decimal; C's % truncates towards zero. *)
Definition floor_times (d : dec) (k : Z) : Z := (mant d * k) / 10 ^ Z.of_nat (places d).
Definition float_text (d : dec) : list Z :=
  itoa (floor_times d 1) ++ [46] ++
  itoa (Z.rem (floor_times d 10) 10) ++ itoa (Z.rem (floor_times d 100) 10).
Definition write_key_float (key : list Z) (d : dec) : list Z := write_key_value key (float_text d).

(** file_reader.h:254-261 Expect: the rest if the string is there. *)
Fixpoint expect (s f : list Z) : option (list Z) :=
  match s with
  | [] => Some f
  | c :: s' => match f with
               | d :: f' => if d =? c then expect s' f' else None
               | [] => None
               end
  end.
