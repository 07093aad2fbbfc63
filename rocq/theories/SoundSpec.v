(** Specification of file naming and selection, independent of the scanner. *)
From Coq Require Import ZArith List Bool.
From Verif Require Import StrSpec SoundModel.
Import ListNotations.
Open Scope Z_scope.

(** The last k decimal digits of n. *)
Fixpoint last_digits (k : nat) (n : Z) : list Z :=
  match k with O => [] | S k => last_digits k (n / 10) ++ [48 + n mod 10] end.
(** [s] is n written in decimal with at least w digits, and no more than needed. *)
Definition numeral (w : nat) (n : Z) (s : list Z) : Prop :=
  exists k, s = last_digits k n /\ 0 <= n < 10 ^ Z.of_nat k /\
            (k = Nat.max w 1 \/ ((Nat.max w 1 <= k)%nat /\ 10 ^ (Z.of_nat k - 1) <= n)).

(** A consistent way to name the files of a set: hum01.wav, hum/hum01.wav or hum/01.wav,
    numbers padded to [width] digits, possibly in directories alt000/, alt001/..., possibly
    each number with sub files hum/01/000.wav, hum/01/001.wav, ... *)
Inductive layout := Flat | Redundant | Efficient.
Record scheme := Scheme { s_name : list Z; s_layout : layout; s_width : nat; s_ext : extension; s_alt : bool; s_sub : bool }.
(** One file: alternative, number (or none: hum.wav) and sub file number. *)
Record item := Item { i_alt : option Z; i_num : option Z; i_sub : option Z }.
Definition is_some {A} (o : option A) : bool := match o with Some _ => true | None => false end.
Definition ext_text (x : extension) : list Z :=
  match x with
  | WAV => [46; 119; 97; 118] (* .wav *) | RAW => [46; 114; 97; 119] (* .raw *) | USL => [46; 117; 115; 108] (* .usl *)
  | BMP => [46; 98; 109; 112] (* .bmp *) | PBM => [46; 112; 98; 109] (* .pbm *) | Binary => [46; 98; 105; 110] (* .bin *)
  | SCR => [46; 115; 99; 114] (* .scr *) | UNKNOWN => [46; 63]
  end.
Definition alt_text (a : Z) : list Z := [97; 108; 116] ++ last_digits 3 a ++ [47].  (* alt000/ *)
Definition file_name (sc : scheme) (it : item) (f : list Z) : Prop :=
  exists num, match i_num it with None => num = [] | Some n => numeral (s_width sc) n num end /\
  f = match i_alt it with None => [] | Some a => alt_text a end
      ++ s_name sc
      ++ match s_layout sc with Flat => [] | Redundant => 47 :: s_name sc | Efficient => [47] end
      ++ num
      ++ match i_sub it with None => [] | Some s => 47 :: last_digits 3 s end
      ++ ext_text (s_ext sc).

(** Schemes and files covered: the name starts with a character above '9' (a letter) and is
    not mistaken for an alternative directory; sub files need the efficient layout. *)
Definition begins (p f : list Z) (r : list Z) : Prop := exists pre, f = pre ++ r /\ same_nocase pre p.
Definition not_alt (f : list Z) : Prop := forall r, begins [97; 108; 116] f r -> exists c r', r = c :: r' /\ 57 < c.
Definition scheme_ok (sc : scheme) : Prop :=
  s_ext sc <> UNKNOWN /\ (s_width sc <= 100)%nat /\
  (exists c r, s_name sc = c :: r /\ 57 < c) /\ not_alt (s_name sc) /\ (s_sub sc = true -> s_layout sc = Efficient).
Definition item_ok (sc : scheme) (it : item) : Prop :=
  is_some (i_alt it) = s_alt sc /\ is_some (i_sub it) = s_sub sc /\ (s_sub sc = true -> i_num it <> None) /\
  (forall a, i_alt it = Some a -> 0 <= a <= 255) /\
  (forall n, i_num it = Some n -> 0 <= n <= 32767) /\
  (forall s, i_sub it = Some s -> 0 <= s <= 254).

(** Files that have nothing to do with the set: no known extension, or not starting with the
    name, or starting with a longer name (humm for hum) and then not of the same type but
    another extension; also in alternative directories. *)
Definition foreign_tail (sc : scheme) (f : list Z) : Prop :=
  (forall r, ~ begins (s_name sc) f r) \/
  (exists c r, begins (s_name sc) f (c :: r) /\ 57 < c /\
     exists a b x, f = a ++ b /\ same_nocase b (ext_text x) /\ x <> UNKNOWN /\
                   (x = s_ext sc \/ GetFileType x <> GetFileType (s_ext sc))).
Inductive foreign (sc : scheme) : list Z -> Prop :=
| F_unknown f : (forall x a b, x <> UNKNOWN -> f = a ++ b -> ~ same_nocase b (ext_text x)) -> foreign sc f
| F_plain f : not_alt f -> foreign_tail sc f -> foreign sc f
| F_alt pre a f : 0 <= a < 1000 -> same_nocase pre [97; 108; 116] -> foreign_tail sc f ->
    foreign sc (pre ++ last_digits 3 a ++ 47 :: f).
(** A directory listing, in any order and in any letter case, with the files of the set in it. *)
Inductive listing (sc : scheme) : list (list Z) -> list item -> Prop :=
| L_nil : listing sc [] []
| L_foreign f fs T : foreign sc f -> listing sc fs T -> listing sc (f :: fs) T
| L_file f g it fs T : item_ok sc it -> file_name sc it g -> same_nocase f g -> listing sc fs T -> listing sc (f :: fs) (it :: T).

(** The box around a set of files: every number between the smallest and the largest, every
    sub file and every alternative up to the largest. *)
Definition covered (T : list item) (it : item) : Prop :=
  match i_num it with
  | None => exists t, In t T /\ i_num t = None
  | Some n => (exists t m, In t T /\ i_num t = Some m /\ m <= n) /\ (exists t m, In t T /\ i_num t = Some m /\ n <= m)
  end /\
  match i_sub it with
  | None => forall t, In t T -> i_sub t = None
  | Some s => 0 <= s /\ exists t m, In t T /\ i_sub t = Some m /\ s <= m
  end /\
  match i_alt it with
  | None => forall t, In t T -> i_alt t = None
  | Some a => 0 <= a /\ exists t m, In t T /\ i_alt t = Some m /\ a <= m
  end.
(** Numbering must not start above 127, the largest value of the 8-bit minimum. *)
Definition low_enough (T : list item) : Prop :=
  (exists t n, In t T /\ i_num t = Some n) -> exists t n, In t T /\ i_num t = Some n /\ n <= 127.
(** Path of a file in a font directory. *)
Definition path (dir f : list Z) : list Z := match dir with [] => f | _ => dir ++ 47 :: f end.

(** What a sequence of requests to a file set may ask for: selections are -1 (none) or
    existing files, rand() is never negative, sound numbers are -1 (none) or not negative. *)
Definition op_ok (e : files) (o : pick_op) : Prop :=
  match o with
  | ORandom r1 r2 r3 r4 => 0 <= r1 /\ 0 <= r2 /\ 0 <= r3 /\ 0 <= r4
  | OSelect n => -1 <= n < files_found e
  | ONumber n => -1 <= n
  | _ => True
  end.
(** Whether a request leaves the memory of the last file alone. *)
Definition keeps_last (o : pick_op) : Prop := match o with ORandom _ _ _ _ | OFloat _ _ => False | _ => True end.
