(** Sound and image file sets: sound/effect.h. *)
From Coq Require Import ZArith List Bool.
From Verif Require Import StrModel FileModel ArithModel.
Import ListNotations.
Open Scope Z_scope.

(** Conversions to int8_t, int16_t and uint8_t. *)
Definition wrap8 (x : Z) : Z := (x + 128) mod 256 - 128.
Definition wrap16 (x : Z) : Z := (x + 32768) mod 65536 - 32768.
Definition uwrap8 (x : Z) : Z := x mod 256.

(** effect.h:16 PO_isDigit, as written: any character up to '9'. *)
Definition PO_isDigit (s : Z) : bool := (0 <=? s) && (s <=? 57).

(** strtol(s, &end, 10) of the C library with a 32-bit long: white space, a sign, digits.
    The result is the value and the rest of the string; without digits 0 and [s]. *)
Definition is_space (c : Z) : bool := (c =? 32) || ((9 <=? c) && (c <=? 13)).
Fixpoint skip_spaces (s : str) : str :=
  match s with [] => [] | c :: t => if is_space c then skip_spaces t else s end.
Fixpoint strtol_digits (s : str) (acc : Z) : Z * str :=
  match s with
  | [] => (acc, [])
  | c :: t => if (48 <=? c) && (c <=? 57) then strtol_digits t (10 * acc + (c - 48)) else (acc, s)
  end.
Definition strtol (s : str) : Z * str :=
  let t := skip_spaces s in
  let '(neg, t) := match t with c :: t' => if c =? 45 then (true, t') else if c =? 43 then (false, t') else (false, t) | [] => (false, t) end in
  let '(v, r) := strtol_digits t 0 in
  if (length r =? length t)%nat then (0, s)
  else (if neg then Z.max (-2147483648) (- v) else Z.min v 2147483647, r).

(** effect.h:80-89 Extension, 103-108 FileType, 91-101 FilePattern. *)
Inductive extension := WAV | RAW | USL | BMP | PBM | Binary | SCR | UNKNOWN.
Inductive file_type := SOUND | IMAGE | SCREEN | NOTYPE.
Inductive file_pattern := PUnknown | FLAT | SUBDIRS | NONREDUNDANT_SUBDIRS.
Definition ext_eqb (a b : extension) : bool :=
  match a, b with
  | WAV, WAV | RAW, RAW | USL, USL | BMP, BMP | PBM, PBM | Binary, Binary | SCR, SCR | UNKNOWN, UNKNOWN => true
  | _, _ => false
  end.
Definition type_eqb (a b : file_type) : bool :=
  match a, b with SOUND, SOUND | IMAGE, IMAGE | SCREEN, SCREEN | NOTYPE, NOTYPE => true | _, _ => false end.
(** effect.h:110-125 GetFileType *)
Definition GetFileType (x : extension) : file_type :=
  match x with WAV | RAW | USL => SOUND | BMP | PBM | Binary => IMAGE | SCR => SCREEN | UNKNOWN => NOTYPE end.
(** effect.h:139-150 ExtensionName *)
Definition ExtensionName (x : extension) : str :=
  match x with
  | WAV => [46; 119; 97; 118] | RAW => [46; 114; 97; 119] | USL => [46; 117; 115; 108] | BMP => [46; 98; 109; 112]
  | PBM => [46; 112; 98; 109] | Binary => [46; 98; 105; 110] | SCR => [46; 115; 99; 114] | UNKNOWN => [46; 63]
  end.
(** effect.h:127-136 IdentifyExtension *)
Definition IdentifyExtension (f : str) : extension :=
  if endswith (ExtensionName WAV) f then WAV else if endswith (ExtensionName RAW) f then RAW
  else if endswith (ExtensionName USL) f then USL else if endswith (ExtensionName BMP) f then BMP
  else if endswith (ExtensionName PBM) f then PBM else if endswith (ExtensionName Binary) f then Binary
  else if endswith (ExtensionName SCR) f then SCR else UNKNOWN.

(** effect.h:648-700 the members of Effect that scanning sets. *)
Record files := Files { min_file : Z; max_file : Z; sub_files : Z; digits_ : Z; unnumbered : bool; in_alt : bool;
                        pattern : file_pattern; ext : extension; num_files : Z }.
(** effect.h:162-180 reset *)
Definition reset_files : files := Files 127 (-1) 0 0 false false PUnknown UNKNOWN 0.

(** effect.h:181-188 altnum.  Like the code it is only used on names with a known
    extension, so that the characters looked at exist. *)
Definition ALT : str := [97; 108; 116].
Definition altnum (s : str) : Z :=
  match startswith ALT s with
  | Some (a :: b :: c :: d :: _) =>
    if PO_isDigit a && PO_isDigit b && PO_isDigit c && (d =? 47) then fst (strtol (skipn 3 s)) else -1
  | _ => -1
  end.

(** effect.h:190-254 Scan.  The result is the set, the global num_alternatives (line 14)
    and whether the file was counted. *)
Definition scan (name : str) (ft : file_type) (ea : files * Z) (filename : str) : (files * Z) * bool :=
  let '(e, alts) := ea in
  let alt := altnum filename in
  let filename := if negb (alt =? -1) then skipn 7 filename else filename in (* 193-196 *)
  match startswith name filename with
  | None => (ea, false)
  | Some rest =>
    let '(found, rest) :=                                       (* 200-209 *)
      match rest with
      | c :: r1 => if c =? 47 then match startswith name r1 with
                                   | Some tmp => (SUBDIRS, tmp)
                                   | None => (NONREDUNDANT_SUBDIRS, r1)
                                   end
                   else (FLAT, rest)
      | [] => (FLAT, rest)
      end in
    let x := IdentifyExtension filename in                      (* 211-218 *)
    if negb (type_eqb (GetFileType x) ft) then (ea, false) else
    if negb (ext_eqb (ext e) UNKNOWN) && negb (ext_eqb (ext e) x) then (ea, false) else
    let e := Files (min_file e) (max_file e) (sub_files e) (digits_ e) (unnumbered e) (in_alt e) (pattern e) x (num_files e) in
    let after_number :=                                         (* 220-233 *)
      if (hd0 rest =? 46) && (length rest =? 4)%nat
      then Some (Files (min_file e) (max_file e) (sub_files e) (digits_ e) true (in_alt e) (pattern e) (ext e) (num_files e), rest)
      else let '(n, fin) := strtol rest in
           if (n <? 0) || (length fin =? length rest)%nat then None else
           Some (Files (wrap8 (Z.min (min_file e) n)) (wrap16 (Z.max (max_file e) n)) (sub_files e)
                   (if hd0 rest =? 48 then wrap8 (Z.of_nat (length rest - length fin)) else digits_ e)
                   (unnumbered e) (in_alt e) (pattern e) (ext e) (num_files e), fin) in
    match after_number with
    | None => ((e, alts), false)
    | Some (e, rest) =>
      let '(e, rest) :=                                         (* 235-243 *)
        match found, rest with
        | NONREDUNDANT_SUBDIRS, s :: a :: b :: c :: r =>
          if (s =? 47) && PO_isDigit a && PO_isDigit b && PO_isDigit c
          then (Files (min_file e) (max_file e) (uwrap8 (Z.max (sub_files e) (fst (strtol (tl rest)) + 1))) (digits_ e)
                  (unnumbered e) (in_alt e) (pattern e) (ext e) (num_files e), r)
          else (e, rest)
        | _, _ => (e, rest)
        end in
      if negb (hd0 rest =? 46) then ((e, alts), false) else     (* 246 *)
      ((Files (min_file e) (max_file e) (sub_files e) (digits_ e) (unnumbered e) (in_alt e || negb (alt =? -1))
          found (ext e) (wrap16 (num_files e + 1)),
        if negb (alt =? -1) then Z.max alts (alt + 1) else alts), true)
    end
  end.

(** effect.h:483-502 ScanAll for one effect: [dir] is the font directory being scanned, by
    its position in the list of directories.  Files without a known extension are not looked
    at, and once a file was found in one directory those in others are not either. *)
Record found_set := Found { set : files; alternatives : Z; directory : option nat }.
Definition scan_all (name : str) (ft : file_type) (s : found_set) (f : nat * str) : found_set :=
  let '(dir, filename) := f in
  if ext_eqb (IdentifyExtension filename) UNKNOWN then s else
  match directory s with
  | Some d => if negb (Nat.eqb d dir) then s
              else let '((e, a), _) := scan name ft (set s, alternatives s) filename in Found e a (Some d)
  | None => let '((e, a), ok) := scan name ft (set s, alternatives s) filename in
            Found e a (if ok then Some dir else None)
  end.
(** effect.h:618-626 the start of ScanCurrentDirectory *)
Definition scan_start : found_set := Found reset_files 0 None.

(** effect.h:321-330 files_found, 333-346 number_of_alternatives, number_of_subfiles, expected_files *)
Definition files_found (e : files) : Z :=
  (if min_file e <=? max_file e then max_file e - min_file e + 1 else 0) + (if unnumbered e then 1 else 0).
Definition number_of_alternatives (e : files) (alts : Z) : Z := if in_alt e then alts else 1.
Definition number_of_subfiles (e : files) : Z := if sub_files e =? 0 then 1 else sub_files e.
Definition expected_files (e : files) (alts : Z) : Z := files_found e * number_of_alternatives e alts * number_of_subfiles e.

(** effect.h:427-437 addNumber: what is appended. *)
Definition addNumber (n digits : Z) : str := repeat 48 (Z.to_nat (digits - Z.of_nat (length (itoa n)))) ++ itoa n.
(** effect.h:440-472 GetName; [file], [sub] and [alt] are the members of the FileID. *)
Definition GetName (dir name : str) (e : files) (file sub alt : Z) : str :=
  dir ++ (match dir with [] => [] | _ => [47] end)
  ++ (if in_alt e then ALT ++ addNumber alt 3 ++ [47] else [])
  ++ name
  ++ (match pattern e with PUnknown | FLAT => [] | SUBDIRS => 47 :: name | NONREDUNDANT_SUBDIRS => [47] end)
  ++ (let n := file + min_file e in if n <=? max_file e then addNumber n (digits_ e) else [])
  ++ (if sub_files e =? 0 then [] else 47 :: addNumber sub 3)
  ++ ExtensionName (ext e).

(** effect.h:361-383 randomize with NO_REPEAT_RANDOM, which ProffieOS.ino:70-72 defines unless
    disabled.  [r1], [r2] are what rand() returns; all values rand() can return are >= 0. *)
Definition randomize (N last r1 r2 : Z) : Z :=
  let n := r1 mod N in
  if n =? last then
    if N =? 1 then n
    else if N =? 2 then r2 mod N
    else let n := r2 mod (N - 1) in if n >=? last then n + 1 else n
  else n.

(** The members that selecting uses: selected_, last_, last_subid_, and the global
    SaberBase::sound_number. *)
Record chooser := Chooser { selected : Z; last : Z; last_subid : Z; sound_number : Z }.
(** effect.h:391-398 random_subid *)
Definition random_subid (e : files) (c : chooser) (filenum r3 r4 : Z) : chooser * Z :=
  if sub_files e =? 0 then (c, 0) else
  let ret := randomize (sub_files e) (if last c =? filenum then last_subid c else -1) r3 r4 in
  (Chooser (selected c) (last c) ret (sound_number c), ret).
(** effect.h:400-424 RandomFile; [uses_number] is file_type_ == SOUND || paired_. *)
Definition RandomFile (e : files) (uses_number : bool) (c : chooser) (r1 r2 r3 r4 : Z) : chooser * option (Z * Z) :=
  let num := files_found e in
  if num <? 1 then (c, None) else
  let n := if negb (selected c =? -1) then Z.min (selected c) (num - 1)
           else if negb (sound_number c =? -1) && uses_number then Z.min (sound_number c) (num - 1)
           else randomize num (last c) r1 r2 in
  let '(c, sub) := random_subid e c n r3 r4 in
  (Chooser (selected c) (wrap16 n) (last_subid c) (sound_number c), Some (n, sub)).
(** effect.h:353-356 SelectNext *)
Definition SelectNext (e : files) (c : chooser) : chooser :=
  let s := wrap16 (selected c + 1) in
  Chooser (if s =? files_found e then 0 else s) (last c) (last_subid c) (sound_number c).
(** common/math.h clamp as used here, effect.h:357-367 SelectFloat; [k] is floorf(f * value);
    each round takes two values of rand(), the first of which may go unused. *)
Fixpoint no_repeat (c : chooser) (f sel : Z) (rs : list (Z * Z)) : Z :=
  match rs with
  | [] => sel
  | (r, r') :: rs =>
    if (sel =? selected c) || ((sel =? last c) && negb (Z.land r 1 =? 0))
    then no_repeat c f (clampi32 (sel + 1 - Z.land r' 2) 0 (f - 1)) rs else sel
  end.
Definition SelectFloat (e : files) (c : chooser) (k : Z) (rs : list (Z * Z)) : chooser :=
  let f := files_found e in
  let sel := no_repeat c f (clampi32 k 0 (f - 1)) (firstn 3 rs) in
  Chooser (wrap16 sel) (selected c) (last_subid c) (sound_number c).

(** Requests to one file set. *)
Inductive pick_op :=
| ORandom (r1 r2 r3 r4 : Z)                (* RandomFile / Play *)
| OSelect (n : Z)                          (* 350-352 Select *)
| ONext                                    (* SelectNext *)
| OFloat (k : Z) (rs : list (Z * Z))       (* SelectFloat *)
| ONumber (n : Z).                         (* somebody sets SaberBase::sound_number *)
Definition pick (e : files) (uses_number : bool) (c : chooser) (o : pick_op) : chooser * option (Z * Z) :=
  match o with
  | ORandom r1 r2 r3 r4 => RandomFile e uses_number c r1 r2 r3 r4
  | OSelect n => (Chooser (wrap16 n) (last c) (last_subid c) (sound_number c), None)
  | ONext => (SelectNext e c, None)
  | OFloat k rs => (SelectFloat e c k rs, None)
  | ONumber n => (Chooser (selected c) (last c) (last_subid c) n, None)
  end.
