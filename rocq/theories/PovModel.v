(** Persistence-of-vision images: the run-length coder of pov_tools/rle.h, the
    tables the image tools print, and the styles of styles/pov.h that show
    them. *)
From Coq Require Import List ZArith Bool QArith Qround.
Import ListNotations.
Local Open Scope Z_scope.

(** ** The decoder *)

(** pov_tools/rle.h:28-32, styles/pov.h:74-78: [len] bytes copied one at a
    time from [offset] bytes before the place written, so the source may
    overlap what the loop has just written. Reading before the start of the
    buffer is [None]. *)
Fixpoint back (len offset : nat) (out : list Z) : option (list Z) :=
  match len with
  | O => Some out
  | S len =>
      if Nat.leb offset (length out)
      then back len offset (out ++ [nth (length out - offset) out 0])
      else None
  end.

(** pov_tools/rle.h:22-48, styles/pov.h:68-91: one round of the loop, on the
    bytes still to read and the bytes written so far. [None]: reads past the
    end of the input. *)
Definition round (input out : list Z) : option (list Z * list Z) :=
  match input with
  | [] => None
  | b :: rest =>
      if b =? 255 then
        match rest with
        | off :: len :: rest =>
            match back (Z.to_nat len) (Z.to_nat off + 1) out with
            | Some out => Some (rest, out)
            | None => None
            end
        | _ => None
        end
      else if b <? 128 then
        let k := (Z.to_nat b + 1)%nat in
        if Nat.leb k (length rest)
        then Some (skipn k rest, out ++ firstn k rest)
        else None
      else
        match rest with
        | v :: rest => Some (rest, out ++ repeat v (Z.to_nat (b - 128 + 2)))
        | [] => None
        end
  end.

(** pov_tools/rle.h:18-53, styles/pov.h:64-92: rle_decode into a buffer of [n]
    bytes. [None]: leaves one of the two buffers (the asserts of lines 33, 40
    and 46, which pov.h lacks). Every round reads at least two bytes, so
    the length of the input is fuel enough. *)
Fixpoint rounds (fuel n : nat) (input out : list Z) : option (list Z) :=
  if Nat.ltb (length out) n then
    match fuel with
    | O => None
    | S fuel =>
        match round input out with
        | Some (input, out) =>
            if Nat.leb (length out) n then rounds fuel n input out else None
        | None => None
        end
    end
  else Some out.

Definition rle_decode (input : list Z) (n : nat) : option (list Z) :=
  rounds (length input) n input [].

(** ** The encoder *)

(** pov_tools/rle.h:72-74: how far two stretches agree, looking at no more than
    [limit] bytes. *)
Fixpoint common (limit : nat) (a b : list Z) : nat :=
  match limit, a, b with
  | S limit, x :: a, y :: b => if x =? y then S (common limit a b) else O
  | _, _, _ => O
  end.

(** pov_tools/rle.h:69-79: the longest stretch before [i] that repeats at [i],
    and how far back it is; the nearest of the longest. [ps] rounds remain. *)
Fixpoint search (ps p : nat) (data : list Z) (i : nat) (best off : Z) : Z * Z :=
  match ps with
  | O => (best, off)
  | S ps =>
      if Nat.ltb i (p + 1) then (best, off)
      else
        let l := Z.of_nat (common 256 (skipn i data) (skipn (i - 1 - p) data)) in
        if best <? l
        then search ps (p + 1) data i l (Z.of_nat p)
        else search ps (p + 1) data i best off
  end.

(** pov_tools/rle.h:81-85, without the first byte of the run. *)
Fixpoint more (x : Z) (l : list Z) : nat :=
  match l with
  | y :: l => if x =? y then S (more x l) else O
  | [] => O
  end.

(** pov_tools/rle.h:81-85. *)
Definition run_length (data : list Z) (i : nat) : Z :=
  1 + Z.of_nat (more (nth i data 0) (skipn (i + 1) data)).

(** pov_tools/rle.h:60-61, 65: the encoder's variables: what is written, where
    the count of the last literal stretch is, and how much is read. *)
Record enc := mk_enc { e_out : list Z; e_cnt : option nat; e_i : nat }.

(** pov_tools/rle.h:62: the literal stretch is still the last thing written. *)
Definition valid (e : enc) : bool :=
  match e_cnt e with
  | None => false
  | Some c =>
      (nth c (e_out e) 0 <? 255) &&
      (Z.of_nat c + nth c (e_out e) 0 + 2 =? Z.of_nat (length (e_out e)))
  end.

(** pov_tools/rle.h:100. *)
Fixpoint bump (c : nat) (l : list Z) : list Z :=
  match l, c with
  | x :: l, O => (x + 1) mod 256 :: l
  | x :: l, S c => x :: bump c l
  | [], _ => []
  end.

(** pov_tools/rle.h:66-107: one round. Bytes are stored modulo 256. *)
Definition encode1 (data : list Z) (e : enc) : enc :=
  let i := e_i e in
  let '(best, off) := search 256 0 data i (-1) (-1) in
  let l := run_length data i in
  let limit := if valid e then 3 else 2 in
  if (l + 1 <? best) && (limit <? best) then
    mk_enc (e_out e ++ [255; off mod 256; best mod 256]) (e_cnt e)
           (i + Z.to_nat best)
  else if limit <=? l then
    let l := if 127 <? l then 127 else l in
    mk_enc (e_out e ++ [(128 + (l - 2)) mod 256; nth i data 0]) (e_cnt e)
           (i + Z.to_nat l)
  else
    match e_cnt e with
    | Some c =>
        if valid e && (nth c (e_out e) 0 <? 127)
        then mk_enc (bump c (e_out e) ++ [nth i data 0]) (Some c) (i + 1)
        else mk_enc (e_out e ++ [0; nth i data 0])
                    (Some (length (e_out e))) (i + 1)
    | None => mk_enc (e_out e ++ [0; nth i data 0])
                     (Some (length (e_out e))) (i + 1)
    end.

(** pov_tools/rle.h:65-108: the loop. Every round reads at least one byte, so
    the length of the data is fuel enough. *)
Fixpoint encode_loop (fuel : nat) (data : list Z) (e : enc) : enc :=
  match fuel with
  | O => e
  | S fuel =>
      if Nat.ltb (e_i e) (length data)
      then encode_loop fuel data (encode1 data e)
      else e
  end.

(** pov_tools/rle.h:55-111: rle_encode_internal. *)
Definition rle_encode_internal (data : list Z) : list Z :=
  e_out (encode_loop (length data) data (mk_enc [] None 0)).

Fixpoint same_bytes (a b : list Z) : bool :=
  match a, b with
  | [], [] => true
  | x :: a, y :: b => (x =? y) && same_bytes a b
  | _, _ => false
  end.

(** pov_tools/rle.h:114-124: rle_encode: encodes, decodes again and aborts
    ([None]) if the result differs. *)
Definition rle_encode (data : list Z) : option (list Z) :=
  let output := rle_encode_internal data in
  match rle_decode output (length data) with
  | Some tmp => if same_bytes tmp data then Some output else None
  | None => None
  end.

(** ** The tables *)

(** pov_tools/pgmtorle.cc:71-75: the first place in the blob from which all
    that is there agrees with [output]; past the end if there is none. *)
Fixpoint agrees (output blob : list Z) : bool :=
  match output, blob with
  | x :: output, y :: blob => (x =? y) && agrees output blob
  | _, _ => true
  end.

Fixpoint place (output blob : list Z) : nat :=
  match blob with
  | [] => O
  | _ :: rest => if agrees output blob then O else S (place output rest)
  end.

(** pov_tools/pgmtorle.cc:71-79 (pnmtorle.cc:63-71, pnmquantizedtorle.cc alike):
    the blob and the offsets after one more column. *)
Definition add_column (t : list Z * list nat) (output : list Z) : list Z * list nat :=
  let '(blob, offsets) := t in
  let pos := place output blob in
  (blob ++ skipn (length blob - pos) output, offsets ++ [pos]).

(** pov_tools/pgmtorle.cc:31-80: imagedata and imageoffsets of an image given
    as its columns. [None]: rle_encode aborts. *)
Fixpoint tables (t : list Z * list nat) (columns : list (list Z))
  : option (list Z * list nat) :=
  match columns with
  | [] => Some t
  | data :: columns =>
      match rle_encode data with
      | Some output => tables (add_column t output) columns
      | None => None
      end
  end.

Definition make_image (columns : list (list Z)) : option (list Z * list nat) :=
  tables ([], []) columns.

(** pov_tools/pnmquantizedtorle.cc:42-47: the colour's number, if it has one. *)
Fixpoint find_color (map : list Z) (c : nat) (x : Z) : option nat :=
  match map with
  | [] => None
  | y :: map => if x =? y then Some c else find_color map (c + 1) x
  end.

(** pov_tools/pnmquantizedtorle.cc:40-57: one pixel. A colour is one number
    here; three floats there. [None]: the 257th colour. *)
Definition quantize1 (map : list Z) (x : Z) : option (list Z * Z) :=
  match find_color map 0 x with
  | Some c => Some (map, Z.of_nat c)
  | None =>
      if Nat.eqb (length map) 256 then None
      else Some (map ++ [x], Z.of_nat (length map))
  end.

(** pov_tools/pnmquantizedtorle.cc:39-58: one column. *)
Fixpoint quantize (map : list Z) (pixels : list Z) : option (list Z * list Z) :=
  match pixels with
  | [] => Some (map, [])
  | x :: pixels =>
      match quantize1 map x with
      | None => None
      | Some (map, c) =>
          match quantize map pixels with
          | None => None
          | Some (map, data) => Some (map, c :: data)
          end
      end
  end.

(** pov_tools/pnmquantizedtorle.cc:37-58: all columns, one colour map. *)
Fixpoint quantize_all (map : list Z) (columns : list (list Z))
  : option (list Z * list (list Z)) :=
  match columns with
  | [] => Some (map, [])
  | p :: columns =>
      match quantize map p with
      | None => None
      | Some (map, d) =>
          match quantize_all map columns with
          | None => None
          | Some (map, ds) => Some (map, d :: ds)
          end
      end
  end.

(** ** The styles *)

(** common/math.h:5-7. Floats are rationals here. *)
Definition fract (x : Q) : Q := x - inject_Z (Qfloor x).

(** Conversion of a float to an int: towards zero. *)
Definition to_int (x : Q) : Z := Z.quot (Qnum x) (Zpos (Qden x)).

(** styles/pov.h:129-147: the column StylePOV shows when the blade points
    [degrees] away from the middle; [None]: the early return. *)
Definition style_column (lo hi : Z) (repeats mirror : bool) (columns : Z)
  (degrees : Q) : option Z :=
  let fraction := ((degrees - inject_Z lo) / inject_Z (hi - lo))%Q in
  let go f := Some (to_int (f * inject_Z (columns - 1))) in
  if repeats then
    if mirror then
      let fraction := (fract (fraction / 2) * fraction)%Q in
      if negb (Qle_bool fraction 1) then go (2 - fraction)%Q else go fraction
    else go (fract fraction)
  else
    if negb (Qle_bool 0 fraction) || negb (Qle_bool fraction 1) then None
    else go fraction.

(** styles/pov.h:114-122: what the style keeps: the number of LEDs (not set
    before the first column is shown) and the last column. *)
Record pov := mk_pov { p_leds : option Z; p_buffer : list Z }.

(** styles/pov.h:96-102, 141-147: one frame. [None]: the column number is
    outside the table, or the decoder leaves a buffer. *)
Definition pov_frame (lo hi : Z) (repeats mirror : bool)
  (image : list Z * list nat) (height leds : Z) (s : pov) (degrees : Q)
  : option pov :=
  let '(blob, offsets) := image in
  match style_column lo hi repeats mirror (Z.of_nat (length offsets)) degrees with
  | None => Some s
  | Some col =>
      if (col <? 0) || (Z.of_nat (length offsets) <=? col) then None
      else
        match rle_decode (skipn (nth (Z.to_nat col) offsets O) blob)
                         (Z.to_nat height) with
        | Some out => Some (mk_pov (Some leds) out)
        | None => None
        end
  end.

(** styles/pov.h:103-113: the byte LED [led] shows. [None]: the number of LEDs
    is not set, or the index is outside the buffer. *)
Definition pov_color (height : Z) (s : pov) (led : Z) : option Z :=
  match p_leds s with
  | None => None
  | Some leds => 
      if leds =? 0 then None
      else nth_error (p_buffer s) (Z.to_nat (Z.quot (led * height) leds))
  end.

(** styles/pov.h:158-164: one frame of ContinuousPOV: the new angle and the
    column shown. [t] and [last] are micros(). *)
Definition continuous (degrees columns : Z) (t last : Z) (speed angle : Q) : Q * Z :=
  let delta := (t - last) mod 2 ^ 32 in
  let delta := if 1000000 <? delta then 1 else delta in
  let angle := fract (angle + speed * inject_Z delta / 1000000
                              / inject_Z degrees)%Q in
  (angle, to_int (angle * inject_Z (columns - 1))).
