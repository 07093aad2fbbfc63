(** The monochrome frame buffer of the OLED displays: drawing, text and image conversion. *)
From Coq Require Import ZArith List Bool.
Import ListNotations.
Open Scope Z_scope.

(** display/monoframe.h:39-45 MonoFrame<Width, col_t>: WIDTH columns, each a word of H = 8 * sizeof(col_t)
    bits; row y of column x is bit y of word x.  The array is modelled as a function from column
    numbers to words; [W] columns exist, an access to any other one is undefined behaviour ([None]). *)
Definition frame := Z -> Z.
Definition put (f : frame) (x v : Z) : frame := fun i => if i =? x then v else f i.
Definition inside (W x : Z) : bool := (0 <=? x) && (x <? W).

(** Shifts of a col_t.  A shift by a negative amount or by H or more is undefined behaviour (for
    columns shorter than int the language would allow up to 31; this is not used). *)
Definition shl (H v n : Z) : option Z := if (0 <=? n) && (n <? H) then Some (Z.shiftl v n mod 2 ^ H) else None.
Definition shr (H v n : Z) : option Z := if (0 <=? n) && (n <? H) then Some (Z.shiftr v n) else None.
(** The value (col_t)-1. *)
Definition all_ones (H : Z) : Z := 2 ^ H - 1.
(** The operator ~ on a col_t. *)
Definition bnot (H v : Z) : Z := all_ones H - v.

Definition bind {A B} (o : option A) (k : A -> option B) : option B := match o with Some a => k a | None => None end.
Notation "'do' x <- o ; k" := (bind o (fun x => k)) (at level 60, x name, right associativity).

(** The statement frame_buffer_[x] = g(frame_buffer_[x]). *)
Definition modify (W : Z) (g : Z -> Z) (f : frame) (x : Z) : option frame :=
  if inside W x then Some (put f x (g (f x))) else None.
(** for (int x = x1; x < x2; x++) frame_buffer_[x] = g(frame_buffer_[x]), [n] = x2 - x1 rounds *)
Fixpoint each_column (W : Z) (g : Z -> Z) (f : frame) (x : Z) (n : nat) : option frame :=
  match n with
  | O => Some f
  | S n => do f <- modify W g f x; each_column W g f (x + 1) n
  end.

(** display/monoframe.h:47-49 Clear *)
Definition clear (f : frame) : frame := fun _ => 0.
(** display/monoframe.h:51-56 isClear *)
Definition is_clear (W : Z) (f : frame) : bool := forallb (fun i => f (Z.of_nat i) =? 0) (seq 0 (Z.to_nat W)).
(** display/monoframe.h:58-62 Invert *)
Definition invert (W H : Z) (f : frame) : option frame := each_column W (fun v => Z.lxor v (all_ones H)) f 0 (Z.to_nat W).

(** display/monoframe.h:80-84 FlipX: swaps column i with column W - 1 - i for i < W / 2 *)
Fixpoint flip_x_loop (W : Z) (f : frame) (i : Z) (n : nat) : frame :=
  match n with
  | O => f
  | S n => let a := f i in let b := f (W - 1 - i) in flip_x_loop W (put (put f i b) (W - 1 - i) a) (i + 1) n
  end.
Definition flip_x (W : Z) (f : frame) : frame := flip_x_loop W f 0 (Z.to_nat (W / 2)).

(** display/monoframe.h:86-93 ReverseBits.  [j] = H / 2, H / 4, ... 1; the mask m is updated with the
    new j after each round.  The constant 1 in 1 << (sizeof(col_t) * 4) is an int: with 64-bit
    columns that shift is undefined behaviour. *)
Fixpoint reverse_loop (H : Z) (n : nat) (j m word : Z) : Z :=
  match n with
  | O => word
  | S n =>
      let word := Z.lor (Z.land (Z.shiftr word j) m) (Z.shiftl (Z.land word m) j mod 2 ^ H) in
      let j := Z.shiftr j 1 in
      let m := Z.lxor m (Z.shiftl m j mod 2 ^ H) in
      if j =? 0 then word else reverse_loop H n j m word
  end.
Definition reverse_bits (H word : Z) : option Z :=
  if H / 2 <? 31 then Some (reverse_loop H (Z.to_nat H) (H / 2) (2 ^ (H / 2) - 1) word) else None.
(** display/monoframe.h:95-99 FlipY *)
Fixpoint flip_y_loop (H : Z) (f : frame) (x : Z) (n : nat) : option frame :=
  match n with
  | O => Some f
  | S n => do v <- reverse_bits H (f x); flip_y_loop H (put f x v) (x + 1) n
  end.
Definition flip_y (W H : Z) (f : frame) : option frame := flip_y_loop H f 0 (Z.to_nat W).

(** display/monoframe.h:101-112 ReverseBytes: __builtin_bswap16/32/64; for one-byte columns the loop
    has no rounds.  [n] bytes. *)
Fixpoint reverse_bytes (n : nat) (word : Z) : Z :=
  match n with
  | O => 0
  | S n => Z.lor (Z.shiftl (Z.land word 255) (8 * Z.of_nat n)) (reverse_bytes n (Z.shiftr word 8))
  end.
Definition swap_bytes (H word : Z) : Z := reverse_bytes (Z.to_nat (H / 8)) word.
(** display/monoframe.h:114-118 ConvertPortrait *)
Definition convert_portrait (W H : Z) (f : frame) : option frame := each_column W (swap_bytes H) f 0 (Z.to_nat W).

(** display/monoframe.h:64-78 TransposeSquareInPlace(A), A = frame_buffer_ + at.  The inner loop visits
    k = 0, then (k + j + 1) & ~j, while k < H. *)
Fixpoint transpose_inner (H : Z) (n : nat) (at_ j m : Z) (f : frame) (k : Z) : frame :=
  match n with
  | O => f
  | S n =>
      if k <? H then
        let a := f (at_ + k) in let b := f (at_ + k + j) in
        let t := Z.land (Z.lxor a (Z.shiftr b j)) m in
        let f := put f (at_ + k) (Z.lxor a t) in
        let f := put f (at_ + k + j) (Z.lxor b (Z.shiftl t j mod 2 ^ H)) in
        transpose_inner H n at_ j m f (Z.ldiff (k + j + 1) j)
      else f
  end.
Fixpoint transpose_loop (H : Z) (n : nat) (at_ j m : Z) (f : frame) : frame :=
  match n with
  | O => f
  | S n =>
      let f := transpose_inner H (Z.to_nat H) at_ j m f 0 in
      let j := Z.shiftr j 1 in
      let m := Z.lxor m (Z.shiftl m j mod 2 ^ H) in
      if j =? 0 then f else transpose_loop H n at_ j m f
  end.
Definition transpose (H at_ : Z) (f : frame) : frame := transpose_loop H (Z.to_nat H) at_ (H / 2) (2 ^ (H / 2) - 1) f.

(** display/monoframe.h:120-151 ConvertLandscape.  [bits] is the bitmap of columns already moved. *)
Definition moved (bits : Z -> Z) (w : Z) : bool := Z.testbit (bits (Z.shiftr w 5)) (Z.land w 31).
Definition mark (bits : Z -> Z) (w : Z) : Z -> Z :=
  put bits (Z.shiftr w 5) (Z.lor (bits (Z.shiftr w 5)) (Z.shiftl 1 (Z.land w 31))).
Definition dest (W H : Z) (invert_y : bool) (from : Z) : Z :=
  let blocks_per_row := W / H in
  let block_x := from mod blocks_per_row in
  let row := from / blocks_per_row in
  let row := if invert_y then row else H - 1 - row in
  block_x * H + row.
(** The do-while loop: follows one cycle of the permutation. *)
Fixpoint cycle (W H : Z) (invert_y : bool) (n : nat) (w from tmp : Z) (s : frame * (Z -> Z)) : option (frame * (Z -> Z)) :=
  match n with
  | O => None
  | S n =>
      let (f, bits) := s in
      let tmp := swap_bytes H tmp in
      let d := dest W H invert_y from in
      let old := f d in
      let f := put f d tmp in
      let bits := mark bits d in
      if d =? w then Some (f, bits) else cycle W H invert_y n w d old (f, bits)
  end.
Fixpoint permute (W H : Z) (invert_y : bool) (n : nat) (w : Z) (s : frame * (Z -> Z)) : option (frame * (Z -> Z)) :=
  match n with
  | O => Some s
  | S n =>
      do s <- (if moved (snd s) w then Some s else cycle W H invert_y (Z.to_nat W) w w (fst s w) s);
      permute W H invert_y n (w + 1) s
  end.
Fixpoint transpose_all (H : Z) (f : frame) (w : Z) (n : nat) : frame :=
  match n with
  | O => f
  | S n => transpose_all H (transpose H w f) (w + H) n
  end.
Definition convert_landscape (W H : Z) (invert_y : bool) (f : frame) : option frame :=
  do s <- permute W H invert_y (Z.to_nat W) 0 (f, fun _ => 0);
  Some (transpose_all H (fst s) 0 (Z.to_nat (W / H))).

(** display/monoframe.h:153-159 SetPixel, GetPixel *)
Definition set_pixel (W H : Z) (f : frame) (x y : Z) : option frame :=
  do bit <- shl H 1 y; modify W (fun v => Z.lor v bit) f x.
Definition get_pixel (W H : Z) (f : frame) (x y : Z) : option bool :=
  do bit <- shl H 1 y; if inside W x then Some (negb (Z.land (f x) bit =? 0)) else None.

(** The mask (((col_t)-1) >> (HEIGHT - (y2 - y1))) of display/monoframe.h:163,174,180. *)
Definition rows_mask (H y1 y2 : Z) : option Z := shr H (all_ones H) (H - (y2 - y1)).
(** display/monoframe.h:161-164 DrawVLine *)
Definition draw_vline (W H : Z) (f : frame) (x y1 y2 : Z) : option frame :=
  do m <- rows_mask H y1 y2; do m <- shl H m y1; modify W (fun v => Z.lor v m) f x.
(** display/monoframe.h:166-170 DrawHLine *)
Definition draw_hline (W H : Z) (f : frame) (x1 x2 y : Z) : option frame :=
  do m <- shl H 1 y; each_column W (fun v => Z.lor v m) f x1 (Z.to_nat (x2 - x1)).
(** display/monoframe.h:172-176 DrawRect *)
Definition draw_rect (W H : Z) (f : frame) (x1 x2 y1 y2 : Z) : option frame :=
  do m <- rows_mask H y1 y2; do m <- shl H m y1; each_column W (fun v => Z.lor v m) f x1 (Z.to_nat (x2 - x1)).
(** display/monoframe.h:178-182 ClearRect: the ~ applies before the shift *)
Definition clear_rect (W H : Z) (f : frame) (x1 x2 y1 y2 : Z) : option frame :=
  do m <- rows_mask H y1 y2; do m <- shl H (bnot H m) y1; each_column W (fun v => Z.land v m) f x1 (Z.to_nat (x2 - x1)).

(** display/monoframe.h:4-11 Glyph.  The first five fields are signed bit fields of 7, 7, 7, 8 and 3
    bits; [glyph] is what is stored when a table entry (line 32) gives these values. *)
Definition signed_field (n v : Z) : Z := let r := v mod 2 ^ n in if r <? 2 ^ (n - 1) then r else r - 2 ^ n.
Record glyph := Glyph { skip : Z; xoffset : Z; yoffset : Z; columns : Z; column_size : Z; data : Z -> Z }.
Definition glyph_entry (skip xoff yoff nelem elem_size : Z) (d : Z -> Z) : glyph :=
  Glyph (signed_field 7 skip) (signed_field 7 xoff) (signed_field 7 yoff) (signed_field 8 nelem) (signed_field 3 (elem_size - 1)) d.

(** display/monoframe.h:184-193 Draw2<T>, T of [tbits] bits: columns begin .. begin + n - 1 *)
Fixpoint draw2 (W H tbits : Z) (f : frame) (x i shift : Z) (d : Z -> Z) (n : nat) : option frame :=
  match n with
  | O => Some f
  | S n =>
      let v := (d i mod 2 ^ tbits) mod 2 ^ H in
      do w <- (if 0 <? shift then shl H v shift else if shift <? 0 then shr H v (- shift) else Some v);
      do f <- modify W (fun o => Z.lor o w) f (x + i);
      draw2 W H tbits f x (i + 1) shift d n
  end.
(** display/monoframe.h:195-219 Draw, for MAX_GLYPH_HEIGHT = [maxh] (32 unless configured) *)
Definition draw (maxh W H : Z) (f : frame) (g : glyph) (x y : Z) : option frame :=
  let x := x + xoffset g in
  let y := y + yoffset g in
  let b := Z.max 0 (- x) in
  let e := Z.min (columns g) (W - x) in
  let go t := draw2 W H t f x b y (data g) (Z.to_nat (e - b)) in
  if column_size g =? 0 then go 8
  else if (column_size g =? 1) && (16 <=? maxh) then go 16
  else if (column_size g =? 3) && (32 <=? maxh) then go 32
  else if (column_size g =? 7) && (64 <=? maxh) then go 64
  else Some f.

(** display/monoframe.h:238-252 DrawText.  [font] is the table of glyphs; reading beyond it is
    undefined behaviour.  Characters are signed chars. *)
Fixpoint draw_text (maxh W H : Z) (font : list glyph) (f : frame) (x y : Z) (str : list Z) : option frame :=
  match str with
  | [] => Some f
  | c :: str =>
      if c =? 10 then draw_text maxh W H font f 0 (y + 16) str
      else if (32 <=? c) && (c <=? 127) then
        do g <- nth_error font (Z.to_nat (c - 32));
        do f <- draw maxh W H f g x y;
        draw_text maxh W H font f (x + skip g) y str
      else draw_text maxh W H font f x y str
  end.

(** display/ssd1306.h:369-391 ConvertToNative, with the layout recorded by ReadImage.
    display/ssd1306.h:832-840 ReadImage's choice of layout: the layout is LAYOUT_LANDSCAPE if the
    image is as wide as the screen, and is left as it was if the image is as wide as the screen is
    high; any other width fails. *)
Inductive layout := LAYOUT_NATIVE | LAYOUT_LANDSCAPE | LAYOUT_PORTRAIT.
Definition choose_layout (W H width : Z) (l : layout) : option layout :=
  if width =? W then Some LAYOUT_LANDSCAPE
  else if width =? H then Some l
  else None.
Definition convert_to_native (W H : Z) (l : layout) (invert_y xor_ : bool) (f : frame) : option frame :=
  do f <- match l with
          | LAYOUT_NATIVE => Some f
          | LAYOUT_LANDSCAPE => convert_landscape W H invert_y f
          | LAYOUT_PORTRAIT => convert_portrait W H f
          end;
  let invert_y := match l with LAYOUT_LANDSCAPE => false | _ => invert_y end in
  do f <- (if invert_y then flip_y W H f else Some f);
  if xor_ then invert W H f else Some f.

(** display/ssd1306.h:850 f->Read((uint8_t* )frame_buffer_, sizeof(frame_buffer_)): the bytes of the file
    are the bytes of the words in memory, lowest byte first. *)
Fixpoint word_of (bytes : Z -> Z) (at_ : Z) (n : nat) : Z :=
  match n with
  | O => 0
  | S n => bytes at_ + 256 * word_of bytes (at_ + 1) n
  end.
Definition load (H : Z) (bytes : Z -> Z) : frame := fun x => word_of bytes (x * (H / 8)) (Z.to_nat (H / 8)).
