(** What drawing on the monochrome screen means, pixel by pixel. *)
From Coq Require Import ZArith List Bool.
From Verif Require Import FrameModel.
Import ListNotations.
Open Scope Z_scope.

(** Pixel (x, y) of the screen is lit. *)
Definition pixel (f : frame) (x y : Z) : bool := Z.testbit (f x) y.
(** A screen of W x H pixels holds words of H bits. *)
Definition screen (W H : Z) (f : frame) : Prop := forall x, 0 <= x < W -> 0 <= f x < 2 ^ H.
(** The heights for which there is a column type. *)
Definition height (H : Z) : Prop := H = 8 \/ H = 16 \/ H = 32 \/ H = 64.
(** [f'] shows [p x y] at every pixel of the screen. *)
Definition shows (W H : Z) (f' : frame) (p : Z -> Z -> bool) : Prop :=
  forall x y, 0 <= x < W -> 0 <= y < H -> pixel f' x y = p x y.
(** The operation succeeds (touches no memory outside of the screen) and leaves a screen showing [p]. *)
Definition draws (W H : Z) (o : option frame) (p : Z -> Z -> bool) : Prop :=
  exists f', o = Some f' /\ screen W H f' /\ shows W H f' p.
Definition between (a v b : Z) : bool := (a <=? v) && (v <? b).

(** Pixel (x, y) of an uncompressed bitmap [w] pixels wide: rows from the top, eight pixels per byte,
    the leftmost in the highest bit. *)
Definition image (w : Z) (bytes : Z -> Z) (x y : Z) : bool := Z.testbit (bytes (y * (w / 8) + x / 8)) (7 - x mod 8).

(** Pixel (i, r) of a glyph whose columns have [rows] rows. *)
Definition glyph_pixel (rows : Z) (g : glyph) (i r : Z) : bool :=
  between 0 i (columns g) && between 0 r rows && Z.testbit (data g i) r.
Definition glyph_rows (g : glyph) : Z := 8 * (column_size g + 1).
(** The glyphs of a text and the places they are put, by the pen position (x, y). *)
Fixpoint placed (font : list glyph) (x y : Z) (str : list Z) : list (glyph * Z * Z) :=
  match str with
  | [] => []
  | c :: str =>
      if c =? 10 then placed font 0 (y + 16) str
      else if (32 <=? c) && (c <=? 126) then
        match nth_error font (Z.to_nat (c - 32)) with
        | Some g => (g, x, y) :: placed font (x + skip g) y str
        | None => placed font x y str
        end
      else placed font x y str
  end.
Definition lit_by (p : glyph * Z * Z) (x y : Z) : bool :=
  let '(g, gx, gy) := p in glyph_pixel (glyph_rows g) g (x - gx - xoffset g) (y - gy - yoffset g).
