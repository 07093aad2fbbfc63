(** Reading the frames of still images and animations for the display. *)
From Coq Require Import ZArith List Bool.
From Verif Require Import ArithModel FileModel.
Import ListNotations.
Open Scope Z_scope.

(** common/file_reader.h:223-235 FileReader: the bytes from position [p] on. *)
Definition from (file : list Z) (p : Z) : list Z := skipn (Z.to_nat p) file.
(** common/file_reader.h:309-313 ReadType<uint32_t>, little endian.  Beyond the end of the file the
    code reads uninitialised bytes, here zeros. *)
Definition byte_at (file : list Z) (p : Z) : Z := nth (Z.to_nat p) file 0.
Definition le32_at (file : list Z) (p : Z) : Z :=
  byte_at file p + 256 * (byte_at file (p + 1) + 256 * (byte_at file (p + 2) + 256 * byte_at file (p + 3))).

(** display/ssd1306.h:327-350, 955-964 the members of StandardDisplayController used here: the file
    position, ypos_, looped_frames_, invert_y_, last_state_ and eof_. *)
Record reader := Reader { pos : Z; ypos : Z; looped : Z; inverted : bool; last_pos : Z; last_ypos : Z; eof : bool }.

(** What the header at a position says. *)
Record info := Info { width : Z; height : Z; bottom_up : bool; data_pos : Z; file_end : Z }.

(** display/ssd1306.h:792-799 the tags of bitmap files: BM BA CI CP IC PT *)
Definition bmp_tag (a b : Z) : bool :=
  ((a =? 66) && ((b =? 77) || (b =? 65))) || ((a =? 67) && ((b =? 73) || (b =? 80))) || ((a =? 73) && (b =? 67)) || ((a =? 80) && (b =? 84)).

(** display/ssd1306.h:778-831 the header; [fb] = sizeof(frame_buffer_).  Simplification: the numbers
    read are unbounded instead of int (the theorems assume files shorter than 2^31 bytes). *)
Definition header (fb : Z) (file : list Z) (start : Z) : option info :=
  match from file start with
  | a :: b :: r =>
      if (a =? 80) && (b =? 52) then
        let r := skipwhite r in
        let (w, r) := readIntValue r in
        let r := skipwhite r in
        let (h, r) := readIntValue r in
        let r := tl r in
        Some (Info w h false (Z.of_nat (length file) - Z.of_nat (length r)) 0)
      else if bmp_tag a b then
        let fe := u32 (start + le32_at file (start + 2)) in
        let offset := le32_at file (start + 10) in
        let w := le32_at file (start + 18) in
        let h := le32_at file (start + 22) in
        Some (Info w h true (u32 (start + offset + w * h / 8 - fb)) fe)
      else None
  | _ => None
  end.

(** display/ssd1306.h:832-847 the number of frames; any other width fails *)
Definition frames_of (W H : Z) (i : info) : option Z :=
  if (negb (width i =? W)) && (negb (width i =? H)) then None
  else Some (if width i =? W then height i / H else height i / W).

(** display/ssd1306.h:848-864: the frame itself *)
Definition read_frame (fb : Z) (file : list Z) (s : reader) (fe : Z) : reader * option (list Z) :=
  let size := Z.of_nat (length file) in
  if size - pos s <? fb then (s, None)
  else
    let bytes := firstn (Z.to_nat fb) (from file (pos s)) in
    let p := pos s + fb in
    let y := ypos s + 1 in
    let p := if 1 <? looped s then
               if looped s <=? y then size
               else if inverted s then u32 (p - 2 * fb) else p
             else if fe =? 0 then p else fe in
    (Reader p y (looped s) (inverted s) (last_pos s) (last_ypos s) (eof s), Some bytes).

(** display/ssd1306.h:772-865 ReadImage *)
Definition read_image (W H : Z) (file : list Z) (s : reader) : reader * option (list Z) :=
  let fb := W * H / 8 in
  if (looped s <=? ypos s) || (ypos s =? 0) then
    let start := if 1 <? looped s then 0 else pos s in
    match header fb file start with
    | None => (Reader (start + 2) 0 (looped s) (inverted s) (last_pos s) (last_ypos s) (eof s), None)
    | Some i =>
        match frames_of W H i with
        | None => (Reader (data_pos i) 0 (looped s) (bottom_up i) (last_pos s) (last_ypos s) (eof s), None)
        | Some n => read_frame fb file (Reader (data_pos i) 0 n (bottom_up i) (last_pos s) (last_ypos s) (eof s)) (file_end i)
        end
    end
  else read_frame fb file s 0.

(** display/ssd1306.h:872-921 FillBuffer, the part that reads: with !advance_ back to where the last
    frame was read from. *)
Definition fill (W H : Z) (file : list Z) (s : reader) (advance : bool) : reader * option (list Z) :=
  let p := if advance then pos s else last_pos s in
  let y := if advance then ypos s else last_ypos s in
  match read_image W H file (Reader p y (looped s) (inverted s) (last_pos s) (last_ypos s) (eof s)) with
  | (s, Some bytes) => (Reader (pos s) (ypos s) (looped s) (inverted s) p y (eof s), Some bytes)
  | (s, None) => (Reader (pos s) (ypos s) (looped s) (inverted s) (last_pos s) (last_ypos s) true, None)
  end.

(** display/ssd1306.h:525-537 the loop in FillFrameBuffer2: at the end of the file the last frame is
    read again.  The result is the frame and whether the end of the file has been reached.
    Simplification: the one round in which the file is opened is [open]. *)
Definition show (W H : Z) (file : list Z) (s : reader) (advance : bool) : reader * (option (list Z) * bool) :=
  match fill W H file s (advance && negb (eof s)) with
  | (s, Some bytes) => (s, (Some bytes, eof s))
  | (s, None) => let (s, o) := fill W H file s false in (s, (o, eof s))
  end.

(** display/ssd1306.h:720-734 SetFile and 877-884 the opening round of FillBuffer: the position is the
    start of the file, ypos_ = looped_frames_; last_state_ keeps its value. *)
Definition open (s : reader) : reader := Reader 0 (looped s) (looped s) (inverted s) (last_pos s) (last_ypos s) false.
