(** Model of pqoi/pqoi.h: the compressed image format for color displays.  Pixels are
    integers 0..65535, bytes 0..255, memory before the write position is a list with the
    most recent pixel first. *)
From Coq Require Import ZArith List Bool.
Import ListNotations.
Open Scope Z_scope.

Definition u16 (x : Z) : Z := x mod 2 ^ 16.
Definition u32 (x : Z) : Z := x mod 2 ^ 32.

(** pqoi.h:30-33 PqoiBase: the stash of 64 recent pixels and the last pixel. *)
Record codec := Codec { stash : list Z; pixel : Z }.
(** pqoi.h:66-69 reset *)
Definition codec0 : codec := Codec (repeat 0 64) 0.
(** pqoi.h:36-40 *)
Definition hashPixel (p : Z) : Z := Z.shiftr (u32 (p * 173976727)) 26.
(** pqoi.h:41-58, the compiled branch (left shifts of negative numbers as multiplication). *)
Definition lumaDiff (gd_bits rd_bits bd_bits : Z) : Z :=
  let gd := gd_bits - 0x10 in
  let ld := Z.quot gd 2 - 8 in
  let rd := rd_bits + ld in
  let bd := bd_bits + ld in
  u16 (rd * 2 ^ 11 + gd * 2 ^ 5 + bd).
(** pqoi.h:73-76 PQOI_DELTA0 .. PQOI_DELTA3, 77 deltas *)
Definition DELTA0 (x : Z) : list Z := [Z.land x 0xFFFF].
Definition DELTA1 (x : Z) : list Z := DELTA0 x ++ DELTA0 (x + 1) ++ DELTA0 (x + 2) ++ DELTA0 (x + 0xFFFE) ++ DELTA0 (x + 0xFFFF).
Definition DELTA2 (x : Z) : list Z := DELTA1 x ++ DELTA1 (x + Z.shiftl 1 5) ++ DELTA1 (x + Z.shiftl 2 5) ++ DELTA1 (x + Z.shiftl 0xFFFE 5) ++ DELTA1 (x + Z.shiftl 0xFFFF 5).
Definition DELTA3 (x : Z) : list Z := DELTA2 x ++ DELTA2 (x + Z.shiftl 1 11) ++ DELTA2 (x + Z.shiftl 2 11) ++ DELTA2 (x + Z.shiftl 0xFFFE 11) ++ DELTA2 (x + Z.shiftl 0xFFFF 11).
Definition deltas : list Z := DELTA3 0.
(** pqoi.h:97-220 the constants of cases 1..124 of PQOI_DECODE_ONE, in order *)
Definition case_deltas : list Z :=
  [0x0001; 0x0002; 0xfffe; 0xffff; 0x0020; 0x0021; 0x0022; 0x001e; 0x001f; 0x0040; 0x0041; 0x0042;
   0x003e; 0x003f; 0xffc0; 0xffc1; 0xffc2; 0xffbe; 0xffbf; 0xffe0; 0xffe1; 0xffe2; 0xffde; 0xffdf;
   0x0800; 0x0801; 0x0802; 0x07fe; 0x07ff; 0x0820; 0x0821; 0x0822; 0x081e; 0x081f; 0x0840; 0x0841;
   0x0842; 0x083e; 0x083f; 0x07c0; 0x07c1; 0x07c2; 0x07be; 0x07bf; 0x07e0; 0x07e1; 0x07e2; 0x07de;
   0x07df; 0x1000; 0x1001; 0x1002; 0x0ffe; 0x0fff; 0x1020; 0x1021; 0x1022; 0x101e; 0x101f; 0x1040;
   0x1041; 0x1042; 0x103e; 0x103f; 0x0fc0; 0x0fc1; 0x0fc2; 0x0fbe; 0x0fbf; 0x0fe0; 0x0fe1; 0x0fe2;
   0x0fde; 0x0fdf; 0xf000; 0xf001; 0xf002; 0xeffe; 0xefff; 0xf020; 0xf021; 0xf022; 0xf01e; 0xf01f;
   0xf040; 0xf041; 0xf042; 0xf03e; 0xf03f; 0xefc0; 0xefc1; 0xefc2; 0xefbe; 0xefbf; 0xefe0; 0xefe1;
   0xefe2; 0xefde; 0xefdf; 0xf800; 0xf801; 0xf802; 0xf7fe; 0xf7ff; 0xf820; 0xf821; 0xf822; 0xf81e;
   0xf81f; 0xf840; 0xf841; 0xf842; 0xf83e; 0xf83f; 0xf7c0; 0xf7c1; 0xf7c2; 0xf7be; 0xf7bf; 0xf7e0;
   0xf7e1; 0xf7e2; 0xf7de; 0xf7df].

Definition set_nth {A} (n : nat) (x : A) (l : list A) : list A := firstn n l ++ x :: skipn (S n) l.
Definition stash_at (c : codec) (i : Z) : Z := nth (Z.to_nat i) (stash c) 0.
(** pqoi.h:286-287 (and 548-551 in the encoder): remember the pixel *)
Definition remember_pixel (c : codec) (p : Z) : codec := Codec (set_nth (Z.to_nat (hashPixel p)) p (stash c)) p.

(** pqoi.h:85-287 PQOI_DECODE_ONE where every byte is available (PqoiDecoder, 290-303):
    new state, pixels written, bytes left.  [None]: reads past the input or before the
    output. *)
Definition decode_one (c : codec) (hist bytes : list Z) : option (codec * list Z * list Z) :=
  match bytes with
  | [] => None
  | byte :: bytes =>
    if byte =? 0 then
      match bytes with
      | b2 :: b3 :: bytes => let p := u16 (b3 * 2 ^ 8 + b2) in Some (remember_pixel c p, [p], bytes)
      | _ => None
      end
    else if byte <=? 124 then let p := u16 (pixel c + nth (Z.to_nat (byte - 1)) case_deltas 0) in Some (remember_pixel c p, [p], bytes)
    else if byte =? 125 then match hist with a :: b :: _ => Some (c, [b; a], bytes) | _ => None end
    else if byte =? 126 then match hist with a :: b :: d :: e :: _ => Some (c, [e; d; b; a], bytes) | _ => None end
    else if byte =? 127 then match hist with a :: b :: d :: e :: _ => Some (c, [e; d; b; a; e; d; b; a], bytes) | _ => None end
    else if byte <=? 159 then Some (c, repeat (pixel c) (Z.to_nat (byte - 126)), bytes)
    else if byte <=? 191 then
      match bytes with
      | b2 :: bytes => let p := u16 (pixel c + lumaDiff (byte - 160) (Z.shiftr b2 4) (Z.land b2 0xf)) in Some (remember_pixel c p, [p], bytes)
      | _ => None
      end
    else let p := stash_at c (byte - 192) in Some (Codec (stash c) p, [p], bytes)
  end.
(** pqoi.h:293-303 DecodeBlock: until [n] pixels are written.  Every round writes at least
    one pixel, so [n] rounds suffice. *)
Fixpoint decode_block (rounds : nat) (c : codec) (hist bytes : list Z) (n : nat) : option (codec * list Z * list Z) :=
  match n with
  | O => Some (c, [], bytes)
  | _ =>
    match rounds with
    | O => None
    | S rounds =>
      match decode_one c hist bytes with
      | None => None
      | Some (c1, ps, bytes1) =>
        match decode_block rounds c1 (rev ps ++ hist) bytes1 (n - length ps) with
        | None => None
        | Some (c2, qs, bytes2) => Some (c2, ps ++ qs, bytes2)
        end
      end
    end
  end.
Definition DecodeBlock (c : codec) (hist bytes : list Z) (n : nat) := decode_block n c hist bytes n.

(** * The streaming decoder, pqoi.h:324-386 *)
Inductive sstate := AT_START | AT_RAW1 | AT_RAW2 | AT_LUMA.
Record streaming := Streaming { s_codec : codec; s_state : sstate; previous_byte : Z; s_in : list Z }.
(** 340-342 set_input; what was left of the old input is dropped *)
Definition set_input (s : streaming) (bytes : list Z) : streaming := Streaming (s_codec s) (s_state s) (previous_byte s) bytes.
Definition input_done (s : streaming) : bool := match s_in s with [] => true | _ => false end.
Definition streaming0 : streaming := Streaming codec0 AT_START 0 [].
(** One round of the loop, 376-378 with PQOI_STREAMING_GETC (354).  [Yield]: returned from
    inside GETC. *)
Inductive sround := Yield (s : streaming) | Emit (s : streaming) (ps : list Z).
Definition emit_pixel (c : codec) (p : Z) (bytes : list Z) : sround := Emit (Streaming (remember_pixel c p) AT_START 0 bytes) [p].
Definition streaming_round (c : codec) (old : Z) (hist bytes : list Z) : option sround :=
  match bytes with
  | [] => Some (Yield (Streaming c AT_START old []))
  | byte :: bytes =>
    if byte =? 0 then
      match bytes with
      | [] => Some (Yield (Streaming c AT_RAW1 byte []))
      | [b2] => Some (Yield (Streaming c AT_RAW2 b2 []))
      | b2 :: b3 :: bytes => Some (emit_pixel c (u16 (b3 * 2 ^ 8 + b2)) bytes)
      end
    else if byte <=? 124 then Some (emit_pixel c (u16 (pixel c + nth (Z.to_nat (byte - 1)) case_deltas 0)) bytes)
    else if byte =? 125 then match hist with a :: b :: _ => Some (Emit (Streaming c AT_START 0 bytes) [b; a]) | _ => None end
    else if byte =? 126 then match hist with a :: b :: d :: e :: _ => Some (Emit (Streaming c AT_START 0 bytes) [e; d; b; a]) | _ => None end
    else if byte =? 127 then match hist with a :: b :: d :: e :: _ => Some (Emit (Streaming c AT_START 0 bytes) [e; d; b; a; e; d; b; a]) | _ => None end
    else if byte <=? 159 then Some (Emit (Streaming c AT_START 0 bytes) (repeat (pixel c) (Z.to_nat (byte - 126))))
    else if byte <=? 191 then
      match bytes with
      | [] => Some (Yield (Streaming c AT_LUMA byte []))
      | b2 :: bytes => Some (emit_pixel c (u16 (pixel c + lumaDiff (byte - 160) (Z.shiftr b2 4) (Z.land b2 0xf))) bytes)
      end
    else let p := stash_at c (byte - 192) in Some (Emit (Streaming (Codec (stash c) p) AT_START 0 bytes) [p])
  end.
(** 355-374 the switch at the start of read: finish what was begun *)
Definition streaming_resume (s : streaming) : sround :=
  let c := s_codec s in
  match s_state s, s_in s with
  | AT_START, _ => Emit s []
  | AT_RAW1, [] => Yield (Streaming c AT_RAW1 (previous_byte s) [])
  | AT_RAW1, [b2] => Yield (Streaming c AT_RAW2 b2 [])
  | AT_RAW1, b2 :: b3 :: bytes => emit_pixel c (u16 (b3 * 2 ^ 8 + b2)) bytes
  | AT_RAW2, [] => Yield (Streaming c AT_RAW2 (previous_byte s) [])
  | AT_RAW2, b3 :: bytes => emit_pixel c (u16 (b3 * 2 ^ 8 + previous_byte s)) bytes
  | AT_LUMA, [] => Yield (Streaming c AT_LUMA (previous_byte s) [])
  | AT_LUMA, b2 :: bytes => emit_pixel c (u16 (pixel c + lumaDiff (previous_byte s - 160) (Z.shiftr b2 4) (Z.land b2 0xf))) bytes
  end.
Fixpoint streaming_loop (rounds : nat) (s : streaming) (hist : list Z) (n : nat) : option (streaming * list Z) :=
  match n with
  | O => Some (Streaming (s_codec s) AT_START (previous_byte s) (s_in s), [])
  | _ =>
    match rounds with
    | O => None
    | S rounds =>
      match streaming_round (s_codec s) (previous_byte s) hist (s_in s) with
      | None => None
      | Some (Yield s') => Some (s', [])
      | Some (Emit s1 ps) =>
        match streaming_loop rounds s1 (rev ps ++ hist) (n - length ps) with
        | None => None
        | Some (s2, qs) => Some (s2, ps ++ qs)
        end
      end
    end
  end.
(** 346-384 read: write until [n] pixels are written or the input is used up.  The byte
    kept for AT_START is never used (it is overwritten before). *)
Definition streaming_read (s : streaming) (hist : list Z) (n : nat) : option (streaming * list Z) :=
  match streaming_resume s with
  | Yield s' => Some (s', [])
  | Emit s1 ps =>
    match streaming_loop (n - length ps) s1 (rev ps ++ hist) (n - length ps) with
    | None => None
    | Some (s2, qs) => Some (s2, ps ++ qs)
    end
  end.

(** * PqoiOutputChunk, pqoi.h:388-471: a row buffer; [before] is what lies before the row
    and its left margin, most recent first; [filled] the pixels written from the margin
    on, which may run past the row. *)
Record chunk := Chunk { before : list Z; filled : list Z }.
(** 404-406 init(left) *)
Definition chunk_init (before : list Z) : chunk := Chunk before [].
(** 445-450 fill(decoder, left, pixels) *)
Definition chunk_fill (s : streaming) (k : chunk) (pixels : nat) : option (streaming * chunk) :=
  if (pixels <=? length (filled k))%nat then Some (s, k)
  else match streaming_read s (rev (filled k) ++ before k) (pixels - length (filled k)) with
       | None => None
       | Some (s', ps) => Some (s', Chunk (before k) (filled k ++ ps))
       end.
(** 434 full(left, pixels) *)
Definition chunk_full (k : chunk) (pixels : nat) : bool := (pixels <=? length (filled k))%nat.
(** 418-426 init_next_chunk(previous, left, pixels): what was written past the row, and at
    least the last four pixels, go to the next row buffer.  What is before them there is
    old memory. *)
Definition chunk_next (k : chunk) (pixels : nat) (old : list Z) : chunk :=
  let pad := skipn pixels (filled k) in
  Chunk (firstn (4 - length pad) (rev (firstn pixels (filled k)) ++ before k) ++ old) pad.

(** * The encoder *)
(** pqoi.h:473-490 PqoiLookupTable: the assignments in order *)
Definition upto (n : Z) : list Z := map Z.of_nat (seq 0 (Z.to_nat n)).
Definition luma_assignments : list (Z * Z) :=
  flat_map (fun gd => flat_map (fun rd => map (fun bd => (lumaDiff gd rd bd, (160 + gd) * 2 ^ 8 + rd * 2 ^ 4 + bd)) (upto 16)) (upto 16)) (upto 32).
Definition delta_assignments : list (Z * Z) := map (fun i => (nth (Z.to_nat i) deltas 0, i)) (skipn 1 (upto 125)).
(** The last assignment counts; entries never assigned are 0. *)
Definition diff_index (d : Z) : Z :=
  match find (fun kv => fst kv =? d) (rev delta_assignments) with
  | Some (_, v) => v
  | None => match find (fun kv => fst kv =? d) (rev luma_assignments) with Some (_, v) => v | None => 0 end
  end.
Definition list_eqb (l m : list Z) : bool := if list_eq_dec Z.eq_dec l m then true else false.
(** pqoi.h:539-540 *)
Fixpoint run_length (limit : nat) (p : Z) (l : list Z) : nat :=
  match limit, l with S limit, x :: l => if x =? p then S (run_length limit p l) else O | _, _ => O end.
(** pqoi.h:502-543 one round: the operation and how many pixels it covers.  [prev]: the
    pixels of this block before, most recent first; [rem]: this pixel and those after. *)
Definition choose (c : codec) (prev rem : list Z) (p : Z) : Z * nat :=
  let op0 := if stash_at c (hashPixel p) =? p then hashPixel p + 192
             else let op := diff_index (u16 (p - pixel c)) in
                  if op =? 0 then Z.lor (Z.lor (Z.shiftl 0x100 16) (Z.shiftl (Z.land p 0xff) 8)) (Z.shiftr p 8) else op in
  let r2 := if (2 <=? length prev)%nat && (2 <=? length rem)%nat && list_eqb (firstn 2 rem) (rev (firstn 2 prev)) then (125, 2%nat) else (op0, 1%nat) in
  let r4 := if (4 <=? length prev)%nat && (4 <=? length rem)%nat && list_eqb (firstn 4 rem) (rev (firstn 4 prev)) then (126, 4%nat) else r2 in
  let r8 := if (8 <=? length prev)%nat && (8 <=? length rem)%nat && list_eqb (firstn 8 rem) (rev (firstn 4 prev) ++ rev (firstn 4 prev)) then (127, 8%nat) else r4 in
  if p =? pixel c then
    let run := run_length 33 (pixel c) rem in
    if (snd r8 <? run)%nat then (Z.of_nat run + 126, run) else r8
  else r8.
(** pqoi.h:544-546 *)
Definition op_bytes (op : Z) : list Z :=
  (if op >? 65535 then [Z.shiftr op 16 mod 256] else []) ++ (if op >? 255 then [Z.shiftr op 8 mod 256] else []) ++ [op mod 256].
(** pqoi.h:500-555 encodePixels; every round covers at least one pixel. *)
Fixpoint encode_pixels (rounds : nat) (c : codec) (prev rem : list Z) : codec * list Z :=
  match rounds, rem with
  | S rounds, p :: _ =>
    let '(op, l) := choose c prev rem p in
    let c1 := if (l =? 1)%nat then remember_pixel c p else c in
    let '(c2, out) := encode_pixels rounds c1 (rev (firstn l rem) ++ prev) (skipn l rem) in
    (c2, op_bytes op ++ out)
  | _, _ => (c, [])
  end.
Definition encodePixels (c : codec) (pixels : list Z) : codec * list Z := encode_pixels (length pixels) c [] pixels.

(** * Transparency *)
(** pqoi.h:572-578 alphaBlend *)
Definition alphaBlend (out in_ alpha : Z) : Z :=
  let tmp := Z.land (u32 (out * 0x10001)) 0x7E0F81F in
  let tmp := Z.land (Z.shiftr (u32 (tmp * alpha)) 5) 0x7E0F81F in
  u16 (tmp + Z.shiftr tmp 16 + in_).
(** pqoi.h:704-717 premultiply *)
Definition premultiply (p alpha : Z) : Z :=
  let x := alphaBlend 0xFFFF 0 alpha in
  let r := 32 - Z.shiftr x 11 in
  let g := 64 - Z.land (Z.shiftr x 5) 0x3f in
  let b := 32 - Z.land x 0x1f in
  let R := Z.shiftr p 11 in
  let G := Z.land (Z.shiftr p 5) 0x3f in
  let B := Z.land p 0x1f in
  u16 (Z.quot (r * R) 32 * 2 ^ 11 + Z.quot (g * G) 64 * 2 ^ 5 + Z.quot (b * B) 32).
(** pqoi.h:607-638 one segment of DecodeBlockWithAlphas: pixels, alphas and the bytes left.
    The pixels written past the end of a segment are overwritten by the next one. *)
Definition alpha_segment (c : codec) (hist bytes : list Z) : option (codec * list Z * list Z * list Z) :=
  match bytes with
  | [] => None
  | byte :: bytes =>
    let N := S (Z.to_nat (Z.land byte 0x3F)) in
    let kind := Z.shiftr byte 6 in
    if kind =? 0 then Some (c, repeat 0 N, repeat 32 N, bytes)
    else match DecodeBlock c hist bytes N with
         | None => None
         | Some (c1, ps, bytes1) =>
           if kind =? 1 then if (N <=? length bytes1)%nat then Some (c1, firstn N ps, firstn N bytes1, skipn N bytes1) else None
           else if kind =? 2 then match bytes1 with a :: bytes2 => Some (c1, firstn N ps, repeat a N, bytes2) | [] => None end
           else Some (c1, firstn N ps, repeat 0 N, bytes1)
         end
  end.
(** pqoi.h:605-639 DecodeBlockWithAlphas: [n] pixels, with their alphas *)
Fixpoint decode_alphas (rounds : nat) (c : codec) (hist bytes : list Z) (n : nat) : option (codec * list Z * list Z * list Z) :=
  match n with
  | O => Some (c, [], [], bytes)
  | _ =>
    match rounds with
    | O => None
    | S rounds =>
      match alpha_segment c hist bytes with
      | None => None
      | Some (c1, ps, al, bytes1) =>
        match decode_alphas rounds c1 (rev ps ++ hist) bytes1 (n - length ps) with
        | None => None
        | Some (c2, qs, be, bytes2) => Some (c2, ps ++ qs, al ++ be, bytes2)
        end
      end
    end
  end.
Definition DecodeBlockWithAlphas (c : codec) (bytes : list Z) (n : nat) := decode_alphas n c [] bytes n.
(** pqoi.h:581-601 one segment of Apply: blend onto the pixels [below]; translucent pixels
    are decoded into an array of 64 pixels, with nothing before it. *)
Definition apply_segment (c : codec) (hist bytes below : list Z) : option (codec * list Z * list Z) :=
  match bytes with
  | [] => None
  | byte :: bytes =>
    let N := S (Z.to_nat (Z.land byte 0x3F)) in
    let kind := Z.shiftr byte 6 in
    if kind =? 0 then Some (c, firstn N below, bytes)
    else match DecodeBlock c (if kind =? 3 then hist else []) bytes N with
         | None => None
         | Some (c1, ps, bytes1) =>
           if kind =? 1 then
             if (N <=? length bytes1)%nat
             then Some (c1, map (fun x => alphaBlend (fst x) (fst (snd x)) (snd (snd x))) (combine (firstn N below) (combine ps (firstn N bytes1))), skipn N bytes1)
             else None
           else if kind =? 2 then match bytes1 with a :: bytes2 => Some (c1, map (fun x => alphaBlend (fst x) (snd x) a) (combine (firstn N below) ps), bytes2) | [] => None end
           else Some (c1, firstn N ps, bytes1)
         end
  end.
(** pqoi.h:579-603 Apply *)
Fixpoint apply_alphas (rounds : nat) (c : codec) (hist bytes below : list Z) : option (codec * list Z * list Z) :=
  match below with
  | [] => Some (c, [], bytes)
  | _ =>
    match rounds with
    | O => None
    | S rounds =>
      match apply_segment c hist bytes below with
      | None => None
      | Some (c1, ps, bytes1) =>
        match apply_alphas rounds c1 (rev ps ++ hist) bytes1 (skipn (length ps) below) with
        | None => None
        | Some (c2, qs, bytes2) => Some (c2, ps ++ qs, bytes2)
        end
      end
    end
  end.
Definition Apply (c : codec) (bytes below : list Z) := apply_alphas (length below) c [] bytes below.

(** pqoi.h:722-742 the length of the next segment and whether it is raw.  [alphas] from the
    current pixel on; [past] is the byte after the alphas, which line 737 may read. *)
Fixpoint same_run (limit : nat) (a : Z) (alphas : list Z) : nat :=
  match limit, alphas with S limit, x :: alphas => if x =? a then S (same_run limit a alphas) else O | _, _ => O end.
Fixpoint raw_run (rounds : nat) (run : nat) (alphas : list Z) (past : Z) : nat :=
  match rounds with
  | O => run
  | S rounds =>
    if (run <? 64)%nat && (run + 1 <? length alphas)%nat then
      if (nth (run + 1) alphas past =? nth run alphas past) && (nth (run + 2) alphas past =? nth run alphas past) then run
      else raw_run rounds (S run) alphas past
    else run
  end.
Definition segment (alphas : list Z) (past : Z) : nat * bool :=
  match alphas with
  | [] => (O, false)
  | a :: rest =>
    let run := S (same_run 63 a rest) in
    if (run <? 2)%nat then (raw_run 64 1 alphas past, true) else (run, false)
  end.
(** pqoi.h:719-768 encodePixelsWithAlpha for one row *)
Fixpoint encode_alphas (rounds : nat) (c : codec) (pixels alphas : list Z) (past : Z) : codec * list Z :=
  match rounds, alphas with
  | S rounds, a :: _ =>
    let '(run, raw) := segment alphas past in
    let ps := firstn run pixels in
    let head := Z.of_nat run - 1 in
    let '(c1, bytes) :=
      if raw then let '(c1, out) := encodePixels c ps in (c1, [0x40 + head] ++ out ++ firstn run alphas)
      else if a =? 32 then (c, [head])
      else if a =? 0 then let '(c1, out) := encodePixels c ps in (c1, [0xC0 + head] ++ out)
      else let '(c1, out) := encodePixels c ps in (c1, [0x80 + head] ++ out ++ [a]) in
    let '(c2, more) := encode_alphas rounds c1 (skipn run pixels) (skipn run alphas) past in
    (c2, bytes ++ more)
  | _, _ => (c, [])
  end.
Definition encodePixelsWithAlpha (c : codec) (pixels alphas : list Z) (past : Z) : codec * list Z :=
  encode_alphas (length alphas) c pixels alphas past.

(** * Files: EasyPqoiEncoder *)
(** pqoi.h:786-790 RGB565Data *)
Record picture := Picture { w : Z; h : Z; pixels : list Z; alphas : list Z }.
(** pqoi.h:870-875 AddNumber, 919-921 get32 *)
Definition AddNumber (n : Z) : list Z := [Z.land n 0xff; Z.land (Z.shiftr n 8) 0xff; Z.land (Z.shiftr n 16) 0xff; Z.land (Z.shiftr n 24) 0xff].
Definition get32 (t : list Z) : Z := u32 (nth 0 t 0 + Z.shiftl (nth 1 t 0) 8 + Z.shiftl (nth 2 t 0) 16 + Z.shiftl (nth 3 t 0) 24).
Definition PQOI : list Z := [80; 81; 79; 73].
Definition PQOA : list Z := [80; 81; 79; 65].
(** pqoi.h:907-911, the loop over rows; [pasts] are the bytes found past each row *)
Fixpoint encode_rows (rows width : nat) (c : codec) (ps al : list Z) (past : nat -> Z) : codec * list Z :=
  match rows with
  | O => (c, [])
  | S rows =>
    let '(c1, out) := encodePixelsWithAlpha c (firstn width ps) (firstn width al) (past rows) in
    let '(c2, more) := encode_rows rows width c1 (skipn width ps) (skipn width al) past in
    (c2, out ++ more)
  end.
(** pqoi.h:891-917 encode *)
Definition encode_file (p : picture) (past : nat -> Z) : list Z :=
  let body := match alphas p with
              | [] => snd (encodePixels codec0 (pixels p))
              | _ => snd (encode_rows (Z.to_nat (h p)) (Z.to_nat (w p)) codec0 (pixels p) (alphas p) past)
              end in
  (match alphas p with [] => PQOI | _ => PQOA end) ++ AddNumber (Z.of_nat (length body) + 16 - 8) ++ AddNumber (w p) ++ AddNumber (h p) ++ body.
(** pqoi.h:929-955 decode *)
Definition decode_file (data : list Z) : option picture :=
  let W := get32 (skipn 8 data) in
  let H := get32 (skipn 12 data) in
  let n := Z.to_nat (W * H) in
  if get32 data =? get32 PQOI then
    match DecodeBlock codec0 [] (skipn 16 data) n with Some (_, ps, _) => Some (Picture W H (firstn n ps) []) | None => None end
  else if get32 data =? get32 PQOA then
    match DecodeBlockWithAlphas codec0 (skipn 16 data) n with Some (_, ps, al, _) => Some (Picture W H (firstn n ps) (firstn n al)) | None => None end
  else Some (Picture 0 0 [] []).

(** * A display showing an image that arrives piecewise.
    [arrived] bytes wait in the input buffer; [rows] are finished; [row] is being filled. *)
Record display := Display { decoder : streaming; waiting : list Z; rows : list (list Z); row : chunk }.
Inductive event :=
| Arrive (bytes : list Z)         (* more of the file was read *)
| Fill (offered : nat)            (* the row is filled from at most that many waiting bytes *)
| NextRow (old : list Z).         (* a full row is sent and the next buffer prepared *)
(** rgb565frame.h:20-26 OutputBuffer::fill, 301-321 Fill, 560-590 the loop over rows.
    [None]: the decoder read outside its memory. *)
Definition step (width : nat) (d : option display) (e : event) : option display :=
  match d with
  | None => None
  | Some d =>
    match e with
    | Arrive bytes => Some (Display (decoder d) (waiting d ++ bytes) (rows d) (row d))
    | Fill offered =>
      let given := firstn offered (waiting d) in
      match chunk_fill (set_input (decoder d) given) (row d) width with
      | None => None
      | Some (s, k) => Some (Display s (s_in s ++ skipn offered (waiting d)) (rows d) k)
      end
    | NextRow old =>
      if chunk_full (row d) width then Some (Display (decoder d) (waiting d) (rows d ++ [firstn width (filled (row d))]) (chunk_next (row d) width old))
      else Some d
    end
  end.
