(** How pixels reach the strip on Proffieboards: blades/stm32l4_ws2811.h (pulses, double buffer,
    color ring, queue of blades) and blades/spiled_pin.h. *)
From Coq Require Import ZArith List Bool PeanoNat.
From Verif Require Import ArithModel ColorModel.
Import ListNotations.
Open Scope Z_scope.

(** ** One pixel (stm32l4_ws2811.h:670-714) *)
(** 685-696: one store of four pulse bytes, [sh] is 7 or 3; 711-714 set01. *)
Definition zero4X (zero : Z) : Z := u32 (zero * 0x01010101).
Definition word (zero one byte sh : Z) : Z :=
  Z.lxor (zero4X zero) (u32 (Z.land (Z.shiftr (u32 (byte * 0x8040201)) sh) 0x01010101 * Z.lxor one zero)).
(** Stored little-endian. *)
Definition bytes4 (w : Z) : list Z := [w mod 256; w / 256 mod 256; w / 65536 mod 256; w / 16777216 mod 256].
Definition pulses (zero one byte : Z) : list Z := bytes4 (word zero one byte 7) ++ bytes4 (word zero one byte 3).
(** 670-697 read: what it stores for the color [c] at position [pos] of the color buffer, in frame
    number [frame]; GETBYTE (color.h:158-180) is getByte. *)
Definition read_pixel (o frame pos zero one : Z) (c : color) : list Z :=
  let c8 := dither_xy c frame pos in
  concat (map (fun i => pulses zero one (getByte c8 o i)) (if num_bytes o =? 4 then [3; 2; 1; 0] else [2; 1; 0])).

(** ** Filling the DMA buffer (189-309) *)
(** Memory is displayMemory as bytes; positions count from its start. [chunks]: what the client's
    read() will store, call after call (670-702). *)
Record engine := Eng { mem : list Z; dest : nat; chunk_bits : nat; read_calls : nat; chunks : list (list Z) }.
Definition blit (m : list Z) (d : nat) (bs : list Z) : option (list Z) :=
  if (d + length bs <=? length m)%nat then Some (firstn d m ++ bs ++ skipn (d + length bs) m) else None.
(** 189-196 DoRead; None if it leaves the memory or reads a pixel that is not there. *)
Definition do_read (c : nat) (s : engine) (d : nat) : option engine :=
  match read_calls s with
  | S n => match chunks s with
           | [] => None
           | ch :: rest => option_map (fun m => Eng m (dest s) (chunk_bits s) n rest) (blit (mem s) d ch)
           end
  | O => option_map (fun m => Eng m (dest s) (chunk_bits s) O (chunks s)) (blit (mem s) d (repeat 0 c))
  end.
(** 214-217 the inner loop *)
Fixpoint direct (fuel c e : nat) (s : engine) : option engine :=
  if (dest s + c <=? e)%nat then
    match fuel with
    | O => None
    | S fuel => match do_read c s (dest s) with
                | None => None
                | Some s => direct fuel c e (Eng (mem s) (dest s + c) (chunk_bits s) (read_calls s) (chunks s))
                end
    end
  else Some s.
(** 198-227 FillTo. Every turn of either loop moves dest_, so [e] turns are enough. In line 222
    displayMemory is an array of 32-bit words (ws2811_blade.h:31), so displayMemory + chunk_size_ -
    chunk_bits_ is four times that many bytes from its start. None if a copy leaves the memory. *)
Fixpoint fill_to (fuel c e : nat) (s : engine) : option engine :=
  if (dest s <? e)%nat then
    match fuel with
    | O => None
    | S fuel =>
      match (if (chunk_bits s =? 0)%nat then
               match direct e c e s with
               | None => None
               | Some s => option_map (fun s => Eng (mem s) (dest s) c (read_calls s) (chunks s)) (do_read c s 0)
               end
             else Some s) with
      | None => None
      | Some s =>
        let n := Nat.min (e - dest s) (chunk_bits s) in
        let from := (4 * (c - chunk_bits s))%nat in
        match (if (from + n <=? length (mem s))%nat then blit (mem s) (dest s) (firstn n (skipn from (mem s))) else None) with
        | None => None
        | Some m => fill_to fuel c e (Eng m (dest s + n) (chunk_bits s - n) (read_calls s) (chunks s))
        end
      end
    end
  else Some s.
(** 261-265: the regions of the memory for [cpi] chunks per interrupt: begin_, half_, end_ *)
Definition begin_ (c : nat) : nat := c.
Definition half_ (c cpi : nat) : nat := (c + cpi * c)%nat.
Definition end_ (c cpi : nat) : nat := (c + cpi * c + cpi * c)%nat.
(** 229-236 Fill *)
Definition fill (c cpi : nat) (top : bool) (s : engine) : option engine :=
  let s := if (dest s =? end_ c cpi)%nat then Eng (mem s) (begin_ c) (chunk_bits s) (read_calls s) (chunks s) else s in
  let e := if top then half_ c cpi else end_ c cpi in
  fill_to (S e) c e s.
(** 247-252: total_chunks, CIRCULAR and chunks_per_interrupt for [size] bytes of memory *)
Definition total_chunks (size c : nat) : nat := ((size - 1) / c - 1)%nat.
Definition circular (size c leds : nat) : bool := (total_chunks size c <? leds)%nat.
Definition chunks_per_interrupt (size c leds : nat) : nat :=
  let n := (total_chunks size c / 2)%nat in if (32 <? n)%nat && circular size c leds then 32%nat else n.
(** 251-309, 397-399 the start of show(): [proxy] puts a zero in front (307). *)
Definition show (c cpi : nat) (proxy : bool) (m : list Z) (pixels : list (list Z)) : option engine :=
  let s := Eng m (begin_ c) 0 (length pixels) pixels in
  if proxy then
    match blit m (begin_ c) [0] with
    | None => None
    | Some m => fill c cpi false (Eng m (begin_ c + 1) 0 (length pixels) pixels)
    end
  else fill c cpi false s.

(** ** The DMA at work *)
(** The DMA's position in its buffer (stm32l4_dma_count), what it has sent, sent_, and whether
    DoDoneCB was called. *)
Record wire := Wire { eng : engine; pos : nat; tx : list Z; sent_ : nat; finished : bool }.
Inductive tick := Tx | Irq.
(** Tx: the DMA sends a byte; circular mode (DMA_OPTION_CIRCULAR). Irq: DoRefill1 (472-480), or
    with [proxy] DoRefill2 (481-485). After DoDoneCB everything is stopped. *)
Definition wire_step (c cpi bits : nat) (proxy : bool) (w : wire) (t : tick) : option wire :=
  if finished w then Some w
  else match t with
  | Tx =>
    let p := S (pos w) in
    Some (Wire (eng w) (if (p =? cpi * c + cpi * c)%nat then O else p) (tx w ++ [nth (begin_ c + pos w) (mem (eng w)) 0]) (sent_ w) false)
  | Irq =>
    let sent := (sent_ w + cpi * c)%nat in
    if negb proxy && (bits + 1 <? sent)%nat then Some (Wire (eng w) (pos w) (tx w) sent true)
    else match fill c cpi (half_ c cpi - begin_ c <=? pos w)%nat (eng w) with
         | None => None
         | Some e => Some (Wire e (pos w) (tx w) (if proxy then sent_ w else sent) false)
         end
  end.
Fixpoint wire_run (c cpi bits : nat) (proxy : bool) (w : wire) (ts : list tick) : option wire :=
  match ts with
  | [] => Some w
  | t :: ts => match wire_step c cpi bits proxy w t with None => None | Some w => wire_run c cpi bits proxy w ts end
  end.
(** Linear mode (359-370, 442-453): the DMA sends bits + 1 bytes once. *)
Definition linear_tx (c bits : nat) (s : engine) : list Z := firstn (bits + 1) (skipn (begin_ c) (mem s)).

(** ** The color ring and the queue of blades (72-100, 500-527, 617-668, 698-702) *)
Section Ring.
Variable leds : nat -> nat.   (* num_leds_ of every blade *)
Variable size : nat.          (* NELEM(color_buffer) *)
(** color_buffer, color_buffer_ptr, color_buffer_size; the clients queued, the one being sent first
    (client_, next_ws2811_client_, last_client_); ws2811_dma_done; read_calls_; colors_ and done_ of
    every blade. *)
Record ring := Ring { buf : list color; ptr : nat; used : nat; queue : list nat; dma_done : bool; calls : nat;
                      colors : nat -> nat; done_ : nat -> bool }.
Definition wrap (p : nat) : nat := if (size <=? p)%nat then (p - size)%nat else p.
Definition upd {A} (f : nat -> A) (i : nat) (v : A) : nat -> A := fun x => if Nat.eqb x i then v else f x.
Fixpoint put (l : list color) (n : nat) (c : color) : list color :=
  match l, n with [], _ => [] | _ :: l, O => c :: l | x :: l, S n => x :: put l n c end.
Inductive ring_op :=
| Begin (i : nat)                (* 625-636 BeginFrame, after its wait *)
| Set_ (i k : nat) (c : color)   (* ws2811_blade.h:149-154 set *)
| EndAdd (i : nat)               (* 643 the first line of EndFrame *)
| EndQueue (i : nat)             (* 646-651 the rest, after its wait, and 84-100 queue; kick() is a step of its own *)
| Kick                           (* 72-82 kick, 251 show *)
| Read                           (* 670-702 one pixel fetched for the DMA *)
| Done.                          (* 500-527 DoDoneCB, 665-668 done_callback *)
(** The result also tells the pixel fetched and for whom. A step whose wait is not over, or that
    cannot happen, changes nothing: [ready] below says which can. *)
Definition ring_step (s : ring) (o : ring_op) : ring * list (nat * color) :=
  match o with
  | Begin i => (Ring (buf s) (ptr s) (used s) (queue s) (dma_done s) (calls s) (upd (colors s) i (wrap (ptr s + used s))) (done_ s), [])
  | Set_ i k c => (Ring (put (buf s) (wrap (colors s i + k)) c) (ptr s) (used s) (queue s) (dma_done s) (calls s) (colors s) (done_ s), [])
  | EndAdd i => (Ring (buf s) (ptr s) (used s + leds i) (queue s) (dma_done s) (calls s) (colors s) (done_ s), [])
  | EndQueue i => (Ring (buf s) (ptr s) (used s) (queue s ++ [i]) (dma_done s) (calls s) (colors s) (upd (done_ s) i false), [])
  | Kick => match queue s with
            | i :: _ => if dma_done s then (Ring (buf s) (ptr s) (used s) (queue s) false (leds i) (colors s) (done_ s), []) else (s, [])
            | [] => (s, [])
            end
  | Read => (Ring (buf s) (if (S (ptr s) =? size)%nat then O else S (ptr s)) (used s - 1) (queue s) (dma_done s) (calls s - 1) (colors s) (done_ s),
             [(hd O (queue s), nth (ptr s) (buf s) (Color 0 0 0))])
  | Done => (Ring (buf s) (ptr s) (used s) (tl (queue s)) true (calls s) (colors s) (upd (done_ s) (hd O (queue s)) true), [])
  end.
(** 617-623, 638-640: when BeginFrame and EndFrame go on; a pixel is fetched while read_calls_ is
    left (DoRead), and the frame is over when none is. *)
Definition ready (s : ring) (o : ring_op) : bool :=
  match o with
  | Begin i => (leds i <=? size - used s)%nat
  | EndQueue i => done_ s i
  | Read => negb (dma_done s) && (0 <? calls s)%nat
  | Done => negb (dma_done s) && (calls s =? 0)%nat
  | _ => true
  end.
Definition ring0 (b : list color) : ring := Ring b 0 0 [] true 0 (fun _ => O) (fun _ => true).
End Ring.

(** ** Clocked strips (spiled_pin.h) *)
(** 42-51 OutByte: the levels of the data pin at the rising clock edges *)
Fixpoint out_bits (n : nat) (output : Z) : list bool :=
  match n with O => [] | S n => negb (Z.land output 0x80 =? 0) :: out_bits n (u8 (Z.shiftl output 1)) end.
Definition out_byte (output : Z) : list bool := out_bits 8 output.
(** 53-61 OutColor: the bytes; getShort (color.h:269-279) is getByte on a 16-bit color. *)
Definition spi_max (c : color) : Z := Z.max (r c) (Z.max (g c) (b c)).
Definition output_level (c : color) : Z := (spi_max c + 2113) / 2117.
Definition out_color (o : Z) (c : color) : list Z :=
  let level := output_level c in
  let mult := if level =? 0 then 0 else 7930 / level in
  Z.lor 0xE0 level :: map (fun i => u8 (Z.shiftr (getByte c o (num_bytes o - 1 - Z.of_nat i) * mult) 16)) (seq 0 (Z.to_nat (num_bytes o))).
(** 64-75: one frame *)
Definition spi_frame (o : Z) (cs : list color) : list Z :=
  repeat 0 (Z.to_nat (num_bytes o + 1)) ++ concat (map (out_color o) cs) ++ repeat 0xff (Z.to_nat (num_bytes o + 1)).
