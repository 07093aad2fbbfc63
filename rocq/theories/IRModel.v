(** Infrared: ir/ir.h, nec.h, rc6.h, blaster.h, receiver.h, stm32_ir.h. *)
From Coq Require Import ZArith List Bool.
Import ListNotations.
Open Scope Z_scope.

(** A call of IRInterface::signal (ir.h:6): level and duration in microseconds. *)
Notation pulse := (bool * Z)%type.
(** Machine widths. *)
Definition u8 (x : Z) : Z := x mod 2 ^ 8.
Definition u32 (x : Z) : Z := x mod 2 ^ 32.
(** ir.h:37-44 *)
Inductive ilen := ILLEGAL | SHORT | LONG | MARK1 | MARK2 | MARK3.

(** * nec.h *)
(** nec.h:6-14 *)
Inductive nec_state := NBegin | NAwait | NRepeat | NBits.
Record nec := Nec { n_state : nec_state; n_data : Z; n_bits : Z }.
(** What it prints: "NEC CMD", "NEC16 CMD", "REPEAT!" (nec.h:57, 78, 84). *)
Inductive nec_out := Nec32 (d : Z) | Nec16 (d : Z) | NecRepeat.
(** nec.h:91-103 classify *)
Definition nec_classify (us : Z) : ilen :=
  if us <? 560 - 150 then ILLEGAL else if us <? 560 + 150 then SHORT
  else if us <? 1690 - 200 then ILLEGAL else if us <? 1690 + 200 then LONG
  else if us <? 2250 - 200 then ILLEGAL else if us <? 2250 + 200 then MARK3
  else if us <? 4500 - 1000 then ILLEGAL else if us <? 4500 + 1000 then MARK2
  else if us <? 9000 - 1000 then ILLEGAL else if us <? 9000 + 1000 then MARK1
  else ILLEGAL.
(** nec.h:82-89 the code at label fail *)
Definition nec_fail (data bits : Z) (out : list nec_out) : nec * list nec_out :=
  (Nec NBegin 0 0, out ++ (if bits =? 16 then [Nec16 data] else [])).
(** nec.h:18-80 signal *)
Definition nec_bit (s : nec) (b : Z) : nec * list nec_out :=
  let bits := u8 (n_bits s + 1) in
  let data := Z.lor (u32 (Z.shiftl (n_data s) 1)) b in
  if bits <? 32 then (Nec NBits data bits, []) else nec_fail data bits [Nec32 data].
Definition nec_step (s : nec) (p : pulse) : nec * list nec_out :=
  let '(high, us) := p in
  let len := nec_classify us in
  let fail := nec_fail (n_data s) (n_bits s) [] in
  match n_state s with
  | NBegin => match len, high with MARK1, true => (Nec NAwait (n_data s) (n_bits s), []) | _, _ => fail end
  | NAwait =>
    if high then fail else
    match len with
    | MARK3 => (Nec NRepeat (n_data s) (n_bits s), [])
    | MARK2 => (Nec NBits (n_data s) (n_bits s), [])
    | _ => fail
    end
  | NRepeat => match len, high with SHORT, true => nec_fail (n_data s) (n_bits s) [NecRepeat] | _, _ => fail end
  | NBits =>
    if high then match len with SHORT => (s, []) | _ => fail end
    else match len with LONG => nec_bit s 1 | SHORT => nec_bit s 0 | _ => fail end
  end.
(** nec.h:160-177 the loops of Encode16, Encode32: the top bit first, [n] bits of [data]. *)
Fixpoint nec_bits (top : Z) (n : nat) (data : Z) : list pulse :=
  match n with
  | O => []
  | S n => (true, 560) :: (false, if Z.land data (2 ^ (top - 1)) =? 0 then 560 else 1690) :: nec_bits top n ((2 * data) mod 2 ^ top)
  end.
(** nec.h:158-167 Encode16, 168-177 Encode32, 178-182 EncodeRepeat *)
Definition Encode16 (data : Z) : list pulse := (true, 9000) :: (false, 4500) :: nec_bits 16 16 data ++ [(true, 560)].
Definition Encode32 (data : Z) : list pulse := (true, 9000) :: (false, 4500) :: nec_bits 32 32 data ++ [(true, 560)].
Definition EncodeRepeat : list pulse := [(true, 9000); (false, 2250); (true, 560)].

(** * rc6.h *)
(** rc6.h:6-8 *)
Record rc6 := Rc6 { r_data : Z; r_pos : Z; r_toggle : bool }.
(** rc6.h:144-147 the code at label fail *)
Definition rc6_zero : rc6 := Rc6 0 0 false.
(** rc6.h:87-142 the while loop of signal; what it prints is the pair (ctrl, info).
    After an odd position comes an even one, and every even one but 18 sets steps to 0, so
    there are at most three rounds; the fuel is 4. *)
Fixpoint rc6_loop (fuel : nat) (s : rc6) (high : bool) (steps : Z) : rc6 * list (Z * Z) :=
  match fuel with
  | O => (s, [])
  | S fuel =>
    let '(Rc6 data pos toggle) := s in
    if steps <=? 0 then (s, [])
    else if pos =? 0 then
      if negb (steps =? 6) || negb high then (rc6_zero, []) else (Rc6 data 6 toggle, [])
    else if pos =? 6 then
      if negb (steps =? 2) || high then (rc6_zero, []) else (Rc6 data 8 toggle, [])
    else if pos =? 16 then
      if negb (steps =? 2) then (rc6_zero, []) else (Rc6 data 18 high, [])
    else if pos =? 18 then
      if (steps <? 2) || Bool.eqb high toggle then (rc6_zero, []) else rc6_loop fuel (Rc6 data 20 toggle) high (steps - 2)
    else if Z.even pos then
      if negb (steps =? 1) then (rc6_zero, [])
      else (Rc6 (Z.lor (u32 (Z.shiftl data 1)) (if high then 1 else 0)) (u8 (pos + 1)) toggle, [])
    else
      if Bool.eqb (Z.odd data) high then (rc6_zero, [])
      else
        let pos := u8 (pos + 1) in
        if pos >=? 52 then
          let ctrl := u8 (Z.shiftr data 8) in
          let info := u8 data in
          let mode := Z.land (Z.shiftr data 16) 7 in
          let start := u8 (Z.shiftr data 19) in
          (rc6_zero, if negb (start =? 0) && (mode =? 0) then [(ctrl, info)] else [])
        else rc6_loop fuel (Rc6 data pos toggle) high (steps - 1)
  end.
(** rc6.h:68-148 signal, for lengths below 2^32 - 222, where [length + 222] does not wrap
    (the receiver cuts pauses every 20 ms). *)
Definition rc6_step (s : rc6) (p : pulse) : rc6 * list (Z * Z) :=
  let '(high, length) := p in
  let offset := length mod 444 in
  let steps := (length + 222) / 444 in
  if (offset >? 150) && (offset <? 444 - 150) then (rc6_zero, []) else rc6_loop 4 s high steps.
(** rc6.h:153-156 EncodeBit, 157-160 EncodeSlowBit *)
Definition EncodeBit (b : bool) : list pulse := [(b, 444); (negb b, 444)].
Definition EncodeSlowBit (b : bool) : list pulse := [(b, 889); (negb b, 889)].
(** rc6.h:161-165 EncodeByte: [n] rounds left *)
Fixpoint rc6_bits (n : nat) (x : Z) : list pulse :=
  match n with O => [] | S n => EncodeBit (Z.land x 128 =? 128) ++ rc6_bits n (u8 (Z.shiftl x 1)) end.
Definition Rc6EncodeByte (x : Z) : list pulse := rc6_bits 8 x.
(** rc6.h:166-176 EncodeRC6mode0 *)
Definition EncodeRC6mode0 (toggle : bool) (ctrl info : Z) : list pulse :=
  [(true, 444 * 6); (false, 444 * 2)] ++ EncodeBit true ++ EncodeBit false ++ EncodeBit false ++ EncodeBit false ++
  EncodeSlowBit toggle ++ Rc6EncodeByte ctrl ++ Rc6EncodeByte info.

(** * blaster.h *)
(** blaster.h:6-12; [b_bits_state] is state_ == State::Bits *)
Record blaster := Blaster { b_data : Z; b_num : Z; b_bits_state : bool }.
(** A completed 40-bit frame: what it prints, and whether DoBlast() is called (if some
    blade is on), blaster.h:47-66. *)
Record shot := Shot { team : Z; damage : Z; parity : Z; accepted : bool }.
(** blaster.h:76-84 classify *)
Definition blaster_classify (us : Z) : ilen :=
  if us <? 400 - 200 then ILLEGAL else if us <? 400 + 200 then SHORT
  else if us <? 800 - 200 then ILLEGAL else if us <? 800 + 200 then LONG
  else if us <? 1600 - 200 then ILLEGAL else if us <? 1600 + 200 then MARK1
  else ILLEGAL.
(** blaster.h:52, 102: int arithmetic, / truncates, stored in a uint8_t. *)
Definition shot_parity (team damage : Z) : Z := u8 ((team + damage) + (Z.quot (team + damage - 1) 5 + 4)).
(** blaster.h:16-74 signal *)
Definition blaster_step (s : blaster) (p : pulse) : blaster * list shot :=
  let '(high, us) := p in
  let len := blaster_classify us in
  if b_bits_state s then
    let data := u32 (Z.shiftl (b_data s) 1) in
    match len with
    | LONG | SHORT =>
      let data := match len with LONG => Z.lor data 1 | _ => data end in
      let num := u8 (b_num s + 1) in
      if num =? 16 then (Blaster data num (data =? 170), [])
      else if num =? 40 then
        let t := u8 (Z.shiftr data 16) in
        let d := u8 (Z.shiftr data 8) in
        let p := u8 data in
        (Blaster data num false, [Shot t d p (p =? shot_parity t d)])
      else (Blaster data num true, [])
    | _ => (Blaster data (b_num s) false, [])
    end
  else (Blaster 0 0 (high && match len with MARK1 => true | _ => false end), []).
(** blaster.h:88-93 EncodeByte: rounds [i], i+1, ... *)
Fixpoint blaster_bits (n : nat) (i : Z) (byte : Z) : list pulse :=
  match n with O => [] | S n => (Z.odd i, if Z.land byte 128 =? 0 then 400 else 800) :: blaster_bits n (i + 1) (u8 (Z.shiftl byte 1)) end.
Definition EncodeByte (byte : Z) : list pulse := blaster_bits 8 0 byte.
(** blaster.h:94-101 Encode *)
Definition EncodeShot (team damage : Z) : list pulse :=
  [(true, 1700)] ++ EncodeByte 0 ++ EncodeByte 170 ++ EncodeByte team ++ EncodeByte damage ++ EncodeByte (shot_parity team damage).

(** * stm32_ir.h *)
(** stm32_ir.h:137-147 signal: the data_ bytes written, as pairs (x - 1, level), if there is
    always space; n = us * 38000 / 1000000 in uint32_t. *)
Definition carrier (us : Z) : Z := u32 (us * 38000) / 1000000.
Fixpoint chunks (fuel : nat) (n : Z) (high : bool) : list (Z * Z) :=
  match fuel with
  | O => []
  | S fuel => if n =? 0 then [] else let x := Z.min n 256 in (u8 (x - 1), if high then 1 else 0) :: chunks fuel (n - x) high
  end.
Definition tx_signal (p : pulse) : list (Z * Z) := chunks (Z.to_nat (carrier (snd p))) (carrier (snd p)) (fst p).

(** * receiver.h *)
(** receiver.h:62-66; [pc] is where Loop() is: before reading, after reading [high],
    after reading [duration].  An interrupt may come between any two of these. *)
Inductive rx_pc := RxIdle | RxHigh (h : bool) | RxBoth (h : bool) (d : Z).
Record receiver := Rx { head : Z; tail : Z; buffer : list (bool * Z); current_state : bool; current_micros : Z; pc : rx_pc }.
(** receiver.h:25-33 generateEvent *)
Definition set_nth {A} (n : nat) (x : A) (l : list A) : list A := firstn n l ++ x :: skipn (S n) l.
Definition generate (r : receiver) (state : bool) (now : Z) : receiver :=
  Rx (u8 (head r + 1)) (tail r) (set_nth (Z.to_nat (Z.land (head r + 1) 15)) (negb (current_state r), u32 (now - current_micros r)) (buffer r)) state now (pc r).
(** receiver.h:36-42 sample (the interrupt), 49-55 the idle check (interrupts off), and the
    three steps of the delivery loop 56-61.  [Deliver] passes an event to the decoders. *)
Inductive rx_op := Sample (state : bool) (now : Z) | IdleCheck (state : bool) (now : Z) | Loop.
Definition rx_step (r : receiver) (o : rx_op) : receiver * list pulse :=
  match o with
  | Sample state now => (if Bool.eqb state (current_state r) then r else generate r state now, [])
  | IdleCheck state now => (match pc r with RxIdle => if u32 (now - current_micros r) >? 20000 then generate r state now else r | _ => r end, [])
  | Loop =>
    let r' := fun t p => Rx (head r) t (buffer r) (current_state r) (current_micros r) p in
    let slot := nth (Z.to_nat (Z.land (tail r) 15)) (buffer r) (false, 0) in
    match pc r with
    | RxIdle => if tail r =? head r then (r, []) else (r' (tail r) (RxHigh (fst slot)), [])
    | RxHigh h => (r' (tail r) (RxBoth h (snd slot)), [])
    | RxBoth h d => (r' (u8 (tail r + 1)) RxIdle, [(h, d)])
    end
  end.
(** receiver.h:69-73 *)
Definition rx0 : receiver := Rx 0 0 (repeat (false, 0) 16) false 0 RxIdle.
