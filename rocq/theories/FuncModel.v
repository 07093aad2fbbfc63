(** Blade-style functions (/repo/functions): integers computed per frame or per LED.
    Signed overflow and division by zero are [None].  Functions that are templates
    over other functions take the values of those functions in this frame (or at
    this LED) as arguments. *)
From Coq Require Import ZArith List Bool.
From Verif Require Import Machine ArithModel.
Import ListNotations.
Open Scope Z_scope.

Definition chk (x : Z) : option Z := if int_ok x then Some x else None.
Definition bind {A B} (o : option A) (f : A -> option B) : option B :=
  match o with Some a => f a | None => None end.
Notation "x <- a ;; b" := (bind a (fun x => b)) (at level 61, a at next level, right associativity).

(** Conversion to int of a 64-bit unsigned result. *)
Definition to_int (x : Z) : Z :=
  let y := u32 x in if y <? 2147483648 then y else y - 4294967296.

(** functions/clamp.h:22-26 and 42-46. *)
Definition fn_clamp (f mn mx : Z) : Z := clampi32 f mn mx.

(** functions/scale.h:16-27, 42-44, 57-61: (f * (b - a) >> 15) + a. *)
Definition fn_scale (f a b : Z) : option Z :=
  d <- chk (b - a) ;; p <- chk (f * d) ;; chk (Z.shiftr p 15 + a).
(** functions/scale.h:75 InvertF = Scale<F, 32768, 0>. *)
Definition fn_invert (f : Z) : option Z := fn_scale f 32768 0.

(** functions/mult.h:23-25 and 40-42. *)
Definition fn_mult (f v : Z) : option Z := p <- chk (f * v) ;; Some (Z.shiftr p 15).
(** functions/divide.h:21-28 and 45-52. *)
Definition fn_divide (f v : Z) : option Z := if v =? 0 then Some 0 else chk (Z.quot f v).
(** functions/mod.h:15-22 and 42-49. *)
Definition fn_mod (f m : Z) : Z := if m =? 0 then 0 else MOD f m.
(** functions/islessthan.h:19-21 and 36-38; IsGreaterThan swaps the arguments. *)
Definition fn_less (f v : Z) : Z := if f <? v then 32768 else 0.
(** functions/isbetween.h:19-26 and 42-49. *)
Definition fn_between (f bottom top : Z) : Z :=
  if (f >? bottom) && (f <? top) then 32768 else 0.

(** functions/layer_functions.h:22-24, two functions. *)
Definition fn_layer2 (a b : Z) : option Z :=
  x <- chk (32768 - a) ;; y <- chk (32768 - b) ;; p <- chk (x * y) ;;
  chk (32768 - Z.shiftr p 15).
(** functions/layer_functions.h:11-30: LayerFunctions<A, B...>, the list of values. *)
Fixpoint fn_layers (a : Z) (bs : list Z) : option Z :=
  match bs with
  | [] => Some a
  | b :: bs => r <- fn_layers b bs ;; fn_layer2 a r
  end.

(** functions/ramp.h:14. *)
Definition fn_ramp (num_leds led : Z) : option Z :=
  p <- chk (led * 32768) ;; if num_leds =? 0 then None else chk (Z.quot p num_leds).
(** functions/center_dist.h: getInteger: abs(led * 32768 / num_leds_ - center_). *)
Definition fn_center_dist (num_leds center led : Z) : option Z :=
  r <- fn_ramp num_leds led ;; d <- chk (r - center) ;; chk (Z.abs d).

(** functions/ifon.h:104-106 thres, 94-96 getInteger. *)
Definition fn_inout (ext num_leds led : Z) : option Z :=
  p <- chk (ext * num_leds) ;; th <- chk (p - 32768) ;;
  q <- chk (led * 32768) ;; x <- chk (q - th) ;; Some (clampi32 x 0 32768).

(** functions/smoothstep.h:29-41 run: (mult_, location_). *)
Definition ss_run (pos width num_leds : Z) : option (Z * Z) :=
  if width =? 0 then l <- chk (num_leds * pos) ;; Some (32768, l)
  else
    q <- chk (Z.quot (32768 * 32768) width) ;;
    if num_leds =? 0 then None else
    m <- chk (Z.quot q num_leds) ;;
    p <- chk (32768 * pos) ;; l <- chk (Z.quot p width) ;; l' <- chk (l - 16384) ;;
    Some (m, l').
(** functions/smoothstep.h:15-20 getInteger. *)
Definition ss_get (ml : Z * Z) (led : Z) : option Z :=
  p <- chk (led * fst ml) ;; x <- chk (p - snd ml) ;;
  if x <? 0 then Some 0
  else if x >? 32768 then Some 32768
  else q <- chk (x * x) ;; r <- chk (Z.shiftr q 14 * (49152 - x)) ;;
       Some (Z.shiftr r 15).
Definition fn_smooth_step (pos width num_leds led : Z) : option Z :=
  ml <- ss_run pos width num_leds ;; ss_get ml led.

(** functions/linear_section.h:22 and circular_section.h:45 led_range. *)
Definition led_range (led : Z) : option range :=
  a <- chk (led * 32768) ;; b <- chk (a + 32768) ;; Some (Range (u32 a) (u32 b)).

(** functions/linear_section.h:16-24 run: range_. *)
Definition lin_range (pos frac num_leds : Z) : option range :=
  a <- chk (pos - Z.quot frac 2) ;; a <- chk (a * num_leds) ;;
  b <- chk (pos + Z.quot frac 2) ;; b <- chk (b * num_leds) ;;
  t <- chk (32768 * num_leds) ;;
  Some (Range (u32 (clampi32 a 0 t)) (u32 (clampi32 b 0 t))).
(** functions/linear_section.h:25-28 getInteger. *)
Definition fn_linear (pos frac num_leds led : Z) : option Z :=
  r <- lin_range pos frac num_leds ;; l <- led_range led ;;
  Some (to_int (r_size (r_and r l))).

(** functions/circular_section.h:23-43 run: (start_, end_, num_leds_ * 32768). *)
Definition circ_run (pos frac num_leds : Z) : option (Z * Z * Z) :=
  let n := u32 num_leds in
  if frac =? 32768 then Some (0, u32 (n * 32768), u32 (n * 32768))
  else if frac =? 0 then Some (0, 0, u32 (n * 32768))
  else
    a <- chk (pos + 32768) ;; a <- chk (a - Z.quot frac 2) ;;
    b <- chk (pos + Z.quot frac 2) ;;
    Some (u32 (Z.land a 32767 * n), u32 (Z.land b 32767 * n), u32 (n * 32768)).
(** functions/circular_section.h:44-54 getInteger. *)
Definition fn_circular (pos frac num_leds led : Z) : option Z :=
  sen <- circ_run pos frac num_leds ;; l <- led_range led ;;
  let '(s, e, n) := sen in
  Some (to_int
    (if s <=? e then r_size (r_and (Range s e) l)
     else u32 (r_size (r_and (Range 0 e) l) + r_size (r_and (Range s n) l)))).

(** functions/bump.h:14-20 bump_shape (not a C enum: table as is). *)
Definition bump_shape : list Z :=
  [255;255;252;247;240;232;222;211;
   199;186;173;159;145;132;119;106;
   94;82;72;62;53;45;38;32;
   26;22;18;14;11;9;7;5;0].
(** functions/bump.h:24-30 BumpBase::getInteger, given mult_ and location_ (their
    computation, lines 39-48, uses float and is not modelled). *)
Definition fn_bump (mult location led : Z) : option Z :=
  p <- chk (led * mult) ;; d <- chk (p - location) ;; dist <- chk (Z.abs d) ;;
  let i := Z.shiftr dist 7 in
  if i >=? 32 then Some 0
  else
    let m := Z.land dist 63 in
    Some (nth (Z.to_nat i) bump_shape 0 * (128 - m) +
          nth (Z.to_nat (i + 1)) bump_shape 0 * m).

(** functions/increment.h:16-23: one frame of IncrementModuloF. *)
Definition inc_step (v : option Z) (i : bool * Z * Z) : option Z :=
  let '(pulse, inc, mx) := i in
  v <- v ;;
  if pulse then s <- chk (v + inc) ;; if mx =? 0 then None else chk (Z.rem s mx)
  else Some v.

(** functions/effect_increment.h:59-70: one frame of IncrementWithReset. *)
Definition incr_step (v : option Z) (i : bool * bool * Z * Z) : option Z :=
  let '(reset, pulse, mx, inc) := i in
  v <- v ;;
  let v := if reset then 0 else v in
  if pulse then s <- chk (v + inc) ;; Some (Z.min s mx) else Some v.

(** functions/increment.h:56-71 ThresholdPulseF: state is triggered_; input is
    (f, threshold, hyst_percent); [None] is overflow. *)
Definition thr_step (st : bool) (i : Z * Z * Z) : bool * option Z :=
  let '(f, thr, h) := i in
  if st then
    match chk (thr * h) with
    | None => (st, None)
    | Some p => ((if f <? Z.quot p 100 then false else true), Some 0)
    end
  else if f >=? thr then (true, Some 32768) else (false, Some 0).

(** functions/change_slowly.h:17-22 and hold_peak.h:22-28: how far a value may move
    in this frame; [el] is now - last_micros_ as uint32; uint64 arithmetic. *)
Definition slow_delta (el speed : Z) : Z :=
  let d := if el >? 1000000 then 1 else el in
  ((d * (speed mod 18446744073709551616)) mod 18446744073709551616) / 1000000.

(** functions/change_slowly.h:14-32. *)
Record chs := Chs { ch_value : Z; ch_last : Z }.
Definition ch_step (s : chs) (i : Z * Z * Z) : option chs :=
  let '(now, target, speed) := i in
  let now := u32 now in
  let delta := slow_delta (u32 (now - ch_last s)) speed in
  d <- chk (ch_value s - target) ;; a <- chk (Z.abs d) ;;
  Some (Chs (if delta >? a then target
             else if ch_value s <? target then to_int (ch_value s + delta)
             else to_int (ch_value s - delta)) now).
Definition ch_steps (s : option chs) (i : Z * Z * Z) : option chs := bind s (fun s => ch_step s i).

(** functions/hold_peak.h:15-35.  The input is the time in microseconds, F, HOLD_MILLIS
    and SPEED; micros() and millis() read the same clock. *)
Record hps := Hps { hp_value : Z; hp_last : Z; hp_peak : Z }.
Definition hp_step (s : hps) (i : Z * Z * Z * Z) : hps :=
  let '(t, current, hold, speed) := i in
  let now := u32 t in
  let ms := u32 (t / 1000) in
  let v := if u32 (ms - hp_peak s) >? u32 hold
           then to_int (hp_value s - slow_delta (u32 (now - hp_last s)) speed)
           else hp_value s in
  if current >? v then Hps current now ms else Hps v now (hp_peak s).

(** functions/trigger.h:88-99 get_millis_for_state: DELAY, ATTACK, SUSTAIN, RELEASE
    durations; 1000000 for TRIGGER_OFF and for states that do not exist. *)
Record trd := Trd { td_delay : Z; td_in : Z; td_sustain : Z; td_out : Z }.
Definition tr_millis (d : trd) (state : Z) : Z :=
  u32 (if state =? 0 then td_delay d else if state =? 1 then td_in d
       else if state =? 2 then td_sustain d else if state =? 3 then td_out d
       else 1000000).
Record trs := Trs { ts_value : Z; ts_state : Z; ts_start : Z }.
(** functions/trigger.h:34-58, the loop.  The double t * 32768.0 / micros_for_state is
    truncated; rounding cannot change the truncated value because the exact quotient
    is either an integer or at least 2^-32 away from one, and doubles at 32768 are
    2^-37 apart.  trigger_state_ is a uint8_t.  [None]: out of fuel. *)
Fixpoint tr_loop (fuel : nat) (d : trd) (value state start t : Z) : option trs :=
  match fuel with
  | O => None
  | S fuel =>
    let m := u32 (tr_millis d state * 1000) in
    let next := tr_loop fuel d value ((state + 1) mod 256) (u32 (start + m)) (u32 (t - m)) in
    if t <? m then
      if state =? 0 then Some (Trs 0 state start)
      else if state =? 1 then Some (Trs (t * 32768 / m) state start)
      else if state =? 2 then Some (Trs 32768 state start)
      else if state =? 3 then Some (Trs (32768 - (t * 32768 + m - 1) / m) state start)
      else if state =? 4 then Some (Trs 0 state start)
      else next
    else next
  end.
(** functions/trigger.h:76-87 and 27-33; the input is the time in microseconds and
    whether the effect was detected in this frame. *)
Definition tr_step (d : trd) (s : trs) (i : Z * bool) : option trs :=
  let '(t, detect) := i in
  let now := u32 t in
  let s := if detect then Trs (ts_value s) 0 now else s in
  if ts_state s =? 4 then Some (Trs 0 4 (ts_start s))
  else tr_loop 600 d (ts_value s) (ts_state s) (ts_start s) (u32 (now - ts_start s)).
Definition tr_steps (d : trd) (s : option trs) (i : Z * bool) : option trs :=
  bind s (fun s => tr_step d s i).

(** functions/blinking.h:30-46: state is pulse_start_micros_; input is the time in
    microseconds, pulse_millis and promille. *)
Definition blink_step (start : Z) (i : Z * Z * Z) : Z * Z :=
  let '(t, pm, promille) := i in
  let now := u32 t in
  let pm := u32 pm in
  if pm <=? 0 then (start, 0)
  else
    let prog := u32 (now - start) in
    let start' :=
      if prog >? u32 (pm * 1000)
      then if prog <? u32 (pm * 2000) then u32 (start + u32 (pm * 1000)) else now
      else start in
    let prog' := u32 (now - start') in
    (start', if to_int (prog' / pm) <=? promille then 0 else 32768).

(** functions/strobe.h:16-32: state is (strobe_, strobe_start_); input is millis(),
    STROBE_FREQUENCY and STROBE_MILLIS. *)
Definition strobe_step (s : bool * Z) (i : Z * Z * Z) : (bool * Z) * Z :=
  let '(t, freq, on) := i in
  let '(st, start) := s in
  let m := u32 t in
  let on := u32 on in
  let freq := u32 freq in
  let freq := if freq <=? 0 then 1 else freq in
  let timeout := if st then on else 1000 / freq in
  let s' :=
    if u32 (m - start) >? timeout then
      let start := u32 (start + timeout) in
      let start := if u32 (m - start) >? u32 (on + 1000 / freq) then m else start in
      (negb st, start)
    else (st, start) in
  (s', if fst s' then 32768 else 0).

(** functions/sequence.h:18-23: [None] is reading outside sequence_ or dividing by 0. *)
Definition seq_value (millis_per_bit bits : Z) (sequence : list Z) (now : Z) : option Z :=
  let n := Z.min bits (Z.of_nat (length sequence) * 16) in
  if (millis_per_bit <=? 0) || (n <=? 0) then None
  else
    let bit := (u32 now / millis_per_bit) mod n in
    match nth_error sequence (Z.to_nat (Z.shiftr bit 4)) with
    | None => None
    | Some w => Some (32768 * Z.land (Z.shiftr w (Z.land (Z.lnot bit) 15)) 1)
    end.

(** functions/int_select.h:20: while (f < 0) f += sizeof...(N) << 8. *)
Fixpoint sel_up (fuel : nat) (f n : Z) : Z :=
  match fuel with
  | O => f
  | S fuel => if f <? 0 then sel_up fuel (f + n * 256) n else f
  end.
(** functions/int_select.h:17-23 IntSelect; at most -f rounds are needed. *)
Definition fn_select (f : Z) (values : list Z) : option Z :=
  let n := Z.of_nat (length values) in
  if n =? 0 then None
  else nth_error values (Z.to_nat (sel_up (Z.to_nat (- f)) f n mod n)).
(** functions/int_select.h:46-79 IntSelectHelper::get over a split list of functions,
    common/typelist.h:66-70 SplitTypeList; here the functions' values at this LED. *)
Fixpoint sel_get (fuel : nat) (values : list Z) (n : Z) : Z :=
  match fuel with
  | O => 0
  | S fuel =>
    match values with
    | [] => 0
    | [v] => v
    | _ =>
      let h := Nat.div (length values) 2 in
      if n <? Z.of_nat h then sel_get fuel (firstn h values) n
      else sel_get fuel (skipn h values) (n - Z.of_nat h)
    end
  end.
(** functions/int_select.h:83-89 IntSelectX: f % sizeof...(N) is computed unsigned. *)
Definition fn_selectx (f : Z) (values : list Z) : option Z :=
  let n := Z.of_nat (length values) in
  if n =? 0 then None
  else Some (sel_get (length values) values (u32 f mod n)).
