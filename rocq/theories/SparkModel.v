(** Style functions with memory or randomness: SparkleF, BlastF, BlastFadeoutF, SlowNoise,
    BrownNoiseF, RandomBlinkF, OnSparkF, TimeSinceEffect, EffectPosition.
    Random numbers are inputs. *)
From Coq Require Import ZArith QArith Qabs Qround List Bool.
From Verif Require Import ArithModel ColorModel.
Import ListNotations.
Local Open Scope Z_scope.

(** Conversion to a signed 16-bit and to a signed 32-bit number. *)
Definition s16 (x : Z) : Z := let y := x mod 65536 in if y <? 32768 then y else y - 65536.
Definition s32 (x : Z) : Z := let y := u32 x in if y <? 2147483648 then y else y - 4294967296.

(** ** SparkleF: functions/sparkle.h *)

(** sparkle.h:20-21 the array sparks_ of num_leds + 4 shorts; [None]: outside the array. *)
Definition arr := Z -> Z.
Definition rd (n : Z) (a : arr) (i : Z) : option Z :=
  if (0 <=? i) && (i <? n + 4) then Some (a i) else None.
Definition wr (n : Z) (a : arr) (i v : Z) : option arr :=
  if (0 <=? i) && (i <? n + 4) then Some (fun j => if j =? i then s16 v else a j) else None.

(** sparkle.h:30-41 the loop from [i], [k] rounds; [f0] is fifo[0] (uint16_t). *)
Fixpoint spark_loop (k : nat) (n i : Z) (a : arr) (f0 : Z) : option (arr * Z) :=
  match k with
  | O => Some (a, f0)
  | S k =>
    match rd n a (i - 1), rd n a (i + 1), rd n a i with
    | Some l, Some r, Some o =>
      let x := Z.shiftr ((l + r) * 200 + o * 570) 10 in
      match wr n a (i - 1) f0 with
      | Some a => spark_loop k n (i + 1) a (u16 x)
      | None => None
      end
    | _, _, _ => None
    end
  end.

(** sparkle.h:17-48 run at time [m] on a blade of [n] LEDs; [r1] is random(1000), [r2] is
    random(num_leds).  The state: the array, if allocated, and last_update_. *)
Record sparks := Sparks { k_arr : option arr; k_last : Z }.
Definition sparkle_run (n chance intensity : Z) (s : sparks) (i : Z * Z * Z) : option sparks :=
  let '(m, r1, r2) := i in
  let a := match k_arr s with Some a => a | None => fun _ => 0 end in
  if u32 (m - k_last s) >=? 10 then
    match spark_loop (Z.to_nat n) n 2 a 0 with
    | None => None
    | Some (a, f0) =>
      match wr n a n f0 with
      | None => None
      | Some a =>
        match wr n a (n + 1) 0 with
        | None => None
        | Some a =>
          if r1 <? chance then
            match rd n a (r2 + 2) with
            | None => None
            | Some v =>
              match wr n a (r2 + 2) (v + intensity) with
              | None => None
              | Some a => Some (Sparks (Some a) m)
              end
            end
          else Some (Sparks (Some a) m)
        end
      end
    end
  else Some (Sparks (Some a) (k_last s)).

(** sparkle.h:50 getInteger; [None]: not allocated or outside the array. *)
Definition sparkle_get (n : Z) (s : sparks) (led : Z) : option Z :=
  match k_arr s with
  | None => None
  | Some a => match rd n a (led + 2) with
              | None => None
              | Some v => Some (Z.shiftl (clampi32 v 0 256) 7)
              end
  end.

(** ** Blasts: functions/blast.h *)

(** blast.h:23-28 blast_hump *)
Definition blast_hump : list Z :=
  [255; 255; 252; 247; 240; 232; 222; 211; 199; 186; 173; 159; 145; 132; 119; 106;
   94; 82; 72; 62; 53; 45; 38; 32; 26; 22; 18; 14; 11; 9; 7; 5].

(** What the functions look at in a remembered effect: whether its type is EFFECT and it is
    on this blade, its start_micros and its location (0 .. 65535, 32768 is the tip).
    The list is what SaberBase::GetEffects gave in run() (see EffectModel). *)
Record blast := Blast { b_mine : bool; b_start : Z; b_loc : Z }.

(** blast.h:47-48 and 91-92: how much is left, in promille; T / FADEOUT_MS and the difference
    are unsigned. *)
Definition left (fade now start : Z) : Z := s32 (1000 - u32 (now - start) / fade).

(** blast.h:84-98 BlastFadeoutF::getInteger.  [None]: int overflow. *)
Fixpoint fadeout_sum (fade now : Z) (l : list blast) (mix : Z) : option Z :=
  match l with
  | [] => Some mix
  | b :: l =>
    if negb (b_mine b) then fadeout_sum fade now l mix
    else let M := left fade now (b_start b) in
         if M >? 0 then
           match imul 32768 M with
           | None => None
           | Some p => match iadd mix (Z.quot p 1000) with
                       | None => None
                       | Some mix => fadeout_sum fade now l mix
                       end
           end
         else fadeout_sum fade now l mix
  end.
Definition fadeout (fade now : Z) (l : list blast) : option Z :=
  match fadeout_sum fade now l 0 with Some mix => Some (Z.min mix 32768) | None => None end.

(** blast.h:51-52 where an LED is relative to the wave: N.  Simplification: the float
    computation is taken as exact. *)
Definition wave_n (size ms leds led loc T : Z) : Z :=
  let dist := Qabs ((loc # 32768) - (led # Z.to_pos leds)) in
  Qfloor (Qabs (dist - (T # Z.to_pos (ms * 1000))) * inject_Z size).
(** blast.h:41-59 BlastF::getInteger.  [None]: blast_hump read outside, or int overflow. *)
Fixpoint wave_sum (fade size ms leds led now : Z) (l : list blast) (mix : Z) : option Z :=
  match l with
  | [] => Some mix
  | b :: l =>
    if negb (b_mine b) then wave_sum fade size ms leds led now l mix
    else let T := u32 (now - b_start b) in
         let M := left fade now (b_start b) in
         if M >? 0 then
           let N := wave_n size ms leds led (b_loc b) T in
           if N <=? 32 then
             match nth_error blast_hump (Z.to_nat N) with
             | None => None
             | Some h => match imul h M with
                         | None => None
                         | Some p => match iadd mix (Z.quot p 1000) with
                                     | None => None
                                     | Some mix => wave_sum fade size ms leds led now l mix
                                     end
                         end
             end
           else wave_sum fade size ms leds led now l mix
         else wave_sum fade size ms leds led now l mix
  end.
Definition wave (fade size ms leds led now : Z) (l : list blast) : option Z :=
  match wave_sum fade size ms leds led now l 0 with
  | Some mix => Some (Z.min (Z.shiftl mix 7) 32768)
  | None => None
  end.

(** common/saber_base.h:218-223 EffectLocation::rnd; [r] is random(22937).  The constructor
    (216) takes a uint16_t. *)
Definition rnd_loc (r : Z) : Z := u16 (65535 + r).
(** functions/effect_position.h:29 value_ = location * 32768 *)
Definition effect_position (loc : Z) : Z := loc.

(** ** Noise: functions/brown_noise.h, functions/random_blink.h *)

(** brown_noise.h:20 and 49; [r] is random(speed * 2 + 1). *)
Definition wander (speed v r : Z) : Z := clampi32 (v + (r - speed)) 0 32768.
(** brown_noise.h:40-50 SlowNoise::run; [rs] are the random numbers of the loop.  The state
    is value_ and last_millis_. *)
Definition slow_steps (now last : Z) : nat :=
  let delta := u32 (now - last) in Z.to_nat (if delta >? 100 then 1 else delta).
Definition slow_run (speed : Z) (s : Z * Z) (i : Z * (nat -> Z)) : Z * Z :=
  let '(v, last) := s in
  let '(now, rs) := i in
  (fold_left (wander speed) (map rs (seq 0 (slow_steps now last))) v, now).
(** brown_noise.h:14-22 BrownNoiseF: run() gives the start [v] (random(32768)), then
    getInteger is called LED by LED; the values it returns.  mix_ is a uint16_t. *)
Fixpoint brown (grade : nat -> Z) (rs : nat -> Z) (led : nat) (k : nat) (v : Z) : list Z :=
  match k with
  | O => []
  | S k => let v := u16 (wander (grade led) v (rs led)) in v :: brown grade rs (S led) k v
  end.

(** random_blink.h:13-21 RandomBlinkF::run; [rs] are the values of rand().  The state is
    bits_ and last_update_.  [None]: division by zero. *)
Definition blink_run (leds : Z) (s : (nat -> Z) * Z) (now hz : Z) (rs : nat -> Z)
  : option ((nat -> Z) * Z) :=
  let '(bits, last) := s in
  if u32 hz =? 0 then None
  else if u32 (now - last) >? 1000000000 / u32 hz then
    let shorts := (leds + 15) / 16 in
    Some (fun i => if Z.of_nat i <? shorts then u16 (rs i) else bits i, now)
  else Some (bits, last).
(** random_blink.h:22-24 getInteger *)
Definition blink_get (s : (nat -> Z) * Z) (led : Z) : Z :=
  Z.land (Z.shiftr (fst s (Z.to_nat (Z.shiftr led 4))) (Z.land led 15)) 1 * 32768.

(** ** Times: functions/on_spark.h, functions/time_since_effect.h *)

(** on_spark.h:18-31 OnSparkF::calculate at [m] ms (both calls of millis() see the same
    time); the state is on_ and on_millis_.  The
    products are unsigned. *)
Definition onspark (s : bool * Z) (on : bool) (m fade : Z) : (bool * Z) * Z :=
  let '(on0, start) := s in
  let start := if negb (Bool.eqb on0 on) && on then m else start in
  let t := u32 (m - start) in
  let f := u32 fade in
  ((on, start), if t <? f then s32 (32768 - u32 (32768 * t) / f) else 0).

(** time_since_effect.h:20-38 calculate: [e] is the start_micros of the newest effect found. *)
Definition since (last : Z) (e : option Z) (now : Z) : Z * Z :=
  let last := match e with Some s => s | None => last end in
  let ret := u32 (now - last) in
  ((if ret >? 1000000000 then u32 (now - 1000000000) else last), ret / 1000).
