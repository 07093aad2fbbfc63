(** When a blade may be switched off: what the parts of a style report while they draw. *)
From Coq Require Import ZArith List Bool QArith Qminmax Qround.
From Verif Require Import ArithModel ColorModel.
Import ListNotations.
Open Scope Z_scope.

(** common/color.h:366-510 the color types; the tag stands for the static type.  Simplification: the
    _nod types are those without overdrive. *)
Inductive layer := LO (c : opaque) | LU (c : rgba_um) | LP (c : rgba).
Definition black16 : color := Color 0 0 0.
(** common/color.h:434 Transparent() *)
Definition transparent : layer := LU (UM black16 0 false).
(** common/color.h:493-497 conversions to RGBA *)
Definition to_pm (l : layer) : rgba := match l with LO o => pm_of_opaque o | LU u => pm_of_um u | LP p => p end.
(** common/color.h:512-534 operator* *)
Definition scale (l : layer) (x : Z) : layer :=
  match l with LO o => LU (opaque_mul o x) | LU u => LU (um_mul u x) | LP p => LP (pm_mul p x) end.
(** common/color.h:536-590 MixColors *)
Definition mix (a b : layer) (x shift : Z) : layer :=
  match a, b with
  | LO a, LO b => LO (mix_opaque a b x shift)
  | _, _ => LP (mix_pm (to_pm a) (to_pm b) x shift)
  end.
(** common/color.h:592-705 base << over; an opaque color over another is converted first *)
Definition over (base l : layer) : layer :=
  let l := match l with LO o => LU (UM (oc o) 32768 (o_od o)) | l => l end in
  match base, l with
  | LO b, LU u => LO (opaque_over_um b u)
  | LO b, LP p => LO (opaque_over_pm b p)
  | LU b, LU u => LP (um_over_um b u)
  | LU b, LP p => LP (um_over_pm b p)
  | LP b, LU u => LP (pm_over_um b u)
  | LP b, LP p => LP (pm_over_pm b p)
  | b, LO _ => b
  end.
(** styles/layers.h:64-69 dealpha *)
Definition dealpha (l : layer) : layer :=
  match l with
  | LO o => LO o
  | LU u => LO (Opaque (map1 (fun c => u16 (Z.shiftr (mul32 c (ua u)) 15)) (uc u)) (u_od u))
  | LP p => LO (Opaque (pc p) (p_od p))
  end.
(** The color replaced, the rest kept (styles/rotate_color.h:26, byteorder.h:31). *)
Definition recolor (f : color -> color) (l : layer) : layer :=
  match l with
  | LO o => LO (Opaque (f (oc o)) (o_od o))
  | LU u => LU (UM (f (uc u)) (ua u) (u_od u))
  | LP p => LP (PM (f (pc p)) (pa p) (p_od p))
  end.

(** styles/blade_style.h:51-61 *)
Inductive lres := LUnknown | LBlack | LTransparent.
Inductive fres := FUnknown | FZero | FOne.

(** What a style sees of its blade in one frame: is_on(), num_leds(), the clocks, which effects are
    newly detected, the byte order, a lockup, and the answers of random(). *)
Record env := Env { on : bool; leds : Z; micros : Z; millis : Z; effect : Z -> bool; order : Z; lockup : bool; rand : nat -> Z }.
(** BladeWrapper with its own is_on() (blades/blade_wrapper.h) *)
Definition with_on (e : env) (b : bool) : env := Env b (leds e) (micros e) (millis e) (effect e) (order e) (lockup e) (rand e).
(** random(k) *)
Definition random (e : env) (i : nat) (k : Z) : Z := if k <=? 0 then 0 else rand e i mod k.

(** ** Functions *)

(** A function together with its state.
    [Const]: Int<N> and IntArg (functions/int.h, int_arg.h); [SyncAlt]: functions/alt.h:29-53;
    [InOut]: InOutFuncX (ifon.h:39-87); [Helper]: InOutHelperF (ifon.h:90-120);
    [Select]: IntSelect (int_select.h:14-38); [Linear], [Circular]: linear_section.h, circular_section.h;
    [Other]: any function whose run() returns nothing, as an arbitrary sequence of values. *)
Inductive fn :=
| Const (n : Z)
| SyncAlt
| InOut (out inn : fn) (ext : Q) (last ret : Z)
| Helper (allow : bool) (ext : fn) (thres : Z)
| Select (f : fn) (ns : list Z) (value : Z)
| Linear (pos frac : fn) (lo hi : Z)
| Circular (pos frac : fn) (start stop total : Z)
| Other (tick : nat) (values : nat -> Z -> Z).

(** common/range.h size of an intersection *)
Definition covered (lo hi led : Z) : Z := Z.max 0 (Z.min hi (led * 32768 + 32768) - Z.max lo (led * 32768)).

(** getInteger(led); calculate() is getInteger(0) (functions/svf.h:31-36) *)
Definition get (f : fn) (led : Z) : Z :=
  match f with
  | Const n => n
  | SyncAlt => 0
  | InOut _ _ _ _ ret => ret
  | Helper _ _ thres => clampi32 (led * 32768 - thres) 0 32768
  | Select _ _ v => v
  | Linear _ _ lo hi => covered lo hi led
  | Circular _ _ start stop total =>
      if start <=? stop then covered start stop led else covered 0 stop led + covered start total led
  | Other t v => v t led
  end.
Definition calculate (f : fn) : Z := get f 0.

(** functions/int.h:14-20, int_arg.h:9-15 *)
Definition const_res (n : Z) : fres := if n =? 0 then FZero else if n =? 32768 then FOne else FUnknown.

(** functions/ifon.h:41-61 the extension.  Simplification: rational numbers for floats. *)
Definition extend (is_on : bool) (ext : Q) (delta out inn : Z) : Q :=
  if is_on then
    if Qeq_bool ext 0 then (1 # 100000)%Q
    else if out =? 0 then 1%Q else Qmin (ext + inject_Z delta / inject_Z (out * 1000)) 1
  else if inn =? 0 then 0%Q else Qmax (ext - inject_Z delta / inject_Z (inn * 1000)) 0.

(** run() *)
Fixpoint run_fn (e : env) (f : fn) : fn * fres :=
  match f with
  | Const n => (f, const_res n)
  | SyncAlt => (f, FZero)
  | InOut out inn ext last _ =>
      let (out, _) := run_fn e out in
      let (inn, _) := run_fn e inn in
      let ext := extend (on e) ext (u32 (micros e - last)) (calculate out) (calculate inn) in
      let ret := Qfloor (ext * 32768) in
      (InOut out inn ext (micros e) ret, if negb (on e) && (ret =? 0) then FZero else FUnknown)
  | Helper allow ext _ =>
      let (ext, r) := run_fn e ext in
      (Helper allow ext (calculate ext * leds e - 32768),
       if allow then match r with FZero => FOne | FOne => FZero | FUnknown => FUnknown end else FUnknown)
  | Select f ns _ =>
      let (f, r) := run_fn e f in
      let v := nth (Z.to_nat (calculate f mod Z.of_nat (length ns))) ns 0 in
      (Select f ns v, match r with FUnknown => FUnknown | _ => const_res v end)
  | Linear p f _ _ =>
      let (p, _) := run_fn e p in
      let (f, r) := run_fn e f in
      let half := Z.quot (calculate f) 2 in
      (Linear p f (clampi32 ((calculate p - half) * leds e) 0 (32768 * leds e))
                  (clampi32 ((calculate p + half) * leds e) 0 (32768 * leds e)), r)
  | Circular p f _ _ _ =>
      let (p, _) := run_fn e p in
      let (f, r) := run_fn e f in
      let frac := calculate f in
      let half := Z.quot frac 2 in
      let '(start, stop) :=
        if frac =? 32768 then (0, leds e * 32768)
        else if frac =? 0 then (0, 0)
        else (Z.land (calculate p + 32768 - half) 32767 * leds e, Z.land (calculate p + half) 32767 * leds e) in
      (Circular p f start stop (leds e * 32768), r)
  | Other t v => (Other (S t) v, FUnknown)
  end.

(** ** Transitions: transitions/base.h:111-139 TransitionHelper around any transition, which is an
    arbitrary sequence of answers to done() and of paintings. *)
Record tr := Tr { active : bool; ticks : nat; done_at : nat -> bool; paint : nat -> Z -> layer -> layer -> layer }.
Definition tr_begin (t : tr) : tr := Tr true (ticks t) (done_at t) (paint t).
Definition tr_run (t : tr) : tr :=
  if active t then Tr (negb (done_at t (S (ticks t)))) (S (ticks t)) (done_at t) (paint t) else t.
Definition tr_color (t : tr) (a b : layer) (led : Z) : layer := if active t then paint t (ticks t) led a b else b.

(** ** Styles *)

(** styles/fire.h:6-10 FireConfiguration *)
Record fire_config := FireConfig { intensity_base : Z; intensity_rand : Z; cooling : Z }.
(** styles/fire.h:24-105 StyleFireBase: DELAY, SPEED, the configurations, last_update_, the state of
    On() (activated, on_time_), heat_ *)
Record fire := Fire_ { delay : Z; speed : Z; norm : fire_config; clash : fire_config; lock : fire_config; off_cfg : fire_config;
                       last_update : Z; activated : bool; on_time : Z; heat : Z -> Z; fire_leds : Z }.

(** A style together with its state.
    [Black]: Rgb<0,0,0>, BLACK; [Solid]: Rgb, Rgb16, RgbArg (rgb.h, rgb_arg.h);
    [Any]: any style whose run() returns nothing, as an arbitrary sequence of pictures;
    [Alpha]: AlphaL (alpha.h:17-43); [AlphaMix]: AlphaMixL (alpha.h:49-72), the colors mixed are arbitrary;
    [Compose], [OnBlack]: Compose<BASE, L1> and Compose<BLACK, L1> (layers.h);
    [InOutTr]: InOutTrL (inout_helper.h:50-96); [Effect]: TransitionEffectL (transition_effect.h:16-51);
    [Pulse]: TransitionPulseL (transition_pulse.h); [Remap]: remap.h; [Rotate]: RotateColorsX (rotate_color.h);
    [ByteOrder]: byteorder.h; [SparkTip]: inout_sparktip.h; [IgnDelay], [RetrDelay]: ignition_delay.h, retraction_delay.h;
    [Cycle]: ColorCycle, and with [cylon] Cylon (color_cycle.h, cylon.h); [Fire]: StyleFire (fire.h) *)
Inductive style :=
| Black
| Solid (c : color)
| Any (tick : nat) (colors : nat -> Z -> layer)
| Alpha (c : style) (a : fn)
| AlphaMix (a : fn) (tick : nat) (colors : nat -> Z -> Z -> layer)
| Compose (base l : style)
| OnBlack (l : style)
| InOutTr (allow was_on : bool) (off : style) (out inn : tr)
| Effect (type : Z) (t : tr)
| Pulse (p : fn) (t : tr)
| Remap (f : fn) (c : style) (n : Z)
| Rotate (f : fn) (c : style)
| ByteOrder (o : Z) (c : style)
| SparkTip (allow : bool) (base : style) (ext : fn) (spark off : style) (was_on : bool) (thres : Z)
| IgnDelay (ms : fn) (c : style) (waiting is_on : bool) (since : Z)
| RetrDelay (ms : fn) (c : style) (waiting is_on : bool) (since : Z)
| Cycle (cylon : bool) (off_c on_c base_c : style) (off_p on_p fade_ms : Z) (fade : Q) (last : Z) (start stop total : Z) (tick : nat) (span : nat -> Z * Z)
| Fire (c1 c2 : style) (f : fire).

(** is_same_type<..., Rgb<0,0,0>> *)
Definition is_black_type (s : style) : bool := match s with Black => true | _ => false end.

(** styles/color_cycle.h:62-73 getMix; cylon.h:93-94 *)
Definition covered14 (lo hi led : Z) : Z := Z.max 0 (Z.min hi (led * 16384 + 16384) - Z.max lo (led * 16384)).
Definition cycle_mix (cylon : bool) (start stop total led : Z) : Z :=
  if cylon || (start <=? stop) then covered14 start stop led else covered14 0 stop led + covered14 start total led.

(** styles/fire.h:123-136 *)
Definition fire_color (h : Z) (c1 c2 : color) : color :=
  if h <? 256 then c16_mix black16 c1 h
  else if h <? 512 then c16_mix c1 c2 (h - 256)
  else if h <? 768 then c16_mix c2 (Color 65535 65535 65535) (h - 512)
  else Color 65535 65535 65535.
Definition color_of (l : layer) : color := match l with LO o => oc o | LU u => uc u | LP p => pc p end.

(** getColor(led).  Remap: styles/remap.h:32-43 (exact arithmetic instead of float clamp). *)
Fixpoint color_at (s : style) (led : Z) : layer :=
  match s with
  | Black => LO (Opaque black16 false)
  | Solid c => LO (Opaque c false)
  | Any t cs => cs t led
  | Alpha c a => let x := get a led in if x =? 0 then transparent else scale (color_at c led) x
  | AlphaMix a t cs =>
      let x := get a led in if x =? 0 then transparent else scale (cs t x led) x
  | Compose b l => over (color_at b led) (color_at l led)
  | OnBlack l => dealpha (color_at l led)
  | InOutTr _ was_on off out inn =>
      if negb (active out) && negb (active inn) then
        if was_on then transparent else color_at off led
      else if was_on then tr_color out (tr_color inn transparent (color_at off led) led) transparent led
      else tr_color inn (tr_color out (color_at off led) transparent led) (color_at off led) led
  | Effect _ t | Pulse _ t => if active t then paint t (ticks t) led transparent transparent else transparent
  | Remap f c n =>
      let x := Z.max 0 (Z.min (get f led * n) (n * 32768 - 1)) in
      let led := Z.shiftr x 15 in
      mix (color_at c led) (color_at c (Z.min (led + 1) (n - 1))) (Z.land x 32767) 15
  | Rotate f c => recolor (fun x => rotate x (Z.land (get f led) 32767 * 3)) (color_at c led)
  | ByteOrder o c => recolor (fun x => Color (getByte x o 2) (getByte x o 1) (getByte x o 0)) (color_at c led)
  | SparkTip _ base _ spark off was_on thres =>
      let ret := color_at base led in
      let ret := if was_on then mix (color_at spark led) ret (clampi32 (thres - 1024 - led * 256) 0 255) 8 else ret in
      mix (color_at off led) ret (clampi32 (thres - led * 256) 0 255) 8
  | IgnDelay _ c _ _ _ | RetrDelay _ c _ _ _ => color_at c led
  | Cycle cylon off_c on_c base_c _ _ _ fade _ start stop total _ _ =>
      mix (color_at base_c led) (mix (color_at off_c led) (color_at on_c led) (Qfloor (16384 * fade)) 14) (cycle_mix cylon start stop total led) 14
  | Fire c1 c2 f => LO (Opaque (fire_color (heat f (fire_leds f - 1 - led)) (color_of (color_at c1 led)) (color_of (color_at c2 led))) false)
  end.

(** styles/fire.h:35-50 On(); the fall-through of the switch *)
Definition fire_on (e : env) (f : fire) : fire * bool :=
  if negb (on e) then
    (Fire_ (delay f) (speed f) (norm f) (clash f) (lock f) (off_cfg f) (last_update f) false (on_time f) (heat f) (fire_leds f), false)
  else
    let t := if activated f then on_time f else millis e in
    (Fire_ (delay f) (speed f) (norm f) (clash f) (lock f) (off_cfg f) (last_update f) true t (heat f) (fire_leds f),
     delay f <=? u32 (millis e - t)).
Definition clash_effect : Z := 1.
(** styles/fire.h:51-93 run().  SPEED >= 1: each cell is computed from cells not yet changed.
    Simplification: once on, On() answers true until the blade is off (the clock does not wrap in
    between); heat_ has been allocated. *)
Definition fire_run (e : env) (f : fire) : fire * lres :=
  if u32 (millis e - last_update f) <? 10 then (f, LUnknown)
  else
    let '(f, cfg) :=
      if effect e clash_effect then (f, clash f)
      else let (f, b) := fire_on e f in (f, if b then if lockup e then lock f else norm f else off_cfg f) in
    let n := leds e in
    let base i := intensity_base cfg + random e (3 * Z.to_nat i) (random e (3 * Z.to_nat i + 1) (random e (3 * Z.to_nat i + 2) (intensity_rand cfg))) in
    let h1 i := if (n <=? i) && (i <? n + speed f) then base i mod 65536 else heat f i in
    let cell i := clampi32 (Z.shiftr (h1 (i + speed f - 1) * 3 + h1 (i + speed f) * 10 + h1 (i + speed f + 1) * 3) 4 - random e (3 * Z.to_nat i + 100000) (cooling cfg)) 0 65535 in
    let h2 i := if (0 <=? i) && (i <? n) then cell i else h1 i in
    let zero := forallb (fun i => h2 (Z.of_nat i) =? 0) (seq 0 (Z.to_nat n)) in
    (Fire_ (delay f) (speed f) (norm f) (clash f) (lock f) (off_cfg f) (millis e) (activated f) (on_time f) h2 n,
     if zero then LBlack else LUnknown).

(** RunStyle and back (styles/blade_style.h:63-113): a style whose run() is a bool *)
Definition as_bool (r : lres) : lres := match r with LBlack => LBlack | _ => LUnknown end.

(** styles/color_cycle.h:32-60, cylon.h:29-68.  Simplification: rational numbers for floats; the lit
    part at a percentage other than 0 and 100 is arbitrary. *)
Definition cycle_fade (e : env) (fade : Q) (last fade_ms : Z) : Q :=
  let delta := u32 (micros e - last) in
  let delta := if 1000000 <? delta then 1 else delta in
  let d := (inject_Z delta / inject_Z (1000 * fade_ms))%Q in
  Qmax 0 (Qmin 1 (fade + if on e then d else - d)).

(** run() *)
Fixpoint run (e : env) (s : style) : style * lres :=
  match s with
  | Black => (s, LBlack)
  | Solid c => (s, if (r c =? 0) && (g c =? 0) && (b c =? 0) then LBlack else LUnknown)
  | Any t cs => (Any (S t) cs, LUnknown)
  | Alpha c a =>
      let (c, rc) := run e c in
      let (a, ra) := run_fn e a in
      (Alpha c a, match ra with FOne => rc | FZero => LTransparent | FUnknown => LUnknown end)
  | AlphaMix a t cs =>
      (* f_ is run twice *)
      let (a, _) := run_fn e a in
      let (a, ra) := run_fn e a in
      (AlphaMix a (S t) cs, match ra with FZero => LTransparent | _ => LUnknown end)
  | Compose base l =>
      let (base, rb) := run e base in
      let (l, rl) := run e l in
      (Compose base l, match rl with LBlack => LBlack | LTransparent => rb | LUnknown => LUnknown end)
  | OnBlack l =>
      let (l, rl) := run e l in
      (OnBlack l, match rl with LBlack | LTransparent => LBlack | LUnknown => LUnknown end)
  | InOutTr allow was_on off out inn =>
      let (off, ro) := run e off in
      let out := tr_run (if negb (eqb was_on (on e)) && on e then tr_begin out else out) in
      let inn := tr_run (if negb (eqb was_on (on e)) && negb (on e) then tr_begin inn else inn) in
      (InOutTr allow (on e) off out inn,
       if allow && negb (on e) && negb (active out) && negb (active inn) then ro else LUnknown)
  | Effect type t =>
      let t := tr_run (if effect e type then tr_begin t else t) in
      (Effect type t, if active t then LUnknown else LTransparent)
  | Pulse p t =>
      let (p, _) := run_fn e p in
      let t := tr_run (if calculate p =? 0 then t else tr_begin t) in
      (Pulse p t, LUnknown)
  | Remap f c _ =>
      let (f, _) := run_fn e f in
      let (c, rc) := run e c in
      (Remap f c (leds e), rc)
  | Rotate f c =>
      let (f, _) := run_fn e f in
      let (c, rc) := run e c in
      (Rotate f c, as_bool rc)
  | ByteOrder _ c => let (c, rc) := run e c in (ByteOrder (order e) c, as_bool rc)
  | SparkTip allow base ext spark off _ _ =>
      let (base, _) := run e base in
      let (ext, _) := run_fn e ext in
      let black := is_black_type off in
      let (off, _) := run e off in
      let thres := Z.shiftr (calculate ext * (leds e + 4)) 7 in
      (SparkTip allow base ext spark off (on e) thres, if allow && black && (thres =? 0) then LBlack else LUnknown)
  | IgnDelay ms c waiting is_on since =>
      let (ms, _) := run_fn e ms in
      let '(waiting, is_on, since) :=
        if on e then
          let since := if waiting then since else millis e in
          let d := calculate ms in
          if (d <? 0) || (u32 d <? u32 (millis e - since)) then (true, true, u32 (millis e - d - 1)) else (true, is_on, since)
        else (false, false, since) in
      let (c, rc) := run (with_on e is_on) c in
      (IgnDelay ms c waiting is_on since, as_bool rc)
  | RetrDelay ms c waiting is_on since =>
      let (ms, _) := run_fn e ms in
      let '(waiting, is_on, since) :=
        if on e then (false, true, since)
        else
          let since := if waiting then since else millis e in
          let d := calculate ms in
          if u32 d <? u32 (millis e - since) then (true, false, u32 (millis e - d - 1)) else (true, is_on, since) in
      let (c, rc) := run (with_on e is_on) c in
      (RetrDelay ms c waiting is_on since, as_bool rc)
  | Cycle cylon off_c on_c base_c off_p on_p fade_ms fade last _ _ _ tick span =>
      let black := is_black_type (if cylon then off_c else base_c) in
      let (off_c, _) := run e off_c in
      let (on_c, _) := run e on_c in
      let (base_c, _) := run e base_c in
      let fade := cycle_fade e fade last fade_ms in
      let percent := (inject_Z off_p * (1 - fade) + inject_Z on_p * fade)%Q in
      let total := leds e * 16384 in
      let '(start, stop) := if Qeq_bool percent 100 then (0, total) else if Qeq_bool percent 0 then (0, 0) else span tick in
      (Cycle cylon off_c on_c base_c off_p on_p fade_ms fade (micros e) start stop total (S tick) span,
       if negb (Qeq_bool percent 100) && Qeq_bool percent 0 && black then LBlack else LUnknown)
  | Fire c1 c2 f =>
      let (c1, _) := run e c1 in
      let (c2, _) := run e c2 in
      let (f, r) := fire_run e f in
      (Fire c1 c2 f, r)
  end.

(** styles/style_ptr.h:88-92 Style::run: allow_disable() is called when the style says so. *)
Definition frame (e : env) (s : style) : style * bool :=
  let (s, r) := run e s in (s, match r with LBlack => true | _ => false end).

(** styles/pixelate.h:17-41 PixelateX: getColor with its memory; [n] is the pixel size, [color] the
    colors of the wrapped style. *)
Record pix := Pix { last_led : Z; last_color : layer }.
Definition pix_color (n : Z) (color : Z -> layer) (p : pix) (led : Z) : pix * layer :=
  let p := if n <=? Z.abs (led - last_led p) then Pix led (color led) else p in (p, last_color p).
(** the colors of a frame: the pixels 0, 1, ... one after the other (style_ptr.h:44-46) *)
Fixpoint pix_frame (n : Z) (color : Z -> layer) (p : pix) (led : Z) (count : nat) : pix * list layer :=
  match count with
  | O => (p, [])
  | S count => let (p, c) := pix_color n color p led in
               let (p, cs) := pix_frame n color p (led + 1) count in (p, c :: cs)
  end.
