(** Small parts around the color variation and the length of the blade:
    functions/alt.h, styles/length_finder.h, styles/blade_shortener.h,
    styles/rgb_cycle.h and the loop of styles/style_ptr.h that gives a blade its
    colors. *)
From Coq Require Import List ZArith Bool.
From Verif Require Import ArithModel ColorModel.
Import ListNotations.
Local Open Scope Z_scope.

(** ** SyncAltToVarianceF (functions/alt.h:30-55) *)

(** [variation]: SaberBase's, a uint32_t; [alt], [alts]: current_alternative and
    num_alternatives (sound/effect.h:12-14); [seen]: last_, line 54;
    [sounds]: the alternatives that ALT_SOUND effects have asked for. *)
Record sync := Sync { variation : Z; alt : Z; alts : Z; seen : Z; sounds : list Z }.

(** An uint32_t passed as int32_t. *)
Definition i32 (x : Z) : Z := (x + 2 ^ 31) mod 2 ^ 32 - 2 ^ 31.

(** sound/hybrid_font.h:568-581: EFFECT_ALT_SOUND; [n] is the sound number.
    The hum and the altchng sound are not modelled. *)
Definition alt_sound (s : sync) (n : Z) : sync :=
  if alts s =? 0 then s
  else if n =? -1 then
    Sync (variation s) (if alt s + 1 >=? alts s then 0 else alt s + 1)
         (alts s) (seen s) (sounds s)
  else
    Sync (variation s) (Z.min n (alts s - 1)) (alts s) (seen s) (sounds s).

(** alt.h:37-51. *)
Definition sync_loop (s : sync) : sync :=
  if alts s =? 0 then s
  else
    let var := MOD (i32 (variation s)) (alts s) in
    if (var =? seen s) && (alt s =? seen s) then s
    else if seen s =? 2147483647 then
      Sync (variation s) var (alts s) var (sounds s)
    else if negb (var =? seen s) then
      let s := alt_sound s var in
      Sync (variation s) (alt s) (alts s) var (sounds s ++ [var])
    else
      Sync (alt s mod 2 ^ 32) (alt s) (alts s) (alt s) (sounds s).

(** What happens outside: the variation is set or stepped (common/saber_base.h:
    543-551), an alternative is asked for, the synchronizer's turn comes. *)
Inductive sync_op := SetVar (v : Z) | StepVar (d : Z) | AltSound (n : Z) | SyncLoop.

Definition sync_step (s : sync) (o : sync_op) : sync :=
  match o with
  | SetVar v => Sync (v mod 2 ^ 32) (alt s) (alts s) (seen s) (sounds s)
  | StepVar d => Sync ((variation s + d) mod 2 ^ 32) (alt s) (alts s) (seen s) (sounds s)
  | AltSound n => alt_sound s n
  | SyncLoop => sync_loop s
  end.

(** ** LengthFinder (styles/length_finder.h) *)

(** 51-53 *)
Record finder := Finder { say_it : bool; led : Z; last_speak : Z }.
Definition finder0 : finder := Finder true (-1) 0.

(** 21-43, on the variation and millis(); the results are the new variation and
    the number said, if any. [leds] is blade->num_leds(). The test for a negative
    variation is on an unsigned number. *)
Definition finder_run (leds : Z) (f : finder) (var now : Z) : finder * Z * option Z :=
  let var := if var <? 0 then 0 else var in
  let var := if u32 leds <=? var then u32 (leds - 1) else var in
  let f := if var =? u32 (led f) then f else Finder true (i32 var) (last_speak f) in
  if say_it f && (3000 <? u32 (now - last_speak f))
  then (Finder false (led f) now, var, Some (led f + 1))
  else (f, var, None).

(** 45-48: which of its two colors an LED gets. *)
Definition finder_lit (f : finder) (l : Z) : bool := l =? led f.

(** Frame after frame (21-43), given the variation and the time of each: the finder at the
    end and what was said, with the times. *)
Fixpoint finder_history (leds : Z) (f : finder) (l : list (Z * Z))
  : finder * list (Z * Z) :=
  match l with
  | [] => (f, [])
  | (var, now) :: l =>
      let '(f, _, o) := finder_run leds f var now in
      let '(f, said) := finder_history leds f l in
      (f, match o with Some k => (now, k) :: said | None => said end)
  end.

(** ** The loop that sets the LEDs (styles/style_ptr.h:37-67) *)

(** What a blade is told: the LED, the color, and whether it is not to be dimmed. *)
Record write := Write { w_led : Z; w_color : color; w_over : bool }.

(** 48-50, with DYNAMIC_BLADE_DIMMING. *)
Definition dimmed (dimming : Z) (c : color) : color :=
  map1 (fun x => clampi32 (Z.shiftr (x * dimming) 14) 0 65535) c.

(** 38-56. [style]: the style's color and overdrive flag by LED; [dimming] is 16384
    when DYNAMIC_BLADE_DIMMING is not defined (nothing is changed then). *)
Definition runloop2 (rotated : bool) (var dimming : Z) (leds : nat)
  (style : Z -> color * bool) : list write :=
  map (fun i =>
         let '(c, od) := style (Z.of_nat i) in
         let c := if rotated then rotate c (Z.land var 32767 * 3) else c in
         if od then Write (Z.of_nat i) c true
         else Write (Z.of_nat i) (dimmed dimming c) false)
      (seq 0 leds).

(** 58-67. [handled]: the style handles HANDLED_FEATURE_CHANGE; [colorless]: the
    blade's byte order is NONE. *)
Definition runloop (handled colorless : bool) (var dimming : Z) (leds : nat)
  (style : Z -> color * bool) : list write :=
  runloop2 (negb handled && negb colorless && negb (Z.land var 32767 =? 0))
           var dimming leds style.

(** ** BladeShortenerWrapper (styles/blade_shortener.h) *)

(** 13-22: one frame on a blade of [leds] LEDs. [frame n] is what the style writes on
    a blade of [n] LEDs (it asks num_leds() of line 30). The results are the new
    num_leds_ and everything written. *)
Definition shorten (leds len : Z) (frame : Z -> list write) : Z * list write :=
  let len := Z.min leds len in
  (len, frame len ++
        map (fun i => Write (len + Z.of_nat i) (Color 0 0 0) false)
            (seq 0 (Z.to_nat (leds - len)))).

(** blade->set for a blade of [leds] LEDs, in order: the colors shown; [None]: an LED
    that is not there. *)
Definition set_led (shown : list color) (w : write) : option (list color) :=
  if (w_led w <? 0) || (Z.of_nat (length shown) <=? w_led w) then None
  else Some (firstn (Z.to_nat (w_led w)) shown ++
             w_color w :: skipn (Z.to_nat (w_led w) + 1) shown).
Fixpoint set_leds (shown : list color) (ws : list write) : option (list color) :=
  match ws with
  | [] => Some shown
  | w :: ws => match set_led shown w with
               | Some shown => set_leds shown ws
               | None => None
               end
  end.

(** ** RGBCycle (styles/rgb_cycle.h:12-34) *)

(** 32-33: neither is initialized. *)
Record cycle := Cycle { at_last : Z; n : Z }.

(** 12-18; n_ is a uint8_t. *)
Definition cycle_run (s : cycle) (now : Z) : cycle :=
  if now =? at_last s then s
  else
    let k := (n s + 1) mod 256 in
    Cycle now (if 3 <=? k then 0 else k).

(** 19-28. *)
Definition cycle_color (s : cycle) : color :=
  if n s =? 0 then Color 65535 0 0
  else if n s =? 1 then Color 0 65535 0
  else if n s =? 2 then Color 0 0 65535
  else Color 0 0 0.
