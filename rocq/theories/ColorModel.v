(** Colors: common/color.h. *)
From Coq Require Import ZArith List Bool.
From Verif Require Import ArithModel.
Import ListNotations.
Open Scope Z_scope.

Definition u8 (x : Z) : Z := x mod 256.
Definition u16 (x : Z) : Z := x mod 65536.

(** color.h:6-150 Color8 and 203-366 Color16: three channels. *)
Record color := Color { r : Z; g : Z; b : Z }.
Definition map1 (f : Z -> Z) (a : color) : color := Color (f (r a)) (f (g a)) (f (b a)).
Definition map2 (f : Z -> Z -> Z) (a o : color) : color := Color (f (r a) (r o)) (f (g a) (g o)) (f (b a) (b o)).

(** One channel of mix / mix2 / mix3 with shift 8 / 14 / 15, stored in [wrap] bits.
    No int overflow: 2^15 * 65535 < 2^31. *)
Definition mixc (wrap : Z -> Z) (shift x a o : Z) : Z := wrap (Z.shiftr ((2 ^ shift - x) * a + x * o) shift).
(** color.h:12-30 Color8::mix, mix2, mix3 *)
Definition c8_mix (a o : color) (x : Z) : color := map2 (mixc u8 8 x) a o.
Definition c8_mix2 (a o : color) (x : Z) : color := map2 (mixc u8 14 x) a o.
Definition c8_mix3 (a o : color) (x : Z) : color := map2 (mixc u8 15 x) a o.
(** color.h:209-234 Color16::mix, mix2, mix3, mix_clamped *)
Definition c16_mix (a o : color) (x : Z) : color := map2 (mixc u16 8 x) a o.
Definition c16_mix2 (a o : color) (x : Z) : color := map2 (mixc u16 14 x) a o.
Definition c16_mix3 (a o : color) (x : Z) : color := map2 (mixc u16 15 x) a o.
Definition c16_mix_clamped (a o : color) (x : Z) : color :=
  map2 (fun a o => u16 (clampi32 (Z.shiftr ((256 - x) * a + x * o) 8) 0 65536)) a o.

(** color.h:31-37 Color8::select and 235-242 Color16::select; [top] is 255 or 65535
    (255 * 255 fits int, 65535 * 65535 fits uint32_t). *)
Definition select (top : Z) (a o : color) : Z :=
  let one ret c o := if o =? 0 then ret else Z.min ret (c * top / o) in
  one (one (one top (r a) (r o)) (g a) (g o)) (b a) (b o).

(** color.h:132-134 Color8 * uint8_t *)
Definition c8_scale (c : color) (v : Z) : color := map1 (fun c => u8 (c * v / 255)) c.
(** color.h:136-138 Color8 | Color8 *)
Definition c8_max (a o : color) : color := map2 Z.max a o.
(** color.h:206 Color16(Color8) *)
Definition c16_of_c8 (c : color) : color := map1 (fun c => u16 (c * 257)) c.

(** color.h:196-201 *)
Definition dither_matrix : list (list Z) :=
  [[-127; 111; -76; 94]; [9; -59; 60; -8]; [-93; 77; -110; 127]; [43; -25; 26; -42]].
(** color.h:245-260 dither(n), portable version *)
Definition dither (c : color) (n : Z) : color := map1 (fun c => u8 (clampi32 (Z.shiftr (c + n) 8) 0 255)) c.
(** the same on Cortex-M4: saturating 16-bit add and subtract instructions *)
Definition uqadd16 (a n : Z) : Z := Z.min (a + n) 65535.
Definition uqsub16 (a n : Z) : Z := Z.max (a - n) 0.
Definition dither_m4 (c : color) (n : Z) : color :=
  map1 (fun c => u8 (Z.shiftr (if n <? 0 then uqsub16 c (- n) else uqadd16 c n) 8)) c.
(** color.h:262-264 dither(x, y) *)
Definition dither_xy (c : color) (x y : Z) : color :=
  dither c (nth (Z.to_nat (Z.land y 3)) (nth (Z.to_nat (Z.land x 3)) dither_matrix []) 0).

(** ** Byte orders (color.h:39-130) *)
Definition NONE : Z := 0.
Definition BGR : Z := 0x321. Definition BRG : Z := 0x312. Definition GBR : Z := 0x231.
Definition GRB : Z := 0x213. Definition RBG : Z := 0x132. Definition RGB : Z := 0x123.
Definition GRBW : Z := 0x2134.
Definition GRBw : Z := 0x6574.
Definition rgb_orders : list Z := [BGR; BRG; GBR; GRB; RBG; RGB].
Definition rgbw_orders : list Z :=
  [0x3214; 0x3124; 0x2314; 0x2134; 0x1324; 0x1234; 0x4321; 0x4312; 0x4231; 0x4213; 0x4132; 0x4123].
Definition eco_orders : list Z :=
  [0x7654; 0x7564; 0x6754; 0x6574; 0x5764; 0x5674; 0x4765; 0x4756; 0x4675; 0x4657; 0x4576; 0x4567].
(** color.h:85-90 num_bytes *)
Definition num_bytes (o : Z) : Z := if o <=? 15 then 1 else if o <=? 4095 then 3 else 4.
(** color.h:100-110 getByte, 266-276 getShort *)
Definition digit (o i : Z) : Z := Z.land (Z.shiftr o (i * 4)) 7.
Definition white (c : color) : Z := Z.min (r c) (Z.min (g c) (b c)).
Definition getByte (c : color) (o i : Z) : Z :=
  let d := digit o i in
  if d =? 2 then g c else if d =? 3 then b c
  else if d =? 4 then white c
  else if d =? 5 then r c - white c
  else if d =? 6 then g c - white c
  else if d =? 7 then b c - white c
  else r c.
(** color.h:113-122 combine_byteorder; a negative shift count is undefined (None). *)
Fixpoint combine_loop (n : nat) (o1 o2 ret : Z) : option Z :=
  match n with
  | O => Some ret
  | S i =>
    let pos := 3 - digit o1 (Z.of_nat i) in
    if pos <? 0 then None
    else combine_loop i o1 o2 (Z.lor ret (Z.shiftl (digit o2 pos) (Z.of_nat i * 4)))
  end.
Definition combine_byteorder (o1 o2 : Z) : option Z := combine_loop (Z.to_nat (num_bytes o1)) o1 o2 0.
(** color.h:126-134 invert_byteorder *)
Fixpoint invert_loop (n : nat) (o ret : Z) : option Z :=
  match n with
  | O => Some ret
  | S i =>
    let pos := 3 - digit o (Z.of_nat i) in
    if pos <? 0 then None
    else invert_loop i o (Z.lor ret (Z.shiftl (3 - Z.of_nat i) (pos * 4)))
  end.
Definition invert_byteorder (o : Z) : option Z := invert_loop (Z.to_nat (num_bytes o)) o 0.

(** ** Hue rotation (color.h:287-321) *)
Definition rot_f (n C MAX : Z) : Z :=
  let k := Z.rem n 98304 in
  MAX - Z.quot (C * clampi32 (Z.min k (65536 - k)) 0 16384) 16384.
Definition rotate (c : color) (angle : Z) : color :=
  if angle =? 0 then c
  else
    let MAX := Z.max (r c) (Z.max (g c) (b c)) in
    let MIN := Z.min (r c) (Z.min (g c) (b c)) in
    let C := MAX - MIN in
    if C =? 0 then c
    else
      let H := if r c =? MAX then Z.quot (16384 * (g c - b c)) C
               else if g c =? MAX then Z.quot (16384 * (b c - r c)) C + 16384 * 2
               else Z.quot (16384 * (r c - g c)) C + 16384 * 4 in
      let H := H + angle in
      Color (u16 (rot_f (5 * 16384 + H) C MAX)) (u16 (rot_f (3 * 16384 + H) C MAX)) (u16 (rot_f (1 * 16384 + H) C MAX)).

(** ** Layers.  The overdrive flag only selects between two flags and is kept; the _nod
    types are the same computations with the flag false. *)
(** color.h:405-427 Color32 operations: uint32_t channels, [>>] narrows to uint16_t. *)
Definition mul32 (c x : Z) : Z := u32 (c * u16 x).
(** color.h:377-395 SimpleColor / OverDriveColor *)
Record opaque := Opaque { oc : color; o_od : bool }.
(** color.h:430-470 RGBA_um(_nod): color not multiplied by alpha *)
Record rgba_um := UM { uc : color; ua : Z; u_od : bool }.
(** color.h:472-510 RGBA(_nod): color multiplied by alpha *)
Record rgba := PM { pc : color; pa : Z; p_od : bool }.

(** color.h:475,494-496 conversion RGBA_um -> RGBA *)
Definition pm_of_um (a : rgba_um) : rgba := PM (map1 (fun c => u16 (Z.shiftr (mul32 c (ua a)) 15)) (uc a)) (ua a) (u_od a).
(** color.h:493 conversion RGBA_nod -> RGBA (both premultiplied) *)
Definition pm_of_nod (a : rgba) : rgba := PM (map1 (fun c => u16 (Z.shiftr (mul32 c (pa a)) 15)) (pc a)) (pa a) false.
Definition pm_of_opaque (o : opaque) : rgba := PM (oc o) 32768 (o_od o).
(** color.h:512-534 scaling the opacity *)
Definition opaque_mul (a : opaque) (x : Z) : rgba_um := UM (oc a) (u16 x) (o_od a).
Definition um_mul (a : rgba_um) (x : Z) : rgba_um := UM (uc a) (u16 (Z.shiftr (ua a * u16 x) 15)) (u_od a).
Definition pm_mul (a : rgba) (x : Z) : rgba :=
  PM (map1 (fun c => u16 (Z.shiftr (mul32 c x) 15)) (pc a)) (u16 (Z.shiftr (pa a * u16 x + 32767) 15)) (p_od a).
(** color.h:536-556 MixColors *)
Definition mix32 (x shift a b : Z) : Z := u16 (Z.shiftr (u32 (mul32 a (2 ^ shift - x) + mul32 b x)) shift).
Definition mix_opaque (a o : opaque) (x shift : Z) : opaque :=
  Opaque (map2 (mix32 x shift) (oc a) (oc o)) (if x >? 2 ^ (shift - 1) then o_od o else o_od a).
Definition mix_pm (a o : rgba) (x shift : Z) : rgba :=
  PM (map2 (mix32 x shift) (pc a) (pc o))
     (u16 (Z.shiftr (pa a * (2 ^ shift - x) + pa o * x + (2 ^ shift - 1)) shift))
     (if x >? 2 ^ (shift - 1) then p_od o else p_od a).
(** color.h:592-630 opaque << layer *)
Definition paint32 (ac oa b o : Z) : Z := u16 (Z.shiftr (u32 (mul32 b ac + mul32 o oa)) 15).
Definition addc (ac b o : Z) : Z := u16 (u16 (Z.shiftr (mul32 b ac) 15) + o).
Definition opaque_over_um (base : opaque) (over : rgba_um) : opaque :=
  if ua over =? 0 then base
  else let ac := u16 (32768 - ua over) in
       Opaque (map2 (paint32 ac (ua over)) (oc base) (uc over)) (if ua over >=? 16384 then u_od over else o_od base).
Definition opaque_over_pm (base : opaque) (over : rgba) : opaque :=
  if pa over =? 0 then base
  else let ac := u16 (32768 - pa over) in
       Opaque (map2 (addc ac) (oc base) (pc over)) (if pa over >=? 16384 then p_od over else o_od base).
(** color.h:632-668 unmultiplied << layer *)
Definition um_over_um (base over : rgba_um) : rgba :=
  let ac := u16 (32768 - ua over) in
  let ba := Z.shiftr (ua base * ac) 15 in
  PM (map2 (paint32 ba (ua over)) (uc base) (uc over)) (u16 (ba + ua over)) (if ua over >? 16384 then u_od over else u_od base).
Definition um_over_pm (base : rgba_um) (over : rgba) : rgba :=
  let ac := u16 (32768 - pa over) in
  let ba := Z.shiftr (ua base * ac) 15 in
  PM (map2 (addc ba) (uc base) (pc over)) (u16 (ba + pa over)) (if pa over >? 16384 then p_od over else u_od base).
(** color.h:670-705 premultiplied << layer *)
Definition pm_over_um (base : rgba) (over : rgba_um) : rgba :=
  let ac := u16 (32768 - ua over) in
  PM (map2 (paint32 ac (ua over)) (pc base) (uc over)) (u16 (Z.shiftr (pa base * ac + 32767) 15 + ua over))
     (if ua over >=? 16384 then u_od over else p_od base).
Definition pm_over_pm (base over : rgba) : rgba :=
  let ac := u16 (32768 - pa over) in
  PM (map2 (addc ac) (pc base) (pc over)) (u16 (Z.shiftr (pa base * ac + 32767) 15 + pa over))
     (if pa over >=? 16384 then p_od over else p_od base).
