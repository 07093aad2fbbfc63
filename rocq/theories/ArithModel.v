(** Integer helpers: cyclic time stamps, MOD, clamps, ranges, my_sqrt. *)
From Coq Require Import ZArith List Bool.
From Verif Require Import Machine.
Import ListNotations.
Open Scope Z_scope.

(** uint32_t arithmetic: results are taken modulo 2^32. *)
Definition u32 (x : Z) : Z := x mod 4294967296.

(** common/cyclint.h:9  NMASK for T = uint32_t. *)
Definition nmask32 : Z := 2147483648.

(** common/cyclint.h:11-14  operator+ / operator- (T or int argument). *)
Definition cyc_add (v o : Z) : Z := u32 (v + o).
Definition cyc_sub (v o : Z) : Z := u32 (v - o).

(** common/cyclint.h:17-22  comparisons on the stored 32-bit values. *)
Definition cyc_eq (v o : Z) : bool := v =? o.
Definition cyc_lt (v o : Z) : bool := negb (Z.land (u32 (v - o)) nmask32 =? 0).
Definition cyc_le (v o : Z) : bool := Z.land (u32 (o - v)) nmask32 =? 0.
Definition cyc_gt (v o : Z) : bool := negb (Z.land (u32 (o - v)) nmask32 =? 0).
Definition cyc_ge (v o : Z) : bool := Z.land (u32 (v - o)) nmask32 =? 0.

(** common/math.h:19-23 clampi32, 24-26 clamptoi16, 27-29 clamptoi24. *)
Definition clampi32 (x a b : Z) : Z :=
  if x <? a then a else if x >? b then b else x.
Definition clamptoi16 (x : Z) : Z := clampi32 x (-32768) 32767.
Definition clamptoi24 (x : Z) : Z := clampi32 x (-8388608) 8388607.

(** common/math.h:31-34 MOD.  C's % is [Z.rem], ~ is [Z.lnot]. *)
Definition MOD (x m : Z) : Z :=
  if x >=? 0 then Z.rem x m else m + Z.lnot (Z.rem (Z.lnot x) m).

(** common/range.h:4-10  a Range of uint32_t; 11-14 size. *)
Record range := Range { r_start : Z; r_end : Z }.
Definition r_size (r : range) : Z :=
  if r_start r >=? r_end r then 0 else u32 (r_end r - r_start r).
(** common/range.h:15-18 operator&. *)
Definition r_and (a b : range) : range :=
  Range (Z.max (r_start a) (r_start b)) (Z.min (r_end a) (r_end b)).
(** common/range.h:26-28 filled area of 0..end. *)
Definition stripes0 (width md e : Z) : Z :=
  u32 (u32 ((e / md) * width) + Z.min width (e mod md)).
(** common/range.h:32-34 filled area of start..end. *)
Definition stripes1 (r : range) (width md : Z) : Z :=
  u32 (stripes0 width md (r_end r) - stripes0 width md (r_start r)).
(** common/range.h:38-43 stripes at N*mod+start .. N*mod+end. *)
Definition stripes (r stripe : range) (md : Z) : Z :=
  let shift := u32 (md - r_start stripe) in
  let tmp := Range (u32 (r_start r + shift)) (u32 (r_end r + shift)) in
  stripes1 tmp (r_size stripe) md.

(** Signed 32-bit overflow is undefined behaviour: [None]. *)
Definition int_ok (x : Z) : bool := (-2147483648 <=? x) && (x <=? 2147483647).
Definition imul (a b : Z) : option Z :=
  if int_ok (a * b) then Some (a * b) else None.
Definition iadd (a b : Z) : option Z :=
  if int_ok (a + b) then Some (a + b) else None.

(** sound/dynamic_mixer.h:27-54 my_sqrt.  [fuel] bounds each while loop; running
    out is the distinct outcome [SFuel]; signed overflow is [SUB]. *)
Inductive sres := SOk (root : Z) | SUB | SFuel.

(** lines 33-38: search downwards; result is (under, over). *)
Fixpoint sqrt_down (fuel : nat) (x under over step : Z) : option (option (Z * Z)) :=
  match fuel with
  | O => None
  | S f =>
    match imul under under with
    | None => Some None
    | Some q =>
      if q >? x then
        let over := under in
        match iadd step step with
        | None => Some None
        | Some step' =>
          let under := under - step in
          if under <=? 0 then Some (Some (0, over))
          else sqrt_down f x under over step'
        end
      else Some (Some (under, over))
    end
  end.

(** lines 42-47: search upwards. *)
Fixpoint sqrt_up (fuel : nat) (x under over step : Z) : option (option (Z * Z)) :=
  match fuel with
  | O => None
  | S f =>
    match imul over over with
    | None => Some None
    | Some q =>
      if q <=? x then
        match iadd over step, iadd step step with
        | Some over', Some step' => sqrt_up f x over over' step'
        | _, _ => Some None
        end
      else Some (Some (under, over))
    end
  end.

(** lines 49-56: bisection. *)
Fixpoint sqrt_bisect (fuel : nat) (x under over : Z) : sres :=
  match fuel with
  | O => SFuel
  | S f =>
    if under + 1 <? over then
      match iadd over under with
      | None => SUB
      | Some s =>
        let mid := Z.shiftr s 1 in
        match imul mid mid with
        | None => SUB
        | Some q => if q >? x then sqrt_bisect f x under mid
                    else sqrt_bisect f x mid over
        end
      end
    else SOk under
  end.

Definition sqrt_fuel : nat := 40.

(** lines 27-57: the root is also remembered in last_square_, so the result is
    both the return value and the next [last]. For x <= 0, last_square_ is kept. *)
Definition my_sqrt (last x : Z) : sres :=
  if x <=? 0 then SOk 0 else
  match imul last last with
  | None => SUB
  | Some q =>
    let bracket :=
      if q >? x then sqrt_down sqrt_fuel x (last - 1) last 1
      else sqrt_up sqrt_fuel x last (last + 1) 1 in
    match bracket with
    | None => SFuel
    | Some None => SUB
    | Some (Some (under, over)) => sqrt_bisect sqrt_fuel x under over
    end
  end.
(** The remembered guess after a call. *)
Definition my_sqrt_last (last x : Z) : Z :=
  if x <=? 0 then last else
  match my_sqrt last x with SOk r => r | _ => last end.

(** A history of calls on one mixer: last_square_ is threaded through. *)
Definition sqrt_step (last x : Z) : Z * sres := (my_sqrt_last last x, my_sqrt last x).
Definition sqrt_calls : Z -> list Z -> list sres := run_outs sqrt_step.
