(** Three transitions that draw a shape of their own: TrWaveX and TrSparkX
    (transitions/wave.h) and TrColorCycleX (transitions/colorcycle.h).  Time, restart and
    length are TransitionBaseX of TransModel.  Simplification: COLOR is not modelled; what is
    modelled is the weight, the third argument of MixColors, that each LED gives to it. *)
From Coq Require Import ZArith List Bool QArith Qround.
From Verif Require Import ArithModel TransModel SparkModel PovModel.
Import ListNotations.
Local Open Scope Z_scope.

(** An int, or nothing when the C++ expression overflows. *)
Definition int (x : Z) : option Z := if (-2147483648 <=? x) && (x <=? 2147483647) then Some x else None.
Definition ibind {A B} (o : option A) (k : A -> option B) : option B := match o with Some x => k x | None => None end.

(** ** wave.h *)

(** wave.h:38-49 and 96-105: TransitionBaseX, center_, size_, mix_, num_leds_, offset_.
    TrSparkX has no mix_ (0 here). *)
Record wv := Wv { w_base : base; w_center : Z; w_size : Z; w_mix : Z; w_leds : Z; w_offset : Z }.
(** base.h:84 begin *)
Definition w_begin (w : wv) : wv :=
  Wv (b_begin (w_base w)) (w_center w) (w_size w) (w_mix w) (w_leds w) (w_offset w).

(** wave.h:22-36 TrWaveX::run.  The style functions of the frame: 1 is WAVE_CENTER, 2 is
    WAVE_SIZE, 3 is WAVE_MS; [m] is FADEOUT_MS.  [None]: division by zero. *)
Definition wave_run (f : frame) (m : ms) (w : wv) : option wv :=
  let center := if restart (w_base w) then val f 1%nat else w_center w in
  let size := if restart (w_base w) then val f 2%nat else w_size w in
  let b := b_run f m (w_base w) in
  let (b, u) := b_update f m b 32768 in
  if u32 (val f 3%nat) =? 0 then None
  else Some (Wv b center size (32768 - u) (leds f)
                (i32 (u32 (u32 (now f - start b) * 32768) / u32 (val f 3%nat)))).
(** wave.h:83-94 TrSparkX::run; [m] is SPARK_MS. *)
Definition spark_run (f : frame) (m : ms) (w : wv) : wv :=
  let center := if restart (w_base w) then val f 1%nat else w_center w in
  let size := if restart (w_base w) then val f 2%nat else w_size w in
  let b := b_run f m (w_base w) in
  let (b, u) := b_update f m b 32768 in
  Wv b center size 0 (leds f) u.

(** wave.h:53-54 and 109-110: how far the LED is from the front of the wave.  [None]: an int
    overflow (also abs of the smallest int) or a division by zero. *)
Definition w_dist (w : wv) (led : Z) : option Z :=
  ibind (int (led * 32768)) (fun p =>
  if w_leds w =? 0 then None else
  ibind (int (w_center w - Z.quot p (w_leds w))) (fun d =>
  ibind (int (Z.abs d)) (fun dist =>
  ibind (int (dist - w_offset w)) (fun e =>
  ibind (int (Z.abs e)) (fun e =>
  ibind (int (e * w_size w)) (fun x => Some (Z.shiftr x 15))))))).
(** wave.h:51-62 TrWaveX::getColor: the weight.  [None] also for a read outside blast_hump. *)
Definition wave_mix (w : wv) (led : Z) : option Z :=
  ibind (w_dist w led) (fun N =>
  if N <? 32 then
    if N <? 0 then None
    else ibind (nth_error blast_hump (Z.to_nat N)) (fun h => Some (Z.shiftr (h * w_mix w) 8))
  else Some 0).
(** wave.h:107-118 TrSparkX::getColor *)
Definition spark_mix (w : wv) (led : Z) : option Z :=
  ibind (w_dist w led) (fun N =>
  if N <? 32 then
    if N <? 0 then None
    else ibind (nth_error blast_hump (Z.to_nat N)) (fun h => Some (Z.shiftl h 7))
  else Some 0).

(** Frame after frame: begin(), then run() once per frame. *)
Fixpoint wave_runs (m : ms) (w : wv) (fs : list frame) : option wv :=
  match fs with
  | [] => Some w
  | f :: fs => ibind (wave_run f m w) (fun w => wave_runs m w fs)
  end.
Fixpoint spark_runs (m : ms) (w : wv) (fs : list frame) : wv :=
  match fs with
  | [] => w
  | f :: fs => spark_runs m (spark_run f m w) fs
  end.

(** ** colorcycle.h *)

(** base.h:29-68 bend and update for T = float.  Simplification: floats are rationals. *)
Fixpoint bendq (m : ms) (t len : Z) : Q :=
  match m with
  | Plain _ => (inject_Z t / inject_Z len)%Q
  | Reverse m => (1 - bendq m t len)%Q
  end.
Definition b_updateq (f : frame) (m : ms) (b : base) : base * Q :=
  if b_done b then (b, 1%Q)
  else let t := u32 (now f - start b) in
       if t >? len b then (Base (restart b) (start b) 0, 1%Q)
       else (b, bendq m t (len b)).

(** colorcycle.h:55-60: TransitionBaseX, fade_, pos_, start_, end_, num_leds_, last_micros_.
    start_, end_, num_leds_ and last_micros_ are not initialised: they start as anything. *)
Record cyc := Cyc { y_base : base; y_fade : Q; y_pos : Q; y_start : Z; y_end : Z; y_num : Z; y_last : Z }.
Definition y_begin (c : cyc) : cyc :=
  Cyc (b_begin (y_base c)) (y_fade c) (y_pos c) (y_start c) (y_end c) (y_num c) (y_last c).
(** colorcycle.h:20-41 TrColorCycleX::run; [us] is micros().  Simplification: floats are
    rationals, so that current_percentage is 100 exactly when fade_ is 1. *)
Definition y_run (rpm0 rpm1 : Z) (f : frame) (us : Z) (m : ms) (c : cyc) : cyc :=
  let b := b_run f m (y_base c) in
  let delta := u32 (us - y_last c) in
  let delta := if delta >? 1000000 then 1 else delta in
  let (b, fade) := b_updateq f m b in
  let rpm := (inject_Z rpm0 * (1 - fade) + inject_Z rpm1 * fade)%Q in
  let pos := fract (y_pos c + inject_Z delta / 60000000 * rpm)%Q in
  let num := u32 (leds f * 16384) in
  let s := to_int (pos * inject_Z num) in
  if Qeq_bool fade 1 then Cyc b fade pos 0 num num us
  else if Qeq_bool fade 0 then Cyc b fade pos 0 0 num us
  else Cyc b fade pos s (to_int (fract (pos + fade) * inject_Z num)) num us.
(** colorcycle.h:42-53 getColor: the weight, out of 16384, given to the new colour *)
Definition y_mix (c : cyc) (led : Z) : Z :=
  let l := Range (u32 (led * 16384)) (u32 (led * 16384 + 16384)) in
  if y_start c <=? y_end c then r_size (r_and (Range (y_start c) (y_end c)) l)
  else u32 (r_size (r_and (Range 0 (y_end c)) l) + r_size (r_and (Range (y_start c) (y_num c)) l)).
Fixpoint y_runs (rpm0 rpm1 : Z) (m : ms) (c : cyc) (fs : list (frame * Z)) : cyc :=
  match fs with
  | [] => c
  | (f, us) :: fs => y_runs rpm0 rpm1 m (y_run rpm0 rpm1 f us m c) fs
  end.
