(** Transitions: transitions/*.h.  A transition is a tree of template classes; each node
    carries its parameters and its state.  Not modelled: BendTimePowX (float exponents)
    and sounds.  TrWaveX, TrSparkX (wave.h) and TrColorCycleX (colorcycle.h) are in WaveModel. *)
From Coq Require Import ZArith List Bool.
From Verif Require Import ArithModel.
Import ListNotations.
Open Scope Z_scope.

(** What one frame sees: millis() (read once per frame: every part of a transition run in one
    frame sees the same time), num_leds(), the values of the style functions by number (also
    used for random()), is_on() and is_powered(). *)
Record frame := Frame { now : Z; leds : Z; val : nat -> Z; is_on : bool; is_powered : bool }.

Definition i32 (x : Z) : Z := (x + 2147483648) mod 4294967296 - 2147483648.

(** base.h:27-69 AddBend: a number of milliseconds, possibly reversed. *)
Inductive ms := Plain (f : nat) | Reverse (m : ms).
Fixpoint ms_value (f : frame) (m : ms) : Z := match m with Plain n => val f n | Reverse m => ms_value f m end.
(** bend: scale * t / len in unsigned 32 bits, converted back to the type of scale. *)
Fixpoint bend (m : ms) (t len scale : Z) : Z :=
  match m with
  | Plain _ => i32 (u32 (scale * t) / len)
  | Reverse m => i32 (scale - bend m t len scale)
  end.

(** base.h:70-101 TransitionBaseX: restart_, start_millis_, len_ *)
Record base := Base { restart : bool; start : Z; len : Z }.
Definition base0 : base := Base false 0 0.
Definition b_run (f : frame) (m : ms) (b : base) : base :=
  if restart b then Base false (now f) (u32 (ms_value f m)) else b.
Definition b_done (b : base) : bool := len b =? 0.
Definition b_begin (b : base) : base := Base true (start b) (len b).
Definition b_update (f : frame) (m : ms) (b : base) (scale : Z) : base * Z :=
  if b_done b then (b, scale)
  else let t := u32 (now f - start b) in
       if t >? len b then (Base (restart b) (start b) 0, scale)
       else (b, bend m t (len b) scale).

(** fade.h:39-46 the cubic curve, in unsigned 32 bits *)
Definition smooth (x : Z) : Z := Z.shiftr (u32 (Z.shiftr (u32 (x * x)) 14 * u32 (49152 - x))) 16.
(** boing.h:19-27 *)
Definition boing (x : Z) : Z := if Z.land x 16384 =? 0 then Z.land x 16383 else 16384 - Z.land x 16383.
(** wipe.h:23-25 and others: how much of led's 256 units lies in a range *)
Definition covered (rg : range) (led : Z) : Z := r_size (r_and rg (Range (u32 (led * 256)) (u32 (led * 256 + 256)))).

(** How TrRandom, TrSequence and TrSelect choose. *)
Inductive choice := Random (f : nat) | Sequence | Select (f : nat).

Inductive tr :=
| Instant                                                     (* instant.h *)
| Delay (m : ms) (b : base)                                   (* delay.h *)
| Fade (m : ms) (b : base) (fade : Z)                         (* fade.h:12-27 *)
| SmoothFade (m : ms) (b : base) (fade : Z)                   (* fade.h:38-53 *)
| Boing (n : Z) (m : ms) (b : base) (fade : Z)                (* boing.h *)
| Blink (n : Z) (width : nat) (m : ms) (b : base) (blink : bool) (* blink.h *)
| Wipe (m : ms) (b : base) (fade : Z)                         (* wipe.h:15-31 *)
| WipeIn (m : ms) (b : base) (rg : range)                     (* wipe.h:40-62 *)
| CenterWipe (pos : nat) (m : ms) (b : base) (rg : range)     (* center_wipe.h:18-42 *)
| CenterWipeIn (pos : nat) (m : ms) (b : base) (rg : range)   (* center_wipe.h:56-80 *)
| Concat2 (a b : tr) (run_a : bool)                           (* concat.h:120-149 *)
| Concat3 (a : tr) (c : nat) (b : tr) (run_a : bool)          (* concat.h:82-115 *)
| Join (a b : tr)                                             (* join.h:12-30 *)
| JoinR (a b : tr)                                            (* join.h:38-56 *)
| Alt (k : choice) (ts : list tr) (selected : Z) (begin_ : bool) (* random.h, sequence.h, select.h *)
| Extend (m : ms) (b : base) (extending : bool) (t : tr)      (* extend.h *)
| Loop (t : tr)                                               (* loop.h:8-17 *)
| LoopN (n : nat) (loops : Z) (t : tr)                        (* loop.h:27-51 *)
| LoopUntil (pulse : nat) (pulsed : bool) (t out : tr)        (* loop.h:60-104 *)
| DoEffect (always begin_ done_ : bool) (fired : nat) (t : tr). (* doeffect.h; [fired] counts calls of SaberBase::DoEffect *)

(** random.h:8-52 TrHelper2: selection by halving; an index outside selects the last. *)
Definition slot (ts : list tr) (selected : Z) : nat :=
  let n := Z.to_nat (u32 selected) in if (n <? length ts)%nat then n else (length ts - 1)%nat.

Fixpoint begin (t : tr) : tr :=
  match t with
  | Instant => Instant
  | Delay m b => Delay m (b_begin b)
  | Fade m b x => Fade m (b_begin b) x
  | SmoothFade m b x => SmoothFade m (b_begin b) x
  | Boing n m b x => Boing n m (b_begin b) x
  | Blink n w m b x => Blink n w m (b_begin b) x
  | Wipe m b x => Wipe m (b_begin b) x
  | WipeIn m b x => WipeIn m (b_begin b) x
  | CenterWipe p m b x => CenterWipe p m (b_begin b) x
  | CenterWipeIn p m b x => CenterWipeIn p m (b_begin b) x
  | Concat2 a b _ => Concat2 (begin a) b true
  | Concat3 a c b _ => Concat3 (begin a) c b true
  | Join a b => Join (begin a) (begin b)
  | JoinR a b => JoinR (begin a) (begin b)
  | Alt k ts s _ => Alt k ts s true
  | Extend m b _ t => Extend m b false (begin t)
  | Loop t => Loop (begin t)
  | LoopN n _ t => LoopN n (-1) (begin t)
  | LoopUntil p _ t o => LoopUntil p false (begin t) o
  | DoEffect al _ d k t => DoEffect al true (if al then d else false) k (begin t)
  end.

(** The n-th of a list of transitions, and running only the n-th. *)
Definition at_nth {A} (d : A) (g : tr -> A) : list tr -> nat -> A :=
  fix go l n := match l, n with [], _ => d | t :: _, O => g t | _ :: l, S n => go l n end.
Definition on_nth (g : tr -> tr) : list tr -> nat -> list tr :=
  fix go l n := match l, n with [], _ => [] | t :: l, O => g t :: l | t :: l, S n => t :: go l n end.

Fixpoint done (t : tr) : bool :=
  match t with
  | Instant => true
  | Delay _ b | Fade _ b _ | SmoothFade _ b _ | Boing _ _ b _ | Blink _ _ _ b _ | Wipe _ b _ | WipeIn _ b _ | CenterWipe _ _ b _ | CenterWipeIn _ _ b _ => b_done b
  | Concat2 _ b ra | Concat3 _ _ b ra => negb ra && done b
  | Join a b | JoinR a b => done a && done b
  | Alt k ts s bg =>
    (* TrRandom (random.h:68-84) does not look at select_ *)
    if match k with Random _ => false | _ => bg end then false else at_nth true done ts (slot ts s)
  | Extend _ b ex _ => ex && b_done b
  | Loop _ => false
  | LoopN _ loops _ => loops =? 0
  | LoopUntil _ p _ o => p && done o
  | DoEffect al _ d _ t => (if al then false else d) || done t
  end.

(** What the choosers select: random(n), (selected_ + 1) % n in unsigned 32 bits, MOD. *)
Definition choose (f : frame) (k : choice) (n : nat) (selected : Z) : Z :=
  match k with
  | Random g => val f g
  | Sequence => u32 (selected + 1) mod Z.of_nat n
  | Select g => MOD (val f g) (Z.of_nat n)
  end.

(** run, also after begin: [go true f t] is begin() followed by run(), [go false f t] is run().
    (One function because run() of a composite begins and runs its parts;
    TransProofs.go_begin and run_eq show that it computes exactly the bodies of the C++
    run() functions.) *)
Definition began (bg : bool) (b : base) : base := if bg then b_begin b else b.
Fixpoint go (bg : bool) (f : frame) (t : tr) : tr :=
  match t with
  | Instant => Instant
  | Delay m b => Delay m (fst (b_update f m (b_run f m (began bg b)) 0))
  | Fade m b _ => let '(b, x) := b_update f m (b_run f m (began bg b)) 16384 in Fade m b (u32 x)
  | SmoothFade m b _ => let '(b, x) := b_update f m (b_run f m (began bg b)) 32768 in SmoothFade m b (smooth (u32 x))
  | Boing n m b _ => let '(b, x) := b_update f m (b_run f m (began bg b)) (16384 * (n * 2 + 1)) in Boing n m b (boing (u32 x))
  | Blink n w m b _ => let '(b, x) := b_update f m (b_run f m (began bg b)) (32768 * n) in Blink n w m b (Z.land x 32767 <? val f w)
  | Wipe m b _ => let '(b, x) := b_update f m (b_run f m (began bg b)) (256 * leds f) in Wipe m b (u32 x)
  | WipeIn m b _ => let '(b, x) := b_update f m (b_run f m (began bg b)) (256 * leds f) in WipeIn m b (Range (u32 (256 * leds f - x)) (u32 (leds f * 256)))
  | CenterWipe p m b _ =>
    let b := b_run f m (began bg b) in
    let center := u32 (Z.shiftr (val f p * leds f) 7) in
    let '(b, top) := b_update f m b (u32 (256 * leds f - center)) in
    let '(b, bottom) := b_update f m b center in
    CenterWipe p m b (Range (u32 (clampi32 (i32 (center - bottom)) 0 (i32 center))) (u32 (clampi32 (i32 (center + top)) (i32 center) (256 * leds f))))
  | CenterWipeIn p m b _ =>
    let b := b_run f m (began bg b) in
    let center := u32 (Z.shiftr (val f p * leds f) 7) in
    let '(b, top) := b_update f m b (u32 (256 * leds f - center)) in
    let '(b, bottom) := b_update f m b center in
    CenterWipeIn p m b (Range (u32 (clampi32 (i32 bottom) 0 (i32 center))) (u32 (clampi32 (i32 (256 * leds f - top)) (i32 center) (256 * leds f))))
  | Concat2 a b ra =>
    if bg || ra then let a := go bg f a in if done a then Concat2 a (go true f b) false else Concat2 a b true
    else Concat2 a (go false f b) false
  | Concat3 a c b ra =>
    if bg || ra then let a := go bg f a in if done a then Concat3 a c (go true f b) false else Concat3 a c b true
    else Concat3 a c (go false f b) false
  | Join a b => Join (go bg f a) (go bg f b)
  | JoinR a b => JoinR (go bg f a) (go bg f b)
  | Alt k ts s bg' =>
    if bg || bg' then let s := choose f k (length ts) s in Alt k (on_nth (go true f) ts (slot ts s)) s false
    else Alt k (on_nth (go false f) ts (slot ts s)) s false
  | Extend m b ex t =>
    let t := go bg f t in
    let ex := if bg then false else ex in
    let '(b, ex) := if negb ex && done t then (b_begin b, true) else (b, ex) in
    let b := b_run f m b in
    Extend m (if ex then fst (b_update f m b 0) else b) ex t
  | Loop t => Loop (if bg || done t then go true f t else go false f t)
  | LoopN n loops t =>
    let loops := if bg || (loops <? 0) then val f n + 1 else loops in
    if (loops >? 0) && done (if bg then begin t else t) then LoopN n (loops - 1) (if bg || (loops >? 1) then go true f t else go false f t)
    else LoopN n loops (go bg f t)
  | LoopUntil p pulsed t o =>
    let t := if bg || done t then go true f t else go false f t in
    if negb bg && pulsed then LoopUntil p true t (go false f o)
    else if negb (val f p =? 0) then LoopUntil p true t (go true f o)
    else LoopUntil p false t o
  | DoEffect al bg' d k t =>
    let k := if (bg || bg') && (al || is_on f) then S k else k in
    let d := if bg && negb al then false else d in
    DoEffect al false (if al then d else d || (negb (is_on f) && negb (is_powered f))) k (go bg f t)
  end.
Definition run (f : frame) (t : tr) : tr := go false f t.

Section Color.
  (** Colors with MixColors(a, b, x, shift) (common/color.h:536-556), and what the color
      arguments show at a led this frame. *)
  Context {C : Type}.
  Variable mix : C -> C -> Z -> Z -> C.
  Variable colors : nat -> Z -> C.
  Fixpoint getColor (t : tr) (a b : C) (led : Z) : C :=
    match t with
    | Instant => b
    | Delay _ s => if b_done s then b else a
    | Fade _ _ x | SmoothFade _ _ x | Boing _ _ _ x => mix a b x 14
    | Blink _ _ _ _ x => if x then a else b
    | Wipe _ _ x => mix a b (covered (Range 0 x) led) 8
    | WipeIn _ _ rg | CenterWipe _ _ _ rg => mix a b (covered rg led) 8
    | CenterWipeIn _ _ _ rg => mix b a (covered rg led) 8
    | Concat2 t u ra => if ra then getColor t a b led else getColor u a b led
    | Concat3 t c u ra =>
      if negb ra && done u then b
      else if ra then getColor t a (colors c led) led else getColor u (colors c led) b led
    | Join t u => getColor u (getColor t a b led) b led
    | JoinR t u => getColor u a (getColor t a b led) led
    | Alt _ ts s _ => at_nth b (fun t => getColor t a b led) ts (slot ts s)
    | Extend _ _ _ t | Loop t | LoopN _ _ t => getColor t a b led
    | LoopUntil _ p t o => if p then getColor o (getColor t a a led) b led else getColor t a a led
    | DoEffect al _ d _ t => if negb al && d then b else getColor t a b led
    end.
End Color.

(** base.h:104-131 TransitionHelper *)
Record helper := Helper { h_tr : tr; active : bool }.
Definition h_begin (h : helper) : helper := Helper (begin (h_tr h)) true.
Definition h_run (f : frame) (h : helper) : helper :=
  if active h then let t := run f (h_tr h) in Helper t (negb (done t)) else h.
Definition h_color {C} (mix : C -> C -> Z -> Z -> C) (colors : nat -> Z -> C) (h : helper) (a b : C) (led : Z) : C :=
  if active h then getColor mix colors (h_tr h) a b led else b.
