(** Effects and blade sets: common/saber_base.h, blades/blade_base.h. *)
From Coq Require Import ZArith List Bool.
Import ListNotations.
Open Scope Z_scope.

(** saber_base.h:139-147 BitSetType: the number of bits for [n] blades; onceperblade.h
    rejects more than 20 blades. *)
Definition set_width (n : Z) : Z := if n <? 8 then 8 else if n <? 16 then 16 else if n <? 32 then 32 else 64.
(** saber_base.h:137-202 BladeSet: the bit pattern, 0 <= bits < 2^w.  The results are
    converted back to the unsigned type, hence the mod in [bs_not] and [bs_from]. *)
Definition bs_empty : Z := 0.
Definition bs_from (w blade : Z) : Z := Z.shiftl 1 blade mod 2 ^ w.
Definition bs_or (a b : Z) : Z := Z.lor a b.
Definition bs_and (a b : Z) : Z := Z.land a b.
Definition bs_not (w a : Z) : Z := Z.lnot a mod 2 ^ w.
Definition bs_all (w : Z) : Z := bs_not w bs_empty.
Definition bs_has (a blade : Z) : bool := negb (Z.land a (Z.shiftl 1 blade) =? 0).
Definition bs_off (a : Z) : bool := a =? 0.
Definition bs_on (a : Z) : bool := negb (a =? 0).

(** saber_base.h:19-113 the effect types that are treated specially by the code modelled
    here; every other one is [EOther n]. *)
Inductive effect_type :=
| EClash | EClashUpdate | EStab | ELockupBegin | ELockupEnd | EDragBegin | EDragEnd
| EIgnition | ERetraction | EBlast | ENewFont | EOther (n : Z).
Definition effect_type_eqb (a b : effect_type) : bool :=
  match a, b with
  | EClash, EClash | EClashUpdate, EClashUpdate | EStab, EStab | ELockupBegin, ELockupBegin | ELockupEnd, ELockupEnd
  | EDragBegin, EDragBegin | EDragEnd, EDragEnd | EIgnition, EIgnition | ERetraction, ERetraction
  | EBlast, EBlast | ENewFont, ENewFont => true
  | EOther m, EOther n => m =? n
  | _, _ => false
  end.
(** saber_base.h:340-348 LockupType *)
Inductive lockup_type := LNone | LNormal | LDrag | LArmed | LAutofire | LMelt | LLightning.
(** saber_base.h:278-284 OffType *)
Inductive off_type := OffNormal | OffFast | OffBlast | OffIdle | OffCancelPreon.
(** saber_base.h:206-237 EffectLocation *)
Record location := Loc { fixed : Z; blades : Z }.
(** saber_base.h:239-246 BladeEffect.  sound_length, a float, is an uninterpreted value. *)
Record effect := Effect { type : effect_type; start_micros : Z; loc : location; sound_length : Z; wavnum : Z }.

(** saber_base.h:349-350, 586-588, 634-636 the static members.  effects_[10] is a list of ten entries, any
    contents initially. *)
Record saber := Saber { effects_ : list effect; num_effects_ : nat; on_ : Z; lockup_ : lockup_type; lockup_blades_ : Z;
                        last_motion_ : Z }.
Definition NELEM : nat := 10.

(** saber_base.h:622-624 for (i = n; i; i--) effects_[i] = effects_[i-1]; *)
Fixpoint set_nth (l : list effect) (i : nat) (e : effect) : list effect :=
  match l, i with
  | [], _ => []
  | _ :: l, O => e :: l
  | x :: l, S i => x :: set_nth l i e
  end.
Definition dummy : effect := Effect (EOther 0) 0 (Loc 0 0) 0 0.
Fixpoint shift_down (l : list effect) (i : nat) : list effect :=
  match i with
  | O => l
  | S j => shift_down (set_nth l i (nth j l dummy)) j
  end.

(** saber_base.h:592-621 which type is stored, if any *)
Definition stored_type (t : effect_type) (lk : lockup_type) : option effect_type :=
  match t with
  | ELockupBegin => match lk with LDrag => Some EDragBegin | LNormal => Some t | _ => None end
  | ELockupEnd => match lk with LDrag => Some EDragEnd | LNormal => Some t | _ => None end
  | EClashUpdate => None
  | _ => Some t
  end.
(** saber_base.h:591-631 PushEffect.  [now] is micros(). *)
Definition push_effect (s : saber) (now : Z) (t : effect_type) (l : location) (len wav : Z) : saber :=
  let num := match t with ENewFont => O | _ => num_effects_ s end in
  match stored_type t (lockup_ s) with
  | None => s
  | Some t' =>
    let arr := shift_down (effects_ s) (Nat.min num (NELEM - 1)) in
    Saber (set_nth arr 0 (Effect t' now l len wav)) (Nat.min (num + 1) NELEM) (on_ s) (lockup_ s) (lockup_blades_ s) (last_motion_ s)
  end.

(** saber_base.h:577-584 GetEffects: the loop; the result is the first num_effects_
    entries of effects_. *)
Fixpoint expire (arr : list effect) (now : Z) (n : nat) : nat :=
  match n with
  | O => O
  | S m => if (now - start_micros (nth m arr dummy)) mod 2 ^ 32 >? 7000000 then expire arr now m else n
  end.
Definition get_effects (s : saber) (now : Z) : saber * list effect :=
  let n := expire (effects_ s) now (num_effects_ s) in
  (Saber (effects_ s) n (on_ s) (lockup_ s) (lockup_blades_ s) (last_motion_ s), firstn n (effects_ s)).

(** blade_base.h:92-127 OneshotEffectDetector<effect>::Find.  [stab] is match_stab (116-118):
    whether the blade is number 1, has no other stab handler and effect == EFFECT_CLASH. *)
Definition find_effect (want : effect_type) (stab : bool) (blade : Z) (l : list effect) : option effect :=
  find (fun e => bs_has (blades (loc e)) blade &&
                 (effect_type_eqb want (type e) || (stab && effect_type_eqb (type e) EStab))) l.
(** blade_base.h:128-135 Detect.  [last] is last_detected_. *)
Definition detect (want : effect_type) (stab : bool) (blade : Z) (s : saber) (last now : Z) : saber * Z * option effect :=
  let '(s, l) := get_effects s now in
  match find_effect want stab blade l with
  | None => (s, last, None)
  | Some e => if start_micros e =? last then (s, last, None) else (s, start_micros e, Some e)
  end.

(** Requests to the class, each made at a real time in microseconds since boot (unbounded);
    micros() is that time mod 2^32, millis() the milliseconds mod 2^32.  [len] and [wav]
    are sound_length and sound_number as the listeners leave them (371-381). *)
Inductive request :=
| DoEffect (t : effect_type) (l : location) (len wav : Z)  (* 422-425, 466-470 *)
| SetLockup (k : lockup_type) (bs : Z)                     (* 356-359 *)
| TurnOnAll (len wav : Z) | TurnOn (l : location) (len wav : Z)   (* 293-306 *)
| TurnOffAll (o : off_type) (len wav : Z) | TurnOff (o : off_type) (l : location) (len wav : Z) (* 307-321 *)
| RequestMotion                                            (* 330-332 *)
| GetEffects                                               (* 577-584 *)
| Detect.                                                  (* one detector, polled *)
(** What callers and listeners see. *)
Inductive notice :=
| NOn (l : location) | NOff (o : off_type) (l : location) | NEffect (t : effect_type) (l : location) (len wav : Z)
| NEffects (l : list effect) | NDetected (e : option effect).

Section Requests.
  Variable w : Z.              (* bits in a blade set *)
  Variable want : effect_type. Variable stab : bool. Variable blade : Z. (* the detector *)
  (** saber_base.h:417-420 DoEffectInternal2: tell the listeners, then remember it. *)
  Definition do_effect (s : saber) (now : Z) (t : effect_type) (l : location) (len wav : Z) : saber * list notice :=
    (push_effect s now t l len wav, [NEffect t l len wav]).
  (** saber_base.h:426-430 DoOn *)
  Definition do_on (s : saber) (now : Z) (l : location) (len wav : Z) : saber * list notice :=
    let '(s, n) := do_effect s now EIgnition l len wav in (s, NOn l :: n).
  (** saber_base.h:431-447 DoOff *)
  Definition do_off (s : saber) (now : Z) (o : off_type) (l : location) (len wav : Z) : saber * list notice :=
    match o with
    | OffBlast => let '(s, n) := do_effect s now EBlast l len wav in (s, NOff o l :: n)
    | OffNormal | OffFast => let '(s, n) := do_effect s now ERetraction l len wav in (s, NOff o l :: n)
    | OffIdle | OffCancelPreon => (s, [NOff o l])
    end.
  Definition set_on (s : saber) (bs : Z) : saber :=
    Saber (effects_ s) (num_effects_ s) bs (lockup_ s) (lockup_blades_ s) (last_motion_ s).
  Definition set_motion (s : saber) (m : Z) : saber :=
    Saber (effects_ s) (num_effects_ s) (on_ s) (lockup_ s) (lockup_blades_ s) m.
  Definition millis (t : Z) : Z := (t / 1000) mod 2 ^ 32.
  (** saber_base.h:323-329 MotionRequested *)
  Definition motion_requested (s : saber) (t : Z) : bool :=
    bs_on (on_ s) || ((millis t - last_motion_ s) mod 2 ^ 32 <? 20000).
  (** saber_base.h:291 BladeIsOn, 352-355 LockupForBlade *)
  Definition blade_is_on (s : saber) (b : Z) : bool := bs_has (on_ s) b.
  Definition lockup_for_blade (s : saber) (b : Z) : lockup_type :=
    if bs_has (lockup_blades_ s) b then lockup_ s else LNone.

  (** The state is the class plus last_detected_ of the detector. *)
  Definition serve (sl : saber * Z) (req : Z * request) : (saber * Z) * list notice :=
    let '(s, last) := sl in let '(t, q) := req in
    let now := t mod 2 ^ 32 in
    match q with
    | DoEffect ty l len wav => let '(s, n) := do_effect s now ty l len wav in ((s, last), n)
    | SetLockup k bs => ((Saber (effects_ s) (num_effects_ s) (on_ s) k bs (last_motion_ s), last), [])
    | TurnOnAll len wav => let '(s, n) := do_on (set_on s (bs_all w)) now (Loc 0 (bs_all w)) len wav in ((s, last), n)
    | TurnOn l len wav =>
      let l := Loc (fixed l) (bs_and (blades l) (bs_not w (on_ s))) in
      if bs_off (blades l) then ((s, last), [])
      else let '(s, n) := do_on (set_on s (bs_or (on_ s) (blades l))) now l len wav in ((s, last), n)
    | TurnOffAll o len wav =>
      let '(s, n) := do_off (set_motion (set_on s bs_empty) (millis t)) now o (Loc 0 (bs_all w)) len wav in ((s, last), n)
    | TurnOff o l len wav =>
      let l := Loc (fixed l) (bs_and (blades l) (on_ s)) in
      if bs_off (blades l) then ((s, last), [])
      else let '(s, n) := do_off (set_motion (set_on s (bs_and (on_ s) (bs_not w (blades l)))) (millis t)) now o l len wav in ((s, last), n)
    | RequestMotion => ((set_motion s (millis t), last), [])
    | GetEffects => let '(s, l) := get_effects s now in ((s, last), [NEffects l])
    | Detect => let '(s, last, e) := detect want stab blade s last now in ((s, last), [NDetected e])
    end.
End Requests.
