(** The blaster and the detonator: props/blaster.h:117-365, props/detonator.h:17-131, with the
    dispatch of button events (props/prop_base.h:1735-1757, buttons/button_base.h:46-62,
    buttons/latching_button.h:29-38, common/events.h). Switching on and off, lockups and
    presets are those of PowerModel. *)
From Coq Require Import ZArith List Bool.
From Verif Require Import ArithModel PowerModel.
Import ListNotations.
Open Scope Z_scope.

(** events.h:5-38 *)
Definition BUTTON_POWER := 1.
Definition BUTTON_AUX2 := 4.
Definition BUTTON_FIRE := 8.
Definition BUTTON_MODE_SELECT := 16.
Definition BUTTON_CLIP_DETECT := 32.
Definition BUTTON_RELOAD := 64.
Definition MODE_ANY_BUTTON := 512.
Definition MODE_ON := 1024.
Definition MODE_OFF := 0.
(** events.h:45-106 *)
Definition EVENT_PRESSED := 1.
Definition EVENT_RELEASED := 2.
Definition EVENT_HELD_MEDIUM := 4.
Definition EVENT_FIRST_SAVED_CLICK_SHORT := 15.
Definition EVENT_FIRST_CLICK_LONG := 16.
Definition EVENT_SECOND_CLICK_LONG := 24.
Definition EVENT_DOUBLE_CLICK := 17.
Definition EVENT_LATCH_ON := 41.
Definition EVENT_LATCH_OFF := 42.
(** events.h:112 EVENTID, as a comparison: the case label of (b', e', m') is that of the event
    (b, e) with modifiers m. That different labels have different numbers is C66. *)
Definition at_ (b e m b' e' m' : Z) : bool := (b =? b') && (e =? e') && (Z.ldiff m b =? Z.ldiff m' b').

(** What surrounds an event: the number drawn by rand(), whether a wav player is free, whether
    the style refuses to be switched on, the font of the next preset, the length in ms of
    the sound just started. *)
Record env := Env { rnd : Z; free : bool; refuse : bool; efont : font; len : Z }.

(** blaster.h:123-127 *)
Inductive blaster_mode := MODE_STUN | MODE_KILL | MODE_AUTO.
(** BLASTER_SHOTS_UNTIL_EMPTY or -1, BLASTER_ENABLE_AUTO, BLASTER_JAM_PERCENTAGE (with
    ENABLE_MOTION) if defined, BLASTER_DEFAULT_MODE. *)
Record cfg := Cfg { max_shots : Z; auto_enabled : bool; jam_percentage : option Z; default_mode : blaster_mode }.
(** The prop's state, blaster_mode, auto_firing_, shots_fired_, is_jammed_, current_modifiers.
    shots_fired_ is an int; here it does not overflow. *)
Record bstate := B { pw : state; bmode : blaster_mode; auto_firing : bool; shots_fired : Z; is_jammed : bool; mods : Z }.
Definition set_pw s v := B v (bmode s) (auto_firing s) (shots_fired s) (is_jammed s) (mods s).
Definition set_bmode s v := B (pw s) v (auto_firing s) (shots_fired s) (is_jammed s) (mods s).
Definition set_auto s v := B (pw s) (bmode s) v (shots_fired s) (is_jammed s) (mods s).
Definition set_shots s v := B (pw s) (bmode s) (auto_firing s) v (is_jammed s) (mods s).
Definition set_jammed s v := B (pw s) (bmode s) (auto_firing s) (shots_fired s) v (mods s).
Definition set_mods s v := B (pw s) (bmode s) (auto_firing s) (shots_fired s) (is_jammed s) v.
Definition bstate0 (c : cfg) (f : font) (v : Z) : bstate := B (state0 f v) (default_mode c) false 0 false 0.

(** The effects sent; EFFECT_MODE with the mode that is announced (SayMode, 374-417). *)
Inductive bout := P (o : out) | STUN | FIRE | EMPTY | JAM | UNJAM | RELOAD | CLIP_IN | CLIP_OUT | MODE (m : blaster_mode).

(** blaster.h:135-140 *)
Definition SetBlasterMode (s : bstate) (m : blaster_mode) : bstate * list bout :=
  if auto_firing s then (s, []) else (set_bmode s m, [MODE m]).
(** blaster.h:142-158 *)
Definition NextBlasterMode (c : cfg) (s : bstate) : bstate * list bout :=
  match bmode s with
  | MODE_STUN => SetBlasterMode s MODE_KILL
  | MODE_KILL => if auto_enabled c then SetBlasterMode s MODE_AUTO else SetBlasterMode s MODE_STUN
  | MODE_AUTO => SetBlasterMode s MODE_STUN
  end.
(** blaster.h:170-172 *)
Definition GetBulletCount (c : cfg) (s : bstate) : Z := max_shots c - shots_fired s.
(** blaster.h:174-177 *)
Definition CheckJam (r percent : Z) : bool := r mod 100 <? percent.
(** A power operation within the prop *)
Definition with_pw (s : bstate) (r : state * list out) : bstate * list bout := (set_pw s (fst r), map P (snd r)).

(** blaster.h:179-215. LOCKUP_AUTOFIRE = 4 (saber_base.h:340-348). Choosing which sound file is
    played is not modelled. *)
Definition Fire (c : cfg) (s : bstate) (v : env) : bstate * list bout :=
  let jammed :=
    match jam_percentage c with
    | None => false
    | Some p => if is_jammed s then true else CheckJam (rnd v) p
    end in
  let s := match jam_percentage c with None => s | Some _ => set_jammed s jammed end in
  if jammed then (s, [JAM])
  else if negb (max_shots c =? -1) && (max_shots c <=? shots_fired s) then (s, [EMPTY])
  else match bmode s with
  | MODE_AUTO =>
    let '(s, o) := with_pw s (begin_lockup (pw s) 4 (free v)) in (set_auto s true, o)
  | MODE_STUN => (set_shots s (shots_fired s + 1), [STUN])
  | MODE_KILL => (set_shots s (shots_fired s + 1), [FIRE])
  end.
(** blaster.h:233-246 *)
Definition Reload (s : bstate) : bstate * list bout := (set_shots s 0, [RELOAD]).
Definition ClipOut (c : cfg) (s : bstate) : bstate * list bout :=
  (if max_shots c =? -1 then s else set_shots s (max_shots c), [CLIP_OUT]).
Definition ClipIn (c : cfg) (s : bstate) : bstate * list bout :=
  (if max_shots c =? -1 then s else set_shots s 0, [CLIP_IN]).
(** blaster.h:248-257: SetPreset *)
Definition blaster_preset (s : bstate) (v : env) : bstate * list bout :=
  let '(s, o) := with_pw s (do_preset (pw s) (efont v) (refuse v) false (free v)) in
  if negb (poweron (fnt (pw s))) && none (on (pw s))
  then let '(s, o2) := with_pw s (do_on (pw s) all (refuse v) (free v)) in (s, o ++ o2)
  else (s, o).

(** blaster.h:336-421 Event2, without BLADE_DETECT_PIN; tracks are not modelled. None: false. *)
Definition blaster_event2 (c : cfg) (s : bstate) (b e m : Z) (v : env) : option (bstate * list bout) :=
  if at_ b e m BUTTON_MODE_SELECT EVENT_FIRST_SAVED_CLICK_SHORT MODE_ON then Some (NextBlasterMode c s)
  else if at_ b e m BUTTON_MODE_SELECT EVENT_FIRST_CLICK_LONG MODE_ON then Some (blaster_preset s v)
  else if at_ b e m BUTTON_MODE_SELECT EVENT_SECOND_CLICK_LONG MODE_ON then Some (blaster_preset s v)
  else if at_ b e m BUTTON_RELOAD EVENT_PRESSED MODE_ON then Some (Reload s)
  else if at_ b e m BUTTON_MODE_SELECT EVENT_HELD_MEDIUM MODE_ON then Some (Reload s)
  else if at_ b e m BUTTON_MODE_SELECT EVENT_DOUBLE_CLICK MODE_ON then Some (s, [])
  else if at_ b e m BUTTON_FIRE EVENT_PRESSED MODE_ON then Some (Fire c s v)
  else if at_ b e m BUTTON_FIRE EVENT_RELEASED MODE_ON then
    Some (match bmode s with
          | MODE_AUTO =>
            if lockup (pw s) =? 0 then (s, [])
            else let '(s, o) := with_pw s (end_lockup (pw s) (free v)) in (set_auto s false, o)
          | _ => (s, [])
          end)
  else if at_ b e m BUTTON_CLIP_DETECT EVENT_PRESSED MODE_ON then Some (ClipIn c s)
  else if at_ b e m BUTTON_CLIP_DETECT EVENT_LATCH_ON MODE_ON then Some (ClipIn c s)
  else if at_ b e m BUTTON_CLIP_DETECT EVENT_RELEASED MODE_ON then Some (ClipOut c s)
  else if at_ b e m BUTTON_CLIP_DETECT EVENT_LATCH_OFF MODE_ON then Some (ClipOut c s)
  else if at_ b e m BUTTON_POWER EVENT_PRESSED MODE_OFF then Some (with_pw s (do_on (pw s) all (refuse v) (free v)))
  else if at_ b e m BUTTON_POWER EVENT_PRESSED MODE_ON then Some (with_pw s (do_off (pw s) OFF_NORMAL all (free v)))
  else None.

(** prop_base.h:1735-1757 Event, when the prop itself is the current mode *)
Definition blaster_event (c : cfg) (s : bstate) (b e : Z) (v : env) : bstate * list bout * bool :=
  let here := if IsOn (pw s) then MODE_ON else MODE_OFF in
  match blaster_event2 c s b e (Z.lor (mods s) here) v with
  | Some (s, o) => (set_mods s 0, o, true)
  | None =>
    match blaster_event2 c s b e (Z.lor MODE_ANY_BUTTON here) v with
    | Some (s, o) => (set_mods s (Z.ldiff (mods s) b), o, true)
    | None => (s, [], false)
    end
  end.

(** Operations.
    - Send: ButtonBase::Send (button_base.h:50-57), event 1 to 8 with press count 1 to 4.
    - Hold, LetGo: current_modifiers |= button, &= ~button (button_base.h:88, 110).
    - Latch: a latching button was switched on or off.
    - Bang: Clash() is called.
    - LowBattery: blaster.h:259-263.
    - Preset: SetPreset from a command.
    - Base: what PropBase and the font do by themselves or when told by a command. *)
Inductive bop :=
| Send (b e n : Z) (v : env) | Hold (b : Z) | LetGo (b : Z) | Latch (b : Z) (up : bool) (v : env)
| Bang | LowBattery (v : env) | Preset (v : env) | Base (o : op).

Definition bstep (c : cfg) (s : bstate) (o : bop) : bstate * list bout :=
  match o with
  | Send b e n v =>
    let '(s1, o1, h) := blaster_event c s b (e + 8 * n) v in
    if h then (s1, o1) else fst (blaster_event c s1 b e v)
  | Hold b => (set_mods s (Z.lor (mods s) b), [])
  | LetGo b => (set_mods s (Z.ldiff (mods s) b), [])
  | Latch b up v => fst (blaster_event c s b (if up then EVENT_LATCH_ON else EVENT_LATCH_OFF) v)
  (* blaster.h:323-328 *)
  | Bang => if is_jammed s then (set_jammed s false, [UNJAM]) else (s, [])
  | LowBattery v =>
    if poweron (fnt (pw s)) && negb (none (on (pw s))) then with_pw s (do_off (pw s) OFF_NORMAL all (free v)) else (s, [])
  | Preset v => blaster_preset s v
  | Base o =>
    match o with
    (* these belong to other props, or are redefined above *)
    | PowerModel.SetPreset _ _ _ _ | ClashLock _ _ | Lightning _ | Release _ | DoubleClick => (s, [])
    | _ => with_pw s (PowerModel.step (pw s) o)
    end
  end.

(** ** The detonator *)

(** detonator.h:23-27 *)
Inductive next_action := NEXT_ACTION_NOTHING | NEXT_ACTION_ARM | NEXT_ACTION_BLOW.
(** The prop's state, armed_, next_action_, time_base_, next_event_time_, current_modifiers.
    powered_ only decides about presets. time_base_ and next_event_time_ are set before use. *)
Record dstate := D { dpw : state; armed : bool; next : next_action; time_base : Z; next_event_time : Z; dmods : Z }.
Definition set_dpw s v := D v (armed s) (next s) (time_base s) (next_event_time s) (dmods s).
Definition set_armed s v := D (dpw s) v (next s) (time_base s) (next_event_time s) (dmods s).
Definition set_dmods s v := D (dpw s) (armed s) (next s) (time_base s) (next_event_time s) v.
Definition dstate0 (f : font) (v : Z) : dstate := D (state0 f v) false NEXT_ACTION_NOTHING 0 0 0.
(** detonator.h:33-41; the time is millis() *)
Definition SetNextAction (s : dstate) (what : next_action) (when now : Z) : dstate :=
  D (dpw s) (armed s) what (u32 now) when (dmods s).
Definition with_dpw (s : dstate) (r : state * list out) : dstate * list out := (set_dpw s (fst r), snd r).
(** detonator.h:43-58 *)
Definition PollNextAction (s : dstate) (now : Z) (fr : bool) : dstate * list out :=
  if next_event_time s <? u32 (now - time_base s) then
    let '(s, o) :=
      match next s with
      | NEXT_ACTION_NOTHING => (s, [])
      | NEXT_ACTION_ARM => (set_armed s true, [])
      | NEXT_ACTION_BLOW => with_dpw s (do_off (dpw s) OFF_BLAST all fr)
      end in
    (D (dpw s) (armed s) NEXT_ACTION_NOTHING (time_base s) (next_event_time s) (dmods s), o)
  else (s, []).
(** detonator.h:60-69: LOCKUP_ARMED = 3 *)
Definition beginArm (s : dstate) (now : Z) (v : env) : dstate * list out :=
  let '(s, o) := with_dpw s (begin_lockup (dpw s) 3 (free v)) in (SetNextAction s NEXT_ACTION_ARM (len v) now, o).
(** detonator.h:71-84 *)
Definition det_blast (s : dstate) (now : Z) (v : env) : dstate * list out :=
  let '(s, o) := with_dpw s (end_lockup (dpw s) (free v)) in
  (if armed s then SetNextAction s NEXT_ACTION_BLOW (len v) now else SetNextAction s NEXT_ACTION_NOTHING 0 now, o).

(** detonator.h:100-131; the last part: whether it returns true *)
Definition det_event2 (s : dstate) (b e m now : Z) (v : env) : dstate * list out * bool :=
  if at_ b e m BUTTON_POWER EVENT_LATCH_ON MODE_OFF then
    let s := set_armed s false in (with_dpw s (do_on (dpw s) all (refuse v) (free v)), true)
  else if at_ b e m BUTTON_POWER EVENT_LATCH_OFF MODE_ON || at_ b e m BUTTON_POWER EVENT_LATCH_OFF MODE_OFF then
    (with_dpw s (do_off (dpw s) OFF_NORMAL all (free v)), true)
  else if at_ b e m BUTTON_AUX2 EVENT_DOUBLE_CLICK MODE_OFF then
    (with_dpw s (do_preset (dpw s) (efont v) (refuse v) false (free v)), true)
  else if at_ b e m BUTTON_AUX2 EVENT_DOUBLE_CLICK MODE_ON then (s, [], true)
  else if at_ b e m BUTTON_AUX2 EVENT_PRESSED MODE_ON then (beginArm s now v, false)
  else if at_ b e m BUTTON_AUX2 EVENT_RELEASED MODE_ON then let '(s, o) := det_blast s now v in (s, o, armed s)
  else (s, [], false).

(** prop_base.h:1735-1757 *)
Definition det_event (s : dstate) (b e now : Z) (v : env) : dstate * list out * bool :=
  let here s := if IsOn (dpw s) then MODE_ON else MODE_OFF in
  let '(s1, o1, h1) := det_event2 s b e (Z.lor (dmods s) (here s)) now v in
  if h1 then (set_dmods s1 0, o1, true)
  else
    let '(s2, o2, h2) := det_event2 s1 b e (Z.lor MODE_ANY_BUTTON (here s1)) now v in
    if h2 then (set_dmods s2 (Z.ldiff (dmods s2) b), o1 ++ o2, true) else (s2, o1 ++ o2, false).

(** Operations, as for the blaster, with the time; Poll: Loop (86-89). *)
Inductive dop :=
| DSend (b e n now : Z) (v : env) | DHold (b : Z) | DLetGo (b : Z) | DLatch (b : Z) (up : bool) (now : Z) (v : env)
| DPoll (now : Z) (fr : bool) | DBase (o : op).

Definition dstep (s : dstate) (o : dop) : dstate * list out :=
  match o with
  | DSend b e n now v =>
    let '(s1, o1, h) := det_event s b (e + 8 * n) now v in
    if h then (s1, o1) else let '(s2, o2, _) := det_event s1 b e now v in (s2, o1 ++ o2)
  | DHold b => (set_dmods s (Z.lor (dmods s) b), [])
  | DLetGo b => (set_dmods s (Z.ldiff (dmods s) b), [])
  | DLatch b up now v => fst (det_event s b (if up then EVENT_LATCH_ON else EVENT_LATCH_OFF) now v)
  | DPoll now fr => PollNextAction s now fr
  | DBase o =>
    match o with
    | ClashLock _ _ | Lightning _ | Release _ | DoubleClick => (s, [])
    | _ => with_dpw s (PowerModel.step (dpw s) o)
    end
  end.
