(** A saber with the default prop, from its debounced buttons to what it does:
    buttons/button_base.h, props/prop_base.h (Event, On, Off, Clash2, SetMute,
    ToggleColorChangeMode), props/saber.h (Event2), modes/select_cancel_mode.h. *)
From Coq Require Import ZArith List Bool.
From Verif Require Import ButtonModel.
Import ListNotations.
Open Scope Z_scope.

(** events.h:5-8: the buttons of saber.h. *)
Inductive btn := PWR | AX | AX2.
Definition beq (a b : btn) : bool := match a, b with PWR, PWR | AX, AX | AX2, AX2 => true | _, _ => false end.
(** events.h:49-56: what happens to a button; events.h:48-93: alone or with the number of presses. *)
Inductive kind := KPressed | KReleased | KHeld | KHeldMedium | KHeldLong | KShort | KSaved | KLong.
Inductive count := Plain | First | Second | Third | Fourth.
(** events.h:95-105: of the other events, those that saber.h handles when it has buttons. *)
Inductive event_ := EB (k : kind) (n : count) | ECLASH | ESTAB | ETWIST.
(** events.h:114 current_modifiers: the three buttons' bits. *)
Record mods := Mods { mp : bool; ma : bool; m2 : bool }.
Definition nomods := Mods false false false.
Definition has (m : mods) (k : btn) : bool := match k with PWR => mp m | AX => ma m | AX2 => m2 m end.
Definition put (m : mods) (k : btn) (v : bool) : mods :=
  match k with PWR => Mods v (ma m) (m2 m) | AX => Mods (mp m) v (m2 m) | AX2 => Mods (mp m) (ma m) v end.
(** The modifiers argument of Event2 apart from MODE_ON: current_modifiers, or MODE_ANY_BUTTON. *)
Inductive modarg := These (m : mods) | AnyButton.

(** saber_base.h:41-46: the lockups that saber.h starts. *)
Inductive lk := NORMAL | DRAG | LIGHTNING | MELT.
(** What the prop does. *)
Inductive act :=
| AIgnite | ARetract | ACancel | AForce | ABlast | ANext | APrevious | ATrack | AColors
| ALock (l : lk) | AEndLock | AMute | AUnmute | ASelect | AExit | AMotion | AClash | AStab.

(** What is compiled in: DUAL_POWER_BUTTONS, and whether NUM_BUTTONS is 1.  MENU_SPEC_TEMPLATE
    and DISABLE_COLOR_CHANGE are not defined; NUM_BUTTONS is not 0. *)
Record config := Config { dual : bool; single : bool }.
(** What an event finds: millis(), whether accel_.x < -0.15, whether CommonIgnition agrees
    when the saber is off (it does not if the style is always on), whether there is a current style. *)
Record env := Env { now : Z; down : bool; agrees : bool; styled : bool }.
(** saber_base.h on-state; prop_base.h:123-131 and saber.h:264-265 members.  [colors]: current_mode is the color change mode
    rather than the prop.  [muted]: muted_volume_ is not 0; the volume chosen by the user is not 0. *)
Record saber := Saber { lit : bool; pending : bool; lockup : option lk; muted : bool; unmute : bool;
                        activated : Z; colors : bool; pointing_down : bool; aux_on : bool }.

(** prop_base.h:130-132 IsOn *)
Definition IsOn (s : saber) : bool := lit s || pending s.
Definition set_lockup (s : saber) (l : option lk) : saber :=
  Saber (lit s) (pending s) l (muted s) (unmute s) (activated s) (colors s) (pointing_down s) (aux_on s).
(** prop_base.h:134-145 On with 1800-1816 CommonIgnition: sound is compiled in. *)
Definition on (e : env) (s : saber) : saber * list act :=
  if agrees e then
    (Saber (lit s) true (lockup s) (muted s) (unmute s) (now e) (colors s) (pointing_down s) (aux_on s), [AIgnite])
  else (s, []).
(** prop_base.h:156-189 Off.  ToggleColorChangeMode does nothing here: see [toggle_colors]. *)
Definition off (s : saber) : saber * list act :=
  if pending s then
    (Saber (lit s) false (lockup s) (muted s) (unmute s) (activated s) (colors s) (pointing_down s) (aux_on s), [ACancel])
  else if negb (lit s) then (s, [])
  else
    let o := match lockup s with Some _ => [AEndLock] | None => [] end in
    let m := if unmute s then false else muted s in
    (Saber false false None m false (activated s) (colors s) (pointing_down s) (aux_on s),
     o ++ [ARetract] ++ (if unmute s && muted s then [AUnmute] else [])).
(** prop_base.h:99-118 SetMute(true), and saber.h:118-120 *)
Definition mute (s : saber) : saber * list act :=
  if muted s then (s, [])
  else (Saber (lit s) (pending s) (lockup s) true true (activated s) (colors s) (pointing_down s) (aux_on s), [AMute]).
(** prop_base.h:1166-1171 ToggleColorChangeMode: it does something only if current_mode is the prop *)
Definition toggle_colors (e : env) (s : saber) : saber * list act :=
  if styled e && negb (colors s) then
    (Saber (lit s) (pending s) (lockup s) (muted s) (unmute s) (activated s) true (pointing_down s) (aux_on s), [AColors])
  else (s, []).
(** modes/select_cancel_mode.h:9-26: select() and exit() pop the mode; the color change modes
    (color_change_modes.h:11-48, stepped_mode.h, smooth_mode.h) add only BUTTON_LEFT and BUTTON_RIGHT. *)
Definition leave (s : saber) : saber :=
  Saber (lit s) (pending s) (lockup s) (muted s) (unmute s) (activated s) false (pointing_down s) (aux_on s).
Definition menu_event2 (s : saber) (b : option btn) (ev : event_) : bool * saber * list act :=
  match b, ev with
  | Some PWR, EB KSaved First => (true, leave s, [ASelect])
  | Some PWR, EB KSaved Second => (true, leave s, [AExit])
  | Some AX, EB KSaved First => (true, leave s, [AExit])
  | _, _ => (false, s, [])
  end.

(** EVENTID removes the button's own bit from the modifiers; a case label of saber.h
    without MODE_ANY_BUTTON asks for exactly these other buttons. *)
Definition only (b : option btn) (m : modarg) (want : mods) : bool :=
  match m with
  | AnyButton => false
  | These m =>
    let m := match b with Some k => put m k false | None => m end in
    Bool.eqb (mp m) (mp want) && Bool.eqb (ma m) (ma want) && Bool.eqb (m2 m) (m2 want)
  end.
Definition any (m : modarg) : bool := match m with AnyButton => true | These _ => false end.
(** saber.h:43-46: the exchange of the two power buttons *)
Definition swap (b : option btn) : option btn :=
  let b := match b with Some PWR => Some AX | _ => b end in
  match b with Some AX => Some PWR | _ => b end.
Definition done (r : saber * list act) : bool * saber * list act := (true, fst r, snd r).
Definition set_aux_on (s : saber) (v : bool) : saber :=
  Saber (lit s) (pending s) (lockup s) (muted s) (unmute s) (activated s) (colors s) (pointing_down s) v.
(** saber.h:48-236, the switch of Event2; [isOn]: the modifiers contain MODE_ON.  EVENT_DOUBLE_CLICK is
    EVENT_SECOND_PRESSED (events.h:108).  Latching buttons and blade detection are left out.  The cases are
    in the order of the result; the labels are distinct, so their order does not matter. *)
Definition switch (c : config) (e : env) (s : saber) (b : option btn) (ev : event_) (m : modarg) (isOn : bool) : bool * saber * list act :=
  let alone := only b m nomods in
  let no := (false, s, []) in
  match b, ev with
  | Some PWR, EB KPressed Plain =>
    if alone then
      if isOn then done (Saber (lit s) (pending s) (lockup s) (muted s) (unmute s) (activated s) (colors s) (down e) (aux_on s), [])
      else done (s, [AMotion])
    else no
  | Some AX, EB KPressed Plain =>
    if alone && isOn then done (Saber (lit s) (pending s) (lockup s) (muted s) (unmute s) (activated s) (colors s) (down e) (aux_on s), [])
    else no
  | Some PWR, EB KShort Plain =>
    if isOn then (if only b m (Mods false true false) then done (toggle_colors e s) else no)
    else if alone then done (on e (set_aux_on s false))
    else if only b m (Mods false true false) then done (s, [APrevious])
    else no
  | Some AX, EB KShort Plain =>
    if isOn then
      if alone then done (s, [ABlast])
      else if only b m (Mods true false false) then done (set_lockup s (Some LIGHTNING), [ALock LIGHTNING])
      else no
    else if alone then (if dual c then done (on e (set_aux_on s true)) else done (s, [ANext]))
    else no
  | Some AX2, EB KShort Plain =>
    if negb isOn && alone then (if dual c then done (s, [ANext]) else done (s, [APrevious])) else no
  | Some PWR, EB KPressed Second =>
    if alone then
      if isOn then (if since (now e) (activated s) <? 500 then done (mute s) else done (s, []))
      else if pending s then done (mute s) else no
    else no
  | Some AX, EB KPressed Second => if alone && isOn then done (s, [ABlast]) else no
  | Some PWR, EB KShort First =>
    if alone && isOn then (if colors s then done (toggle_colors e s) else done (off s)) else no
  | Some PWR, EB KLong Plain =>
    if alone then (if isOn then done (s, [AForce]) else done (s, [ATrack])) else no
  | Some PWR, EB KReleased Plain | Some AX, EB KReleased Plain =>
    if any m && isOn then match lockup s with Some _ => done (set_lockup s None, [AEndLock]) | None => no end else no
  | None, ECLASH =>
    if isOn then
      if only b m (Mods true false false) || only b m (Mods false true false) then
        match lockup s with
        | None => let l := if pointing_down s then DRAG else NORMAL in done (set_lockup s (Some l), [ALock l])
        | Some _ => no
        end
      else no
    else if only b m (Mods true false false) then done (s, [ANext]) else no
  | None, ESTAB =>
    if isOn && (only b m (Mods true false false) || only b m (Mods false true false)) then
      match lockup s with None => done (set_lockup s (Some MELT), [ALock MELT]) | Some _ => no end
    else no
  | None, ETWIST => if single c && isOn && only b m (Mods true false false) then done (toggle_colors e s) else no
  | _, _ => no
  end.

(** saber.h:41-47 Event2 *)
Definition event2 (c : config) (e : env) (s : saber) (b : option btn) (ev : event_) (m : modarg) (isOn : bool) : bool * saber * list act :=
  switch c e s (if dual c && lit s && aux_on s then swap b else b) ev m isOn.

(** The prop and current_modifiers. *)
Record core := Core { sab : saber; cmods : mods }.
(** prop_base.h:1735-1757 Event, without its effect on clash detection *)
Definition event (c : config) (e : env) (co : core) (b : option btn) (ev : event_) : bool * core * list act :=
  let call s m := if colors s then menu_event2 s b ev else event2 c e s b ev m (IsOn s) in
  let '(r, s, o) := call (sab co) (These (cmods co)) in
  if r then (true, Core s nomods, o)
  else
    let '(r, s, o2) := call s AnyButton in
    if r then (true, Core s (match b with Some k => put (cmods co) k false | None => cmods co end), o ++ o2)
    else (false, Core s (cmods co), o ++ o2).
(** button_base.h:50-56 Send *)
Definition hsend (c : config) (e : env) (co : core) (k : btn) (ev : kind) (n : count) : bool * core * list act :=
  let '(r, co, o) := event c e co (Some k) (EB ev n) in
  if r then (true, co, o)
  else let '(r, co, o2) := event c e co (Some k) (EB ev Plain) in (r, co, o ++ o2).

(** button_base.h:166-171 members; [pos] of ButtonModel says where its Loop is. *)
Record bstate := B { at_ : pos; push : Z; presses : count; saved_ : bool }.
(** button_base.h:78-79 *)
Definition bump (n : count) : count := match n with Plain => First | First => Second | Second => Third | _ => Fourth end.
(** button_base.h:60-122 SendClick and Loop, from the result [d] of one DebouncedRead() to the next. *)
Definition bloop (c : config) (e : env) (k : btn) (d : bool) (b : bstate) (co : core) : bstate * core * list act :=
  let n := presses b in
  let el := since (now e) (push b) in
  let m := has (cmods co) k in
  let go p := B p (push b) n (saved_ b) in
  let tell p ev := let '(_, co, o) := hsend c e co k ev n in (go p, co, o) in
  match at_ b with
  | P70 =>
    if d then
      let n := if el <? 500 then bump n else First in
      let '(_, co, o) := hsend c e co k KPressed n in
      (B P87 (now e) n false, Core (sab co) (put (cmods co) k true), o)
    else if saved_ b && (el >? 500) then
      let '(_, co, o) := hsend c e co k KSaved n in (B P70 (push b) n false, co, o)
    else (b, co, [])
  | P87 => if d && m then (if el >? 300 then tell P90 KHeld else (go P87, co, [])) else (go P106, co, [])
  | P90 => if d && m then (if el >? 800 then tell P93 KHeldMedium else (go P90, co, [])) else (go P87, co, [])
  | P93 => if d && m then (if el >? 2000 then tell P96 KHeldLong else (go P93, co, [])) else (go P90, co, [])
  | P96 => if d && m then (go P96, co, []) else (go P93, co, [])
  | P106 =>
    if d then (go P106, co, [])
    else
      let '(_, co, o) := hsend c e co k KReleased n in
      if has (cmods co) k then
        let co := Core (sab co) (put (cmods co) k false) in
        if el <? 500 then
          let '(r, co, o2) := hsend c e co k KShort n in
          (B P70 (push b) n (if r then saved_ b else true), co, o ++ o2)
        else if el <? 2500 then
          let '(_, co, o2) := hsend c e co k KLong n in (go P70, co, o ++ o2)
        else (go P70, co, o)
      else (B P70 ((now e - 10000) mod 2 ^ 32) n (saved_ b), co, o)
  end.

(** The saber with its buttons. *)
Record hilt := Hilt { cor : core; bp : bstate; ba : bstate; b2 : bstate }.
Definition button_of (h : hilt) (k : btn) : bstate := match k with PWR => bp h | AX => ba h | AX2 => b2 h end.
Definition with_button (h : hilt) (k : btn) (co : core) (b : bstate) : hilt :=
  match k with PWR => Hilt co b (ba h) (b2 h) | AX => Hilt co (bp h) b (b2 h) | AX2 => Hilt co (bp h) (ba h) b end.
(** What can happen: a button's loop reads its debounced level; a clash or stab is detected
    (and not ignored); a twist; the font calls SaberBase::TurnOn (SB_On, prop_base.h:152-154)
    after On(); something else calls Off(): low battery, a command. *)
Inductive op := Read (k : btn) (pressed : bool) (e : env) | Hit (stab : bool) (e : env) | Twist (e : env) | TurnOn | CallOff.
(** prop_base.h:212-227 Clash2, without its effect on clash detection *)
Definition clash2 (c : config) (e : env) (co : core) (stab : bool) : core * list act :=
  let '(r, co, o) := event c e co None (if stab then ESTAB else ECLASH) in
  if r then (co, o)
  else if lit (sab co) && match lockup (sab co) with None => true | Some _ => false end
  then (co, o ++ [if stab then AStab else AClash]) else (co, o).
Definition hilt_step (c : config) (h : hilt) (o : op) : hilt * list act :=
  match o with
  | Read k d e => let '(b, co, o) := bloop c e k d (button_of h k) (cor h) in (with_button h k co b, o)
  | Hit stab e => let '(co, o) := clash2 c e (cor h) stab in (Hilt co (bp h) (ba h) (b2 h), o)
  | Twist e => let '(_, co, o) := event c e (cor h) None ETWIST in (Hilt co (bp h) (ba h) (b2 h), o)
  | TurnOn =>
    let s := sab (cor h) in
    if pending s then
      (Hilt (Core (Saber true false (lockup s) (muted s) (unmute s) (activated s) (colors s) (pointing_down s) (aux_on s)) (cmods (cor h))) (bp h) (ba h) (b2 h), [])
    else (h, [])
  | CallOff => let '(s, o) := off (sab (cor h)) in (Hilt (Core s (cmods (cor h))) (bp h) (ba h) (b2 h), o)
  end.
(** The start: saber.h:264-265, button_base.h:168-171; push_millis_ is not initialised ([g]),
    saved_event_ is 0. *)
Definition hilt0 (g1 g2 g3 : Z) : hilt :=
  Hilt (Core (Saber false false None false false 0 false false true) nomods)
       (B P70 g1 Plain false) (B P70 g2 Plain false) (B P70 g3 Plain false).
