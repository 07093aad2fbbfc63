(** Clash and stab detection: props/prop_base.h:119-256, 817-823, 1092-1112, 1735-1744,
    button_base.h:50-56, common/saber_base.h:483-509. *)
From Coq Require Import ZArith List Bool.
From Verif Require Import ArithModel.
Import ListNotations.
Open Scope Z_scope.

(** prop_base.h:121-127 last_clash_, clash_timeout_, clash_pending_, pending_clash_is_stab_,
    pending_clash_strength_; 1092-1094 clash_pending1_, pending_clash_is_stab1_,
    pending_clash_strength1_; saber_base.h:483 clash_strength_.  Strengths are floats in the
    code; only their order matters here, so they are integers. *)
Record state := State { last : Z; timeout : Z; pending : bool; pstab : bool; pstr : Z; pending1 : bool; stab1 : bool; str1 : Z; cstr : Z }.
(** 121-127, 1092-1094: values at power-on *)
Definition state0 : state := State 0 100 false false 0 false false 0 0.
Definition set_window (s : state) (l t : Z) : state := State l t (pending s) (pstab s) (pstr s) (pending1 s) (stab1 s) (str1 s) (cstr s).
Definition set_pending (s : state) (p st : bool) (v : Z) : state := State (last s) (timeout s) p st v (pending1 s) (stab1 s) (str1 s) (cstr s).
Definition set_hit (s : state) (p st : bool) (v : Z) : state := State (last s) (timeout s) (pending s) (pstab s) (pstr s) p st v (cstr s).
Definition set_cstr (s : state) (v : Z) : state := State (last s) (timeout s) (pending s) (pstab s) (pstr s) (pending1 s) (stab1 s) (str1 s) v.

(** What the outside sees. [Report]: Event(BUTTON_NONE, EVENT_STAB or EVENT_CLASH) with the
    clash strength set, and whether it was handled; [Effect]: DoStab or DoClash;
    [Update]: EFFECT_CLASH_UPDATE; [Deferred]: put aside because a button is held. *)
Inductive out := Report (stab : bool) (v : Z) (handled : bool) | Effect (stab : bool) | Update (v : Z) | Deferred.

(** What Loop meets: whether some button is held (current_modifiers & ~MODE_ON), the result
    of Event for a clash and the IgnoreClash calls its handler makes, SaberBase::IsOn() and
    SaberBase::Lockup(). *)
Record world := World { held : bool; handles : bool; asks : list Z; is_on : bool; lockup : bool }.

(** A call from outside: [Hit]: the accelerometer sees a shock (817-823); [Loop]: one turn of
    the main loop (1103-1112) at millis() = t, taken as constant during the turn; [Button]:
    ButtonBase::Send of an event kind with its press count (button_base.h:50-56), where
    [first]: the prop handles the counted event; [Ignore]: IgnoreClash by the prop. *)
Inductive op := Hit (stab : bool) (v : Z) | Loop (t : Z) (w : world) | Button (t kind count : Z) (first : bool) | Ignore (t ms : Z).

(** 201-210 IgnoreClash *)
Definition IgnoreClash (s : state) (t ms : Z) : state :=
  if pending s then s
  else
    let since := u32 (t - last s) in
    let ms := if since <? timeout s then Z.max ms (timeout s - since) else ms in
    set_window s (u32 t) ms.

(** 212-228 Clash2; the handler of the event runs before IgnoreClash *)
Definition Clash2 (s : state) (t : Z) (w : world) (stab : bool) (v : Z) : state * list out :=
  let s := set_cstr s v in
  let s := fold_left (fun s ms => IgnoreClash s t ms) (asks w) s in
  if handles w then (IgnoreClash s t 400, [Report stab v true])
  else
    let s := IgnoreClash s t 100 in
    (s, Report stab v false :: if is_on w && negb (lockup w) then [Effect stab] else []).

(** saber_base.h:504-509 UpdateClashStrength *)
Definition UpdateClashStrength (s : state) (v : Z) : state * list out :=
  if v >? cstr s then (set_cstr s v, [Update v]) else (s, []).

(** 230-254 Clash *)
Definition Clash (s : state) (t : Z) (w : world) (stab : bool) (v : Z) : state * list out :=
  if u32 (t - last s) <? timeout s then
    let '(s, o) :=
      if pending s then (set_pending s true (pstab s) (Z.max (pstr s) v), [])
      else UpdateClashStrength s v in
    (set_window s (u32 t) (timeout s), o)
  else if held w then
    (set_pending (set_window s (u32 t) 3) true stab v, [Deferred])
  else Clash2 s t w stab v.

(** 1103-1112 Loop, the part about clashes *)
Definition loop (s : state) (t : Z) (w : world) : state * list out :=
  let '(s, o1) := if pending1 s then Clash (set_hit s false (stab1 s) (str1 s)) t w (stab1 s) (str1 s) else (s, []) in
  let '(s, o2) :=
    if pending s && negb (u32 (t - last s) <? timeout s) then Clash2 (set_pending s false (pstab s) (pstr s)) t w (pstab s) (pstr s)
    else (s, []) in
  (s, o1 ++ o2).

(** 1738-1745: the beginning of Event. events.h:45-57: EVENT_PRESSED = 1, EVENT_RELEASED = 2 *)
Definition Event (s : state) (t e : Z) : state :=
  if e =? 2 then IgnoreClash (set_pending s false (pstab s) (pstr s)) t 50
  else if e =? 1 then IgnoreClash s t 50
  else s.

(** 817-823 of SB_Accel *)
Definition hit (s : state) (stab : bool) (v : Z) : state :=
  if pending1 s then set_hit s true (stab1 s) (Z.max v (str1 s)) else set_hit s true stab v.

Definition step (s : state) (o : op) : state * list out :=
  match o with
  | Hit stab v => (hit s stab v, [])
  | Loop t w => loop s t w
  | Button t kind count first =>
    let s := Event s t (kind + 8 * count) in
    (if first then s else Event s t kind, [])
  | Ignore t ms => (IgnoreClash s t ms, [])
  end.
