(** Switching a saber on and off, lockups and muting: props/prop_base.h:99-117, 128-190,
    357-370, 385-403, 1328-1377, 1798-1813, common/saber_base.h:271-304, 378-429,
    sound/hybrid_font.h:139-199, 484-508, 530-660, 735-830, props/saber.h:112-122,
    160-190, 213-219. *)
From Coq Require Import ZArith List Bool.
Import ListNotations.
Open Scope Z_scope.

(** saber_base.h:148-200 BladeSet: a set of blade numbers, as bits. The code has 8 to 64
    bits; here there is no end, [all] is every blade. *)
Definition all : Z := -1.
Definition without (a b : Z) : Z := Z.ldiff a b.
Definition none (a : Z) : bool := a =? 0.

(** saber_base.h:262-268 *)
Inductive off_type := OFF_NORMAL | OFF_FAST | OFF_BLAST | OFF_IDLE | OFF_CANCEL_PREON.
(** hybrid_font.h:177-184 *)
Inductive font_state := STATE_OFF | STATE_WAIT_FOR_ON | STATE_OUT | STATE_HUM_FADE_IN | STATE_HUM_ON | STATE_HUM_FADE_OUT.
(** What a font directory holds: SFX_preon, SFX_in, SFX_out, SFX_poweron, SFX_poweroff or
    SFX_pwroff, SFX_blast, any of SFX_clash, SFX_blaster, SFX_swing, SFX_humm, SFX_lockup, SFX_pstoff. *)
Record font := Font { preon : bool; in_ : bool; out_ : bool; poweron : bool; poweroff : bool; blast : bool; hits : bool; humm : bool; lockup_snd : bool; pstoff : bool }.
(** hybrid_font.h:142-164 monophonic_hum_ *)
Definition mono (f : font) : bool :=
  if in_ f || out_ f then false
  else (poweron f || poweroff f || blast f) && negb (hits f && humm f).
(** hybrid_font.h:668 *)
Definition mono_lock (f : font) : bool := lockup_snd f && negb (humm f).

(** SaberBase::on_, PropBase::on_pending_; HybridFont: the font, state_, saved_location_ (its
    blades), check_postoff_, whether hum_player_ is set; SaberBase::lockup_ (0: none, otherwise its
    kind) and the kind lock_player_ was started for; the mixer's volume, muted_volume_,
    unmute_on_deactivation_, saved_global_state.volume. *)
Record state := State {
  on : Z; pending : bool; fnt : font; fst_ : font_state; saved : Z; check_postoff : bool; hum : bool;
  lockup : Z; lock_player : option Z; volume : Z; muted_volume : Z; unmute_off : bool; stored : Z }.
Definition set_on s v := State v (pending s) (fnt s) (fst_ s) (saved s) (check_postoff s) (hum s) (lockup s) (lock_player s) (volume s) (muted_volume s) (unmute_off s) (stored s).
Definition set_pending s v := State (on s) v (fnt s) (fst_ s) (saved s) (check_postoff s) (hum s) (lockup s) (lock_player s) (volume s) (muted_volume s) (unmute_off s) (stored s).
Definition set_fst s v := State (on s) (pending s) (fnt s) v (saved s) (check_postoff s) (hum s) (lockup s) (lock_player s) (volume s) (muted_volume s) (unmute_off s) (stored s).
Definition set_hum s v := State (on s) (pending s) (fnt s) (fst_ s) (saved s) (check_postoff s) v (lockup s) (lock_player s) (volume s) (muted_volume s) (unmute_off s) (stored s).
Definition set_post s p loc := State (on s) (pending s) (fnt s) (fst_ s) loc p (hum s) (lockup s) (lock_player s) (volume s) (muted_volume s) (unmute_off s) (stored s).
Definition set_lock s v p := State (on s) (pending s) (fnt s) (fst_ s) (saved s) (check_postoff s) (hum s) v p (volume s) (muted_volume s) (unmute_off s) (stored s).
Definition set_vol s v m u := State (on s) (pending s) (fnt s) (fst_ s) (saved s) (check_postoff s) (hum s) (lockup s) (lock_player s) v m u (stored s).
(** At power-on, after the first font was activated. *)
Definition state0 (f : font) (v : Z) : state := State 0 false f STATE_OFF 0 false false 0 None v 0 false v.

(** What the outside sees: effects with their blades, [Crash]: a null pointer is used. *)
Inductive out :=
| PREON (loc : Z) | IGNITION (loc : Z) | FAST_ON (loc : Z) | RETRACTION (loc : Z) | BLAST (loc : Z) | POSTOFF (loc : Z)
| LOCKUP_BEGIN (k : Z) | LOCKUP_END (k : Z) | Crash.

(** Operations. [free]: a wav player is free when asked for.
    - On, FastOn, Off: the prop's functions; [refuse]: the style says NoOnOff().
    - Loop: HybridFont::Loop, with whether the preon and off sounds are still playing.
    - Hum: SetHumVolume, with whether the delay or fade it is in is over.
    - Chdir: the cd command; SetPreset: changing presets, to a font and with a style that may
      refuse; [slow]: UpdatePreon.
    - LockCmd: the lock, drag, lblock, melt commands; Clash: a clash or stab with a button held;
      Lightning: aux click with power held; Release.
    - Mute, Unmute, Toggle, SetVolume: commands; DoubleClick: of power within 500 ms of ignition (only
      when on); Poll: PollSaveColorChange while the amplifier is off.
    - Idle: DoOff(OFF_IDLE) when unused. *)
Inductive op :=
| On (loc : Z) (refuse free : bool) | FastOn (loc : Z) (refuse free : bool) | Off (ty : off_type) (loc : Z) (free : bool)
| Loop (preon_playing off_playing free : bool) | Hum (due free : bool)
| Chdir (f : font) | SetPreset (f : font) (refuse slow free : bool)
| LockCmd (k : Z) (free : bool) | ClashLock (k : Z) (free : bool) | Lightning (free : bool) | Release (free : bool)
| Mute | Unmute | Toggle | SetVolume (v : Z) | DoubleClick | Poll | Idle.

(** prop_base.h:130-132 IsOn *)
Definition IsOn (s : state) : bool := negb (none (on s)) || pending s.
(** hybrid_font.h:186-195 active_state *)
Definition active (x : font_state) : bool := match x with STATE_OFF | STATE_WAIT_FOR_ON => false | _ => true end.

(** hybrid_font.h:215-242 PlayMonophonic: whether hum_player_ is set *)
Definition PlayMonophonic (s : state) (free : bool) : state := if free then set_hum s true else s.

(** hybrid_font.h:484-499 SB_Preon *)
Definition SB_Preon (s : state) (loc : Z) (free : bool) : state :=
  let s := set_post s (check_postoff s) loc in
  let s := if preon (fnt s) && mono (fnt s) then set_hum s free else s in
  set_fst s STATE_WAIT_FOR_ON.

(** hybrid_font.h:521-570 SB_On; prop_base.h:152-154 SB_On *)
Definition SB_On (s : state) (free : bool) : state :=
  let s := set_pending s false in
  let already_started := match fst_ s with STATE_WAIT_FOR_ON => preon (fnt s) | _ => false end in
  if mono (fnt s) then
    set_fst (if already_started then s else PlayMonophonic s free) STATE_HUM_ON
  else
    let s := set_fst s STATE_OUT in
    if hum s then s else set_hum s free.

(** hybrid_font.h:572-637 SB_Off *)
Definition SB_Off (s : state) (ty : off_type) (loc : Z) (free : bool) : state * list out :=
  let most := Z.testbit loc 0 in
  match ty with
  | OFF_CANCEL_PREON => (match fst_ s with STATE_WAIT_FOR_ON => set_fst s STATE_OFF | _ => s end, [])
  | OFF_IDLE => (s, [])
  | OFF_NORMAL | OFF_FAST =>
    let '(s, o) :=
      if in_ (fnt s) then (set_fst s STATE_HUM_FADE_OUT, [])
      else if poweroff (fnt s) then
        if mono (fnt s) then (PlayMonophonic (set_fst s STATE_OFF) free, []) else (set_fst s STATE_HUM_FADE_OUT, [])
      else if mono (fnt s) then
        (set_hum (set_fst s STATE_OFF) false, if hum s then [] else [Crash])
      else (set_fst s STATE_HUM_FADE_OUT, []) in
    match fst_ s, most with
    | STATE_HUM_FADE_OUT, false => (set_fst s STATE_HUM_ON, o)
    | _, _ => (set_post s (pstoff (fnt s) && match ty with OFF_FAST => false | _ => true end) loc, o)
    end
  | OFF_BLAST => (if mono (fnt s) then PlayMonophonic s free else set_fst s STATE_HUM_FADE_OUT, [])
  end.

(** saber_base.h:282-292 TurnOn, 399-403 DoOn *)
Definition TurnOn (s : state) (loc : Z) (free : bool) : state * list out :=
  let loc := without loc (on s) in
  if none loc then (s, [])
  else (SB_On (set_on s (Z.lor (on s) loc)) free, [IGNITION loc]).
(** saber_base.h:405-421 DoOff: the effect *)
Definition off_effect (ty : off_type) (loc : Z) : list out :=
  match ty with OFF_BLAST => [BLAST loc] | OFF_NORMAL | OFF_FAST => [RETRACTION loc] | _ => [] end.
(** saber_base.h:298-307 TurnOff *)
Definition TurnOff (s : state) (ty : off_type) (loc : Z) (free : bool) : state * list out :=
  let loc := Z.land loc (on s) in
  if none loc then (s, [])
  else
    let '(s, o) := SB_Off (set_on s (without (on s) loc)) ty loc free in
    (s, o ++ off_effect ty loc).

(** prop_base.h:1798-1813 CommonIgnition *)
Definition CommonIgnition (s : state) (loc : Z) (refuse : bool) : bool := negb (none (without loc (on s))) && negb refuse.
(** prop_base.h:134-144 On *)
Definition do_on (s : state) (loc : Z) (refuse free : bool) : state * list out :=
  if CommonIgnition s loc refuse then (set_pending (SB_Preon s loc free) true, [PREON loc]) else (s, []).
(** prop_base.h:146-150 FastOn *)
Definition do_fast_on (s : state) (loc : Z) (refuse free : bool) : state * list out :=
  if CommonIgnition s loc refuse then let '(s, o) := TurnOn s loc free in (s, o ++ [FAST_ON loc]) else (s, []).

(** prop_base.h:100-117 SetMute *)
Definition SetMute (s : state) (m : bool) : state * bool :=
  if m then if volume s =? 0 then (s, false) else (set_vol s 0 (volume s) (unmute_off s), true)
  else if muted_volume s =? 0 then (s, false) else (set_vol s (muted_volume s) 0 (unmute_off s), true).

(** hybrid_font.h:632-678 SB_BeginLockup: lock_player_ *)
Definition begin_lockup (s : state) (k : Z) (free : bool) : state * list out :=
  let p :=
    if mono_lock (fnt s) then lock_player s
    else match lock_player s with Some x => Some x | None => if free then Some k else None end in
  (set_lock (if mono_lock (fnt s) then PlayMonophonic s free else s) k p, [LOCKUP_BEGIN k]).
(** hybrid_font.h:680-731 SB_EndLockup, then SetLockup(LOCKUP_NONE) *)
Definition end_lockup (s : state) (free : bool) : state * list out :=
  let s1 := match lock_player s with Some _ => s | None => if lockup_snd (fnt s) then PlayMonophonic s free else s end in
  (set_lock s1 0 None, [LOCKUP_END (lockup s)]).

(** prop_base.h:156-189 Off. Leaving the color change mode is not modelled. *)
Definition do_off (s : state) (ty : off_type) (loc : Z) (free : bool) : state * list out :=
  if pending s then
    let s := set_on (set_pending s false) 0 in
    let '(s, o) := SB_Off s OFF_CANCEL_PREON all free in (s, o)
  else if none (on s) then (s, [])
  else
    let '(s, o1) := if lockup s =? 0 then (s, []) else end_lockup s free in
    let '(s, o2) := TurnOff s ty loc free in
    (if unmute_off s then fst (SetMute (set_vol s (volume s) (muted_volume s) false) false) else s, o1 ++ o2).

(** prop_base.h:256-319 chdir: HybridFont Deactivate and Activate (139-176, 197-205) *)
Definition chdir (s : state) (f : font) : state :=
  State (on s) (pending s) f STATE_OFF (saved s) (check_postoff s) false (lockup s) None (volume s) (muted_volume s) (unmute_off s) (stored s).

(** prop_base.h:357-370 BladeOff, 399-416 SetPreset, 438-450 UpdatePreon *)
Definition do_preset (s : state) (f : font) (refuse slow free : bool) : state * list out :=
  let '(s1, o1) := if IsOn s then do_off s OFF_NORMAL all free else (s, []) in
  let previously_on := if IsOn s && none (on s) then all else on s in
  let s2 := chdir s1 f in
  let '(s3, o3) :=
    if none previously_on then (s2, [])
    else if slow then do_on s2 previously_on refuse free else do_fast_on s2 previously_on refuse free in
  (s3, o1 ++ o3).

Definition step (s : state) (o : op) : state * list out :=
  match o with
  | On loc r free => do_on s loc r free
  | FastOn loc r free => do_fast_on s loc r free
  | Off ty loc free => do_off s ty loc free
  (* hybrid_font.h:808-824 *)
  | Loop preon_playing off_playing free =>
    match fst_ s, preon_playing with
    | STATE_WAIT_FOR_ON, false => TurnOn s (saved s) free
    | _, _ => if check_postoff s && negb off_playing then (set_post s false (saved s), [POSTOFF (saved s)]) else (s, [])
    end
  (* hybrid_font.h:752-806 *)
  | Hum due free =>
    if mono (fnt s) then (s, [])
    else
      let s := if active (fst_ s) && negb (hum s) then set_hum s free else s in
      if negb (hum s) then (s, [])
      else match fst_ s with
      | STATE_OUT => (if due then set_fst s STATE_HUM_FADE_IN else s, [])
      | STATE_HUM_FADE_IN => (if due then set_fst s STATE_HUM_ON else s, [])
      | STATE_HUM_FADE_OUT => (if due then set_hum (set_fst s STATE_OFF) false else s, [])
      | _ => (s, [])
      end
  | Chdir f => (chdir s f, [])
  | SetPreset f r slow free => do_preset s f r slow free
  (* prop_base.h:1328-1377 *)
  | LockCmd k free => if lockup s =? 0 then begin_lockup s k free else end_lockup s free
  (* saber.h:165-176, 183-190 *)
  | ClashLock k free => if IsOn s && (lockup s =? 0) then begin_lockup s k free else (s, [])
  (* saber.h:178-181; saber_base.h:336 LOCKUP_LIGHTNING_BLOCK = 6 *)
  | Lightning free => if IsOn s then begin_lockup s 6 free else (s, [])
  (* saber.h:213-219 *)
  | Release free => if IsOn s && negb (lockup s =? 0) then end_lockup s free else (s, [])
  (* prop_base.h:1648-1659 *)
  | Mute => (fst (SetMute s true), [])
  | Unmute => (fst (SetMute s false), [])
  | Toggle => let '(s1, ok) := SetMute s true in (if ok then s1 else fst (SetMute s false), [])
  (* prop_base.h:1637-1646 *)
  | SetVolume v => (if (0 <=? v) && (v <=? 3000) then set_vol s v (muted_volume s) (unmute_off s) else s, [])
  (* saber.h:116-122 *)
  | DoubleClick =>
    if IsOn s then
      let '(s1, ok) := SetMute s true in
      (if ok then set_vol s1 (volume s1) (muted_volume s1) true else s1, [])
    else (s, [])
  (* prop_base.h:323-336, 347-353 with SAVE_VOLUME *)
  | Poll => (State (on s) (pending s) (fnt s) (fst_ s) (saved s) (check_postoff s) (hum s) (lockup s) (lock_player s) (volume s) (muted_volume s) (unmute_off s) (volume s), [])
  (* prop_base.h:1124-1132 *)
  | Idle => SB_Off s OFF_IDLE all true
  end.
