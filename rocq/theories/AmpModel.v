(** Power for sound, blades and the SD card: sound/amplifier.h, common/booster.h,
    common/sd_card.h, with the macros of common/state_machine.h. Proffieboard (VERSION_MAJOR >= 4),
    without AUDIO_CONTROL_SGTL5000. The main loop's order and speed are not fixed: the three Loop
    functions are called at any times. Time passes between the operations and in delay(). *)
From Coq Require Import ZArith List Bool.
From Verif Require Import Machine ArithModel.
Import ListNotations.
Open Scope Z_scope.

(** amplifier.h:84-107: where Amplifier::Loop is: in the first while, the first SLEEP, the second SLEEP, the last while *)
Inductive amp_pc := A_playing | A_sleep1 | A_sleep2 | A_idle.
(** booster.h:44-60: in the first while, the SLEEP, the last while *)
Inductive boost_pc := B_active | B_sleep | B_idle.
(** amplifier.h:141-143; whether the amplifier gets power (amplifierPin), whether the DAC runs *)
Record amp := Amp { on_ : bool; last_enabled_ : Z; pin : bool; dac : bool; pc : amp_pc; sleep_until_ : Z }.
(** booster.h:76-79; whether the booster runs (boosterPin) *)
Record boost := Boost { bon_ : bool; blast_ : Z; bpin : bool; bpc : boost_pc; i_ : nat; bsleep_until_ : Z }.
(** sd_card.h:71-73; whether the card is mounted *)
Record card := Card { mounted : bool; slast_ : Z; last_mount_try_ : Z }.
(** The rest: the time in ms; whether a sound plays; SaberBase::IsOn(); whether the style says NoOnOff();
    whether any SaberBase says it is on (DoIsOn); whether the SD card is locked or a stream is
    active; whether USB mass storage is configured. *)
Record state := State {
  clk : Z; playing : bool; lit : bool; noonoff : bool; busy : bool; stream : bool; usb : bool;
  am : amp; bo : boost; sd : card }.
(** Time is given by the 32-bit counter millis(). *)
Definition millis (s : state) : Z := u32 (clk s).
Definition since (s : state) (t : Z) : Z := u32 (millis s - t).

Definition set_am s a := State (clk s) (playing s) (lit s) (noonoff s) (busy s) (stream s) (usb s) a (bo s) (sd s).
Definition set_bo s b := State (clk s) (playing s) (lit s) (noonoff s) (busy s) (stream s) (usb s) (am s) b (sd s).
Definition set_sd s c := State (clk s) (playing s) (lit s) (noonoff s) (busy s) (stream s) (usb s) (am s) (bo s) c.
Definition set_playing s b := State (clk s) b (lit s) (noonoff s) (busy s) (stream s) (usb s) (am s) (bo s) (sd s).
Definition delay s (d : Z) := State (clk s + d) (playing s) (lit s) (noonoff s) (busy s) (stream s) (usb s) (am s) (bo s) (sd s).
Definition set_world s p l n b st u := State (clk s) p l n b st u (am s) (bo s) (sd s).

(** amplifier.h:22-35 Active *)
Definition AmpActive (s : state) : bool := playing s || (since s (last_enabled_ (am s)) <? 30).
(** prop_base.h:92-97 NeedsPower *)
Definition NeedsPower (s : state) : bool := lit s || noonoff s.
(** booster.h:14-24 Active *)
Definition BoosterActive (s : state) : bool :=
  AmpActive s || (since s (blast_ (bo s)) <? 10000) || NeedsPower s || busy s.

(** booster.h:26-36 Enable *)
Definition BoosterEnable (s : state) : state :=
  let b := bo s in
  if bon_ b then set_bo s (Boost (bon_ b) (millis s) (bpin b) (bpc b) (i_ b) (bsleep_until_ b))
  else delay (set_bo s (Boost true (millis s) true (bpc b) (i_ b) (bsleep_until_ b))) 10.
(** amplifier.h:37-57 Enable *)
Definition AmpEnable (s : state) : state :=
  let a := am s in
  let s := set_am s (Amp (on_ a) (millis s) (pin a) true (pc a) (sleep_until_ a)) in
  if on_ a then s
  else
    let a := am s in
    let s := BoosterEnable (set_am s (Amp true (last_enabled_ a) (pin a) (dac a) (pc a) (sleep_until_ a))) in
    let a := am s in
    delay (set_am s (Amp (on_ a) (last_enabled_ a) true (dac a) (pc a) (sleep_until_ a))) 10.

(** SLEEP (state_machine.h:13): is it still asleep? *)
Definition asleep (s : state) (until : Z) : bool := millis s <? until.
Definition goto (s : state) (p : amp_pc) (until : Z) : state :=
  let a := am s in set_am s (Amp (on_ a) (last_enabled_ a) (pin a) (dac a) p until).
(** amplifier.h:103-104 *)
Definition amp_end (s : state) : state :=
  let a := am s in set_am s (Amp (on_ a) (last_enabled_ a) (pin a) false A_idle (sleep_until_ a)).
(** amplifier.h:89-101: after the first SLEEP, up to the second one *)
Definition amp_off (s : state) : state :=
  if AmpActive s then goto s A_playing (sleep_until_ (am s))
  else
    let a := am s in
    let until := u32 (millis s + 20) in
    let s := set_am s (Amp false (last_enabled_ a) false (dac a) A_sleep2 until) in
    if asleep s until then s else amp_end s.
(** amplifier.h:86-88 *)
Definition amp_top (s : state) : state :=
  if AmpActive s then goto s A_playing (sleep_until_ (am s))
  else
    let until := u32 (millis s + 20) in
    if asleep s until then goto s A_sleep1 until else amp_off (goto s A_sleep1 until).
Definition AmpLoop (s : state) : state :=
  match pc (am s) with
  | A_playing => amp_top s
  | A_sleep1 => if asleep s (sleep_until_ (am s)) then s else amp_off s
  | A_sleep2 => if asleep s (sleep_until_ (am s)) then s else if on_ (am s) then amp_top s else amp_end s
  | A_idle => if AmpActive s then amp_top s else s
  end.

Definition bgoto (s : state) (p : boost_pc) (i : nat) (until : Z) : state :=
  let b := bo s in set_bo s (Boost (bon_ b) (blast_ b) (bpin b) p i until).
(** booster.h:50-55: after the for loop *)
Definition boost_off (s : state) : state :=
  if BoosterActive s then bgoto s B_active (i_ (bo s)) (bsleep_until_ (bo s))
  else let b := bo s in set_bo s (Boost false (blast_ b) false B_idle (i_ b) (bsleep_until_ b)).
(** booster.h:48-49: the for loop, with [n] rounds left *)
Fixpoint boost_for (n : nat) (s : state) : state :=
  match n with
  | O => boost_off s
  | S n =>
    if BoosterActive s then boost_off s
    else
      let until := u32 (millis s + 100) in
      let s := bgoto s B_sleep (i_ (bo s)) until in
      if asleep s until then s else boost_for n (bgoto s B_sleep (S (i_ (bo s))) until)
  end.
Definition boost_top (s : state) : state :=
  if BoosterActive s then bgoto s B_active (i_ (bo s)) (bsleep_until_ (bo s))
  else boost_for 10 (bgoto s B_active 0 (bsleep_until_ (bo s))).
Definition BoosterLoop (s : state) : state :=
  match bpc (bo s) with
  | B_active => boost_top s
  | B_sleep =>
    if asleep s (bsleep_until_ (bo s)) then s
    else let i := S (i_ (bo s)) in boost_for (10 - i) (bgoto s B_sleep i (bsleep_until_ (bo s)))
  | B_idle => if BoosterActive s then boost_top s else s
  end.

(** sd_card.h:15-33 Active *)
Definition SDActive (s : state) : bool * state :=
  let stay := set_sd s (Card (mounted (sd s)) (millis s) (last_mount_try_ (sd s))) in
  if AmpActive s || stream s then (true, stay)
  else if lit s then (true, stay)
  else if usb s then (false, s)
  else (since s (slast_ (sd s)) <? 1000, s).
(** sd_card.h:35-54 Mount. [ok]: the card becomes available, after [w] ms, and can be mounted. That
    the wait ends after 1000 ms is not modelled: [w] is any time. *)
Definition Mount (s : state) (w : nat) (ok : bool) : state :=
  let s' := set_sd s (Card (mounted (sd s) || ok) (millis s) (last_mount_try_ (sd s))) in
  if mounted (sd s) then s' else delay s' (Z.of_nat w).
(** sd_card.h:61-78 Loop. [can]: the card is there; [ok]: it can be mounted. *)
Definition SDLoop (s : state) (can ok : bool) : state :=
  if mounted (sd s) then
    let '(a, s) := SDActive s in
    if a then s else set_sd s (Card false (slast_ (sd s)) (last_mount_try_ (sd s)))
  else
    let '(a, s) := SDActive s in
    if a && (1000 <? since s (last_mount_try_ (sd s))) then
      let s := set_sd s (Card (mounted (sd s)) (slast_ (sd s)) (millis s)) in
      if can then Mount s 0 ok else s
    else s.

(** Operations.
    - Tick d: d ms pass. Loop functions: as above; [can], [ok] as in SDLoop.
    - Enable: EnableAmplifier() without a sound after it; Play: MountSDCard(), EnableAmplifier() and a sound
      begins (buffered_wav_player.h:20-29, 55-70, beeper.h:43-50, talkie.h:677-690); Quiet: no sound plays any more.
    - World: blades are lit or put out and so on. EnableBooster: from the blades.
    - AmpOn … BoosterOff: the commands (amplifier.h:109-125, booster.h:62-73). *)
Inductive op :=
| Tick (d : nat) | Amp_Loop | Booster_Loop | SD_Loop (can ok : bool)
| Enable | Play (w : nat) (ok : bool) | Quiet | World (l n b st u : bool) | EnableBooster | MountCard (w : nat) (ok : bool)
| AmpOn | AmpOff | BoosterOn | BoosterOff.
Definition step (s : state) (o : op) : state :=
  match o with
  | Tick d => delay s (Z.of_nat d)
  | Amp_Loop => AmpLoop s
  | Booster_Loop => BoosterLoop s
  | SD_Loop can ok => SDLoop s can ok
  | Enable | AmpOn => AmpEnable s
  | Play w ok => set_playing (AmpEnable (Mount s w ok)) true
  | Quiet => set_playing s false
  | World l n b st u => set_world s (playing s) l n b st u
  | EnableBooster | BoosterOn => BoosterEnable s
  | MountCard w ok => Mount s w ok
  | AmpOff => let a := am s in set_am s (Amp (on_ a) (last_enabled_ a) false (dac a) (pc a) (sleep_until_ a))
  | BoosterOff => let b := bo s in set_bo s (Boost (bon_ b) (blast_ b) false (bpc b) (i_ b) (bsleep_until_ b))
  end.
(** After the Setup functions (amplifier.h:60-67, booster.h:39-44, sd_card.h:57-59), t ms after power-on *)
Definition state0 (t : Z) : state :=
  State t false false false false false false
    (Amp false (u32 t) false false A_playing 0) (Boost false (u32 t) false B_active 0 0) (Card false (u32 t) 0).
