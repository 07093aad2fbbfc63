(** Buttons: buttons/debounced_button.h, button_base.h, latching_button.h, fast_button.h,
    floating_button.h, rotary.h, common/events.h. *)
From Coq Require Import ZArith List Bool.
Import ListNotations.
Open Scope Z_scope.

(** uint32_t difference of two millis() values. *)
Definition since (now t : Z) : Z := (now - t) mod 2 ^ 32.

(** * debounced_button.h *)
(** debounced_button.h:10-22: where Update continues: at its start, at the YIELD of line
    15, or at one of the two YIELDs before a Read() in the inner loop (17, 20). *)
Inductive dstate := DStart | DOff | DHold.
Record debouncer := Deb { dpos : dstate; last_off_ : Z; pushed_ : bool }.
(** debounced_button.h:10-27 Update and DebouncedRead: one call at millis() = [now] when
    Read() would give [raw].  The first call does not read the input. *)
Definition deb_step (timeout : Z) (d : debouncer) (now : Z) (raw : bool) : debouncer :=
  let off := Deb DOff now false in
  match dpos d with
  | DStart => off
  | DOff => if raw then Deb DHold (last_off_ d) (pushed_ d) else off
  | DHold => if raw then Deb DHold (last_off_ d) (since now (last_off_ d) >? timeout) else off
  end.

(** * button_base.h *)
(** events.h:45-87: the eight event kinds, numbered from 1; EVENT_FIRST_..., _SECOND_...
    are these plus 8, 16, ...: events.h "These five sections must be identical". *)
Definition PRESSED := 1. Definition RELEASED := 2. Definition HELD := 3. Definition HELD_MEDIUM := 4.
Definition HELD_LONG := 5. Definition CLICK_SHORT := 6. Definition SAVED_CLICK_SHORT := 7. Definition CLICK_LONG := 8.
(** events.h:58,67 EVENT_SECOND_PRESSED - EVENT_FIRST_PRESSED *)
Definition SECTION := 8.

(** One call of DebouncedRead() by the button's loop, and what happens around it:
    [now] millis() (taken as constant from one DebouncedRead() to the next), [raw] the
    input level, [eat] whether somebody cleared our bit in current_modifiers since the
    previous call, [eat2] whether the handler of the release event does, [handles]
    which event numbers the prop's Event() returns true for. *)
Record poll := Poll { now : Z; raw : bool; eat : bool; eat2 : bool; handles : Z -> bool }.
(** A call of Send: the event numbers passed to prop.Event, and Send's result. *)
Record sent := Sent { ev : Z; cnt : Z; delivered : list Z; ok : bool }.
(** button_base.h:50-56 Send *)
Definition send (p : poll) (e n : Z) : sent :=
  if handles p (e + SECTION * n) then Sent e n [e + SECTION * n] true
  else Sent e n [e + SECTION * n; e] (handles p e).

(** Which DebouncedRead() comes next: button_base.h:70, 87, 90, 93, 96, 106. *)
Inductive pos := P70 | P87 | P90 | P93 | P96 | P106.
(** button_base.h:168-171 members; [saved] is saved_event_ != 0 (the only value ever
    stored is EVENT_SAVED_CLICK_SHORT), [mod_] our bit in current_modifiers. *)
Record button := Button { at_ : pos; push_millis_ : Z; press_count_ : Z; saved : bool; mod_ : bool }.

(** button_base.h:60-122 SendClick and Loop, from the result [d] of one DebouncedRead() to the next.
    The YIELDs in between only return to the main loop. *)
Definition but_step (b : button) (p : poll) (d : bool) : button * list sent :=
  let m := mod_ b && negb (eat p) in
  let n := press_count_ b in
  let el := since (now p) (push_millis_ b) in
  let go l := Button l (push_millis_ b) n (saved b) m in
  match at_ b with
  | P70 =>
    if d then
      let n' := if el <? 500 then (if n <? 4 then n + 1 else n) else 1 in
      (Button P87 (now p) n' false true, [send p PRESSED n'])
    else if saved b && (el >? 500) then (Button P70 (push_millis_ b) n false m, [send p SAVED_CLICK_SHORT n])
    else (go P70, [])
  | P87 => if d && m then (if el >? 300 then (go P90, [send p HELD n]) else (go P87, [])) else (go P106, [])
  | P90 => if d && m then (if el >? 800 then (go P93, [send p HELD_MEDIUM n]) else (go P90, [])) else (go P87, [])
  | P93 => if d && m then (if el >? 2000 then (go P96, [send p HELD_LONG n]) else (go P93, [])) else (go P90, [])
  | P96 => if d && m then (go P96, []) else (go P93, [])
  | P106 =>
    if d then (go P106, [])
    else
      let rel := send p RELEASED n in
      if m && negb (eat2 p) then
        if el <? 500 then
          let c := send p CLICK_SHORT n in
          (Button P70 (push_millis_ b) n (if ok c then saved b else true) false, [rel; c])
        else if el <? 2500 then (Button P70 (push_millis_ b) n (saved b) false, [rel; send p CLICK_LONG n])
        else (Button P70 (push_millis_ b) n (saved b) false, [rel])
      else (Button P70 ((now p - 10000) mod 2 ^ 32) n (saved b) false, [rel])
  end.
(** A button with its debouncer. *)
Definition poll_step (timeout : Z) (s : debouncer * button) (p : poll) : (debouncer * button) * (bool * list sent) :=
  let d := deb_step timeout (fst s) (now p) (raw p) in
  let '(b, out) := but_step (snd s) p (pushed_ d) in ((d, b), (pushed_ d, out)).

(** * latching_button.h:33-42 Loop, per DebouncedRead(): [on] is whether the loop is past
    the EVENT_LATCH_ON. *)
Definition latch_step (on : bool) (d : bool) : bool * list bool :=
  if Bool.eqb on d then (on, []) else (d, [d]).

(** * fast_button.h:19-27: [pressed] and one interrupt or one Loop(). *)
Inductive fast_event := Falling | FastLoop.
Definition fast_step (pressed : bool) (e : fast_event) : bool * list Z :=
  match e with Falling => (true, []) | FastLoop => (false, if pressed then [CLICK_SHORT] else []) end.

(** * floating_button.h:10-16 Vote; votes_for_change_ is a uint8_t. *)
Definition vote (s : bool * Z) (floating : bool) : bool * Z :=
  let '(f, v) := s in
  if Bool.eqb floating f then (f, 0)
  else let v := (v + 1) mod 256 in if v <=? 10 then (f, v) else (floating, 0).

(** * events.h *)
(** events.h:40-43 compress_button for 32-bit values: 31 - clz is the highest set bit. *)
Definition compress_button (b : Z) : Z := if b =? 0 then 0 else Z.log2 b.
(** events.h:112 EVENTID, a uint32_t *)
Definition EVENTID (button event modifiers : Z) : Z :=
  Z.lor (Z.lor (Z.shiftl event 24) (Z.shiftl (compress_button button) 17)) (Z.land modifiers (Z.lnot button)) mod 2 ^ 32.

(** * rotary.h *)
Definition i8 (x : Z) : Z := (x + 128) mod 256 - 128.
(** rotary.h:106-109: the interrupt handler attached. *)
Inductive handler := LO1 | LO2 | HI1 | HI2.
(** rotary.h:67-84 adjustPhaseAndAdd on the int8_t delta_ *)
Definition adjust (delta p d : Z) : Z :=
  let delta := match (delta - p) mod 4 with
               | 0 => delta
               | 1 => delta - 1
               | 2 => if delta >? 0 then delta - 2 else delta + 2
               | _ => delta + 1
               end in
  i8 (delta + d).
(** rotary.h:85-104 Setup1, Setup2: read one pin, attach the handler for its next edge *)
Definition setup1 (pin1 : bool) : handler * Z := if pin1 then (LO1, 1) else (HI1, -1).
Definition setup2 (pin2 : bool) : handler * Z := if pin2 then (LO2, 1) else (HI2, -1).
(** rotary.h:106-109 *)
Definition fire (h : handler) (delta : Z) (pin1 pin2 : bool) : handler * Z :=
  match h with
  | LO1 => let '(h, d) := setup2 pin2 in (h, adjust delta 0 d)
  | LO2 => let '(h, d) := setup1 pin1 in (h, adjust delta 1 (- d))
  | HI1 => let '(h, d) := setup2 pin2 in (h, adjust delta 2 (- d))
  | HI2 => let '(h, d) := setup1 pin1 in (h, adjust delta 3 d)
  end.
(** The pins of a quadrature encoder at quarter step [x]. *)
Definition pins (x : Z) : bool * bool :=
  match x mod 4 with 0 => (true, true) | 1 => (false, true) | 2 => (false, false) | _ => (true, false) end.
(** A turn by one quarter step: the attached interrupt fires if its edge occurs. *)
Definition edge (h : handler) (old new : bool * bool) : bool :=
  match h with
  | LO1 => fst old && negb (fst new) | HI1 => negb (fst old) && fst new
  | LO2 => snd old && negb (snd new) | HI2 => negb (snd old) && snd new
  end.
Record knob := Knob { angle : Z; hnd : handler; delta_ : Z; pos_ : Z }.
Definition turn (k : knob) (forward : bool) : knob :=
  let x := if forward then angle k + 1 else angle k - 1 in
  if edge (hnd k) (pins (angle k)) (pins x) then
    let '(h, d) := fire (hnd k) (delta_ k) (fst (pins x)) (snd (pins x)) in Knob x h d (pos_ k)
  else Knob x (hnd k) (delta_ k) (pos_ k).
(** rotary.h:130-142 Loop; pos_ is an int8_t.  Each iteration moves pos_ by
    steps_per_detent towards delta_, or away from it by wrap-around, so 128 is enough
    fuel to see what happens. *)
Fixpoint loop_up (fuel : nat) (spd delta pos : Z) : Z * list Z :=
  match fuel with
  | O => (pos, [])
  | S f => if delta - pos >=? spd then let '(q, l) := loop_up f spd delta (i8 (pos + spd)) in (q, 1 :: l) else (pos, [])
  end.
Fixpoint loop_down (fuel : nat) (spd delta pos : Z) : Z * list Z :=
  match fuel with
  | O => (pos, [])
  | S f => if delta - pos <=? - spd + 1 then let '(q, l) := loop_down f spd delta (i8 (pos - spd)) in (q, -1 :: l) else (pos, [])
  end.
Definition rotary_loop (spd : Z) (k : knob) : knob * list Z :=
  let '(p, ups) := loop_up 128 spd (delta_ k) (pos_ k) in
  let '(p, downs) := loop_down 128 spd (delta_ k) p in
  (Knob (angle k) (hnd k) (delta_ k) p, ups ++ downs).
Inductive knob_op := Turn (forward : bool) | KLoop.
Definition knob_step (spd : Z) (k : knob) (o : knob_op) : knob * list Z :=
  match o with Turn f => (turn k f, []) | KLoop => rotary_loop spd k end.
