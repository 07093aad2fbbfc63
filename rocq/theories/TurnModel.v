(** Pixel blades taking turns with the shared frame buffer, and their power:
    blades/ws2811_blade.h, any number of WS2811_Blade objects. *)
From Coq Require Import ZArith List Bool PeanoNat.
From Verif Require Import ArithModel.
Import ListNotations.
Open Scope Z_scope.

(** Where Loop() resumes (state_machine.h): at the start, or at one of the three YIELDs of
    ws2811_blade.h:249, 271 and 286. *)
Inductive pc := Start | AtTop | AtBegin | AtEnd.
(** 312-328: the members of one blade. [linked]: its Looper is linked (128, 137);
    [style]: current_style_ is set. *)
Record blade := Blade { linked : bool; at_ : pc; style : bool; run_ : bool; on : bool; powered : bool; allow : bool; off_req : bool; delay_start : Z }.
Definition blade0 : blade := Blade false Start false false false false false false 0.
(** All blades, and current_blade (13). *)
Record state := State { blades : nat -> blade; current : option nat }.
Definition state0 : state := State (fun _ => blade0) None.

(** What the outside sees: BeginFrame, EndFrame of the blade's pin; pixels filled with the
    style's colors or black in between; the power pins. *)
Inductive event := Begin (i : nat) | Draw (i : nat) | Black (i : nat) | End (i : nat) | PinOn (i : nat) | PinOff (i : nat).

(** What Loop() meets: IsReadyForBeginFrame and IsReadyForEndFrame when asked, the latter also
    when asked right after powering up; whether the style calls allow_disable; millis(). *)
Record world := W { rb : bool; re : bool; re_up : bool; allows : bool; now : Z }.
Inductive op :=
| Loop (i : nat) (w : world)
| Activate (i : nat) | Deactivate (i : nat) | SetStyle (i : nat) | UnSetStyle (i : nat)
| SBOn (i : nat) | SBEffect (i : nat) | SBOff (i : nat) (idle : bool).

Definition is_me (c : option nat) (i : nat) : bool := match c with Some j => Nat.eqb i j | None => false end.

(** 87-118 Power: the blade, current_blade, and what is seen. The waits for the pin inside
    it block. EnableBooster is not modelled. *)
Definition Power (i : nat) (b : blade) (cur : option nat) (v : bool) : blade * option nat * list event :=
  let b' := Blade (linked b) (at_ b) (style b) (run_ b) (on b) v false (off_req b) (delay_start b) in
  if negb (powered b) && v then
    (b', None, [Begin i; Black i; PinOn i; End i; Begin i; Black i; End i; Begin i; Black i; End i])
  else if powered b && negb v then
    (b', None, [Begin i; Black i; End i; PinOff i])
  else (b', cur, []).

(** 224-235 PowerOff. millis() is the same in both calls. *)
Definition PowerOff (delay : Z) (i : nat) (b : blade) (cur : option nat) (t : Z) : blade * option nat * list event :=
  let st := if delay_start b =? 0 then t else delay_start b in
  let b1 := Blade (linked b) (at_ b) (style b) (run_ b) (on b) (powered b) (allow b) (off_req b) st in
  if u32 (t - st) <? delay then (b1, cur, [])
  else
    let '(b2, cur2, ev) := Power i b1 cur false in
    (Blade (linked b2) (at_ b2) (style b2) false (on b2) (powered b2) (allow b2) false 0, cur2, ev).

Definition goto (b : blade) (p : pc) : blade := Blade (linked b) p (style b) (run_ b) (on b) (powered b) (allow b) (off_req b) (delay_start b).
(** 247-249: the top of the loop up to the YIELD *)
Definition top (i : nat) (b : blade) (cur : option nat) : blade * option nat :=
  (goto b AtTop, if is_me cur i then None else cur).
(** 286-300: from the wait for the end of the frame on. 287-293 (BLADE_ID_SCAN_MILLIS) are not
    modelled. *)
Definition try_end (delay : Z) (i : nat) (b : blade) (cur : option nat) (ready : bool) (t : Z) : blade * option nat * list event :=
  if negb ready then (goto b AtEnd, cur, [])
  else
    let '(b1, cur1, ev) :=
      if powered b && allow b then
        PowerOff delay i (Blade (linked b) (at_ b) (style b) (run_ b) (on b) (powered b) (allow b) true (delay_start b)) cur t
      else (b, cur, []) in
    let '(b2, cur2) := top i b1 cur1 in
    (b2, cur2, End i :: ev).
(** 271-286: from the wait for the beginning of the frame on *)
Definition try_begin (delay : Z) (i : nat) (b : blade) (cur : option nat) (w : world) : blade * option nat * list event :=
  if negb (rb w) then (goto b AtBegin, cur, [])
  else
    let dis := style b && allows w && negb (on b) in
    let b1 := Blade (linked b) (at_ b) (style b) (run_ b) (on b) (powered b) dis (off_req b) (delay_start b) in
    let ev1 := Begin i :: if style b then [Draw i] else [] in
    if negb (powered b1) then
      if dis then
        let '(b2, cur2) := top i (Blade (linked b1) (at_ b1) (style b1) false (on b1) (powered b1) dis (off_req b1) (delay_start b1)) cur in
        (b2, cur2, ev1)
      else
        let '(b2, cur2, ev2) := Power i b1 cur true in
        let '(b3, cur3, ev3) := if re_up w then try_end delay i b2 cur2 true (now w) else (goto b2 AtEnd, cur2, []) in
        (b3, cur3, ev1 ++ ev2 ++ ev3)
    else
      let '(b3, cur3, ev3) := try_end delay i b1 cur (re w) (now w) in
      (b3, cur3, ev1 ++ ev3).
(** 244-303 Loop *)
Definition loop (delay : Z) (i : nat) (b : blade) (cur : option nat) (w : world) : blade * option nat * list event :=
  match at_ b with
  | Start => let '(b, cur) := top i b cur in (b, cur, [])
  | AtTop =>
    if negb (style b) || negb (run_ b) then let '(b, cur) := top i b cur in (b, cur, [])
    else match cur with
    | Some _ => let '(b, cur) := top i b cur in (b, cur, [])
    | None =>
      if off_req b then
        let '(b1, cur1, ev) := PowerOff delay i b (Some i) (now w) in
        let '(b2, cur2) := top i b1 cur1 in (b2, cur2, ev)
      else try_begin delay i b (Some i) w
    end
  | AtBegin => if is_me cur i then try_begin delay i b cur w else let '(b, cur) := top i b cur in (b, cur, [])
  | AtEnd => if is_me cur i then try_end delay i b cur (re w) (now w) else let '(b, cur) := top i b cur in (b, cur, [])
  end.

Definition put (bs : nat -> blade) (i : nat) (b : blade) : nat -> blade := fun x => if Nat.eqb x i then b else bs x.
Section Step.
  Variable delay : nat -> Z. (* poweroff_delay_ms_ of each blade *)
  (** One call. Loop is only called on linked blades (looper.h). 121-138 Activate, Deactivate;
      158-166 SetStyle, UnSetStyle; 171-192 SB_On2, SB_Effect2, SB_Off2. *)
  Definition step (s : state) (o : op) : state * list event :=
    match o with
    | Loop i w =>
      let b := blades s i in
      if linked b then let '(b', cur, ev) := loop (delay i) i b (current s) w in (State (put (blades s) i b') cur, ev) else (s, [])
    | Activate i =>
      let b := blades s i in (State (put (blades s) i (Blade true (at_ b) (style b) true (on b) (powered b) (allow b) (off_req b) (delay_start b))) (current s), [])
    | Deactivate i =>
      let b := blades s i in
      let '(b', cur, ev) := Power i b (current s) false in
      (State (put (blades s) i (Blade false (at_ b') (style b') (run_ b') (on b') (powered b') (allow b') (off_req b') (delay_start b'))) cur, ev)
    | SetStyle i =>
      let b := blades s i in (State (put (blades s) i (Blade (linked b) (at_ b) true true (on b) (powered b) (allow b) (off_req b) (delay_start b))) (current s), [])
    | UnSetStyle i =>
      let b := blades s i in (State (put (blades s) i (Blade (linked b) (at_ b) false (run_ b) (on b) (powered b) (allow b) (off_req b) (delay_start b))) (current s), [])
    | SBOn i =>
      let b := blades s i in (State (put (blades s) i (Blade (linked b) (at_ b) (style b) true true (powered b) (allow b) false 0)) (current s), [])
    | SBEffect i =>
      let b := blades s i in (State (put (blades s) i (Blade (linked b) (at_ b) (style b) true (on b) (powered b) (allow b) false 0)) (current s), [])
    | SBOff i idle =>
      let b := blades s i in
      (State (put (blades s) i (Blade (linked b) (at_ b) (style b) (run_ b) false (powered b) (allow b) (if idle then true else off_req b) (delay_start b))) (current s), [])
    end.
End Step.
