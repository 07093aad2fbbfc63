(** sound/smooth_swing_v2.h: cross-fading a low and a high sound while the hilt turns.  Floats are
    rationals; the smoothed speed (line 112, 115) and powf(x, SwingSharpness) are given. *)
From Coq Require Import ZArith QArith List Bool.
Import ListNotations.
Local Open Scope Q_scope.

Definition lt (x y : Q) : bool := negb (Qle_bool y x).
(** common/math.h clamp; std::min *)
Definition clamp (x a b : Q) : Q := if lt x a then a else if lt b x then b else x.
Definition fmin (x y : Q) : Q := if lt y x then y else x.

(** struct Data (211-258); players are numbered. *)
Record data := D { pl : option nat; mid : Q; wid : Q; sep : Q }.
Definition begin_ (d : data) : Q := mid d - wid d / 2.
Definition end_ (d : data) : Q := mid d + wid d / 2.
Definition rotate (d : data) (deg : Q) : data := D (pl d) (mid d + deg) (wid d) (sep d).
Definition SetTransition (d : data) (m w : Q) : data := D (pl d) m w (sep d).
(** The part of smooth_swing_config that is used; [pow] is powf with SwingSharpness. *)
Record config := Cfg { sens : Q; duck : Q; thr : Q; t1deg : Q; t2deg : Q; l2h : Q; h2l : Q; maxvol : Q; pow : Q -> Q }.
(** 101-105 *)
Inductive state := OFF | ON | OUT.
Record sw := Sw { A : data; B : data; last_random : Z; is_on : bool; last_micros : Z; st : state }.
Definition sw0 : sw := let d := D None 0 0 0 in Sw d d 0 false 0 OFF.

Inductive which := Low | High.
(** What is done to the players, the hum and the hybrid font. *)
Inductive event :=
| Vol (p : nat) (v : Q) | Stop (p : nat) | Play (p : nat) (w : which) (number : Z) | Fade (p : nat)
| Hum (v : Q) | Accent.

(** Data's methods 212-244 *)
Definition set_volume (d : data) (v : Q) : list event := match pl d with Some p => [Vol p v] | None => [] end.
Definition stop (d : data) : list event := match pl d with Some p => [Stop p] | None => [] end.
Definition off (d : data) : list event := match pl d with Some p => [Fade p] | None => [] end.
Definition play (d : data) (free : option nat) (w : which) (number : Z) : data * list event :=
  match (match pl d with Some p => Some p | None => free end) with
  | Some p => (D (Some p) (mid d) (wid d) (sep d), [Vol p 0; Play p w number])
  | None => (d, [])
  end.

(** What PickRandomSwing asks for: the time, whether the hum plays, the three random numbers and what
    GetFreeWavPlayer answers to the first and to the second call. *)
Record pick := Pick { millis : Z; humming : bool; number : Z; swap : bool; offset : Z; free1 : option nat; free2 : option nat }.
(** 63-84.  The position at which the sounds start is left out.  Only a [play] that needs one takes a
    free player. *)
Definition PickRandomSwing (c : config) (s : sw) (i : pick) : sw * list event :=
  if negb (is_on s) then (s, [])
  else if negb (humming i) then (s, [])
  else if (match pl (A s) with Some _ => true | None => false end) && ((millis i - last_random s) mod 2 ^ 32 <? 1000)%Z then (s, [])
  else
    let e1 := stop (A s) ++ stop (B s) in
    let '(a, e2) := play (A s) (free1 i) Low (number i) in
    let '(b, e3) := play (B s) (match pl (A s) with None => free2 i | Some _ => free1 i end) High (number i) in
    let '(a, b) := if swap i then (b, a) else (a, b) in
    let t1 := inject_Z (offset i) / 1000 * 50 + 10 in
    let a := SetTransition a t1 (t1deg c) in
    let b := SetTransition b (t1 + sep a) (t2deg c) in
    (Sw a b (millis i) (is_on s) (last_micros s) (st s), e1 ++ e2 ++ e3).

(** 151-154, with fuel: [None] when it has run out. *)
Fixpoint turn (fuel : nat) (a b : data) : option (data * data) :=
  if lt (end_ a) 0 then
    match fuel with
    | O => None
    | S n => turn n (D (pl b) (mid a + sep a) (wid b) (sep b)) a
    end
  else Some (a, b).
(** 155-157 *)
Definition mixab (a : data) : Q := if lt (begin_ a) 0 then clamp (- begin_ a / wid a) 0 1 else 0.

(** The inputs of SB_Motion: the speed, the time in microseconds, whether accent swings are on and a
    player sounds, what SetSwingVolume of the hybrid font makes of a volume, and those of a pick. *)
Record motion := Motion { speed : Q; micros : Z; accent : bool; sounding : nat -> bool; ducked : Q -> Q; picking : pick }.
Definition playing (d : data) (i : motion) : bool := match pl d with Some p => sounding i p | None => false end.
(** 117-118 *)
Definition delta (s : sw) (i : motion) : Z :=
  let d := ((micros i - last_micros s) mod 2 ^ 32)%Z in if (1000000 <? d)%Z then 1%Z else d.
(** 144-192, when the swing goes on *)
Definition swinging (c : config) (fuel : nat) (s : sw) (i : motion) (dt : Z) : option (sw * list event) :=
  let strength := fmin 1 (speed i / sens c) in
  match turn fuel (rotate (A s) (- speed i * inject_Z dt / 1000000)) (B s) with
  | None => None
  | Some (a, b) =>
      let m := mixab a in
      let h := pow c strength in
      let hum := 1 - h * duck c / 100 in
      let v := ducked i (h * maxvol c) in
      Some (Sw a b (last_random s) (is_on s) (last_micros s) ON,
            (if is_on s then set_volume a (v * m) ++ set_volume b (v * (1 - m)) else []) ++ [Hum hum])
  end.
(** 193-204: OUT falls through to OFF within the same call. *)
Definition ending (c : config) (s : sw) (i : motion) : sw * list event :=
  let e := set_volume (A s) 0 ++ set_volume (B s) 0 in
  let '(s, e') := PickRandomSwing c (Sw (A s) (B s) (last_random s) (is_on s) (last_micros s) OUT) (picking i) in
  (Sw (A s) (B s) (last_random s) (is_on s) (last_micros s) OFF, e ++ e' ++ [Hum 1]).
(** 138-204 *)
Definition case_on (c : config) (fuel : nat) (s : sw) (i : motion) (dt : Z) : option (sw * list event) :=
  let e := if accent i && (playing (A s) i || playing (B s) i) then [Accent] else [] in
  if Qle_bool (thr c * (9 # 10)) (speed i) then
    match swinging c fuel s i dt with None => None | Some (s, e') => Some (s, e ++ e') end
  else let '(s, e') := ending c s i in Some (s, e ++ e').
(** 107-208 *)
Definition SB_Motion (c : config) (fuel : nat) (s : sw) (i : motion) : option (sw * list event) :=
  let dt := delta s i in
  let s := Sw (A s) (B s) (last_random s) (is_on s) (micros i) (st s) in
  match st s with
  | OFF =>
      let '(s, e) := match pl (A s), pl (B s) with Some _, Some _ => (s, []) | _, _ => PickRandomSwing c s (picking i) end in
      if lt (speed i) (thr c) then Some (s, e ++ [Hum 1])
      else match case_on c fuel (Sw (A s) (B s) (last_random s) (is_on s) (last_micros s) ON) i dt with
           | None => None
           | Some (s, e') => Some (s, e ++ e')
           end
  | ON => case_on c fuel s i dt
  | OUT => let '(s, e) := PickRandomSwing c s (picking i) in
           Some (Sw (A s) (B s) (last_random s) (is_on s) (last_micros s) OFF, e ++ [Hum 1])
  end.

(** 12-48 (the separations), 50-54, 86-99 *)
Definition Activate (c : config) (s : sw) : sw :=
  Sw (D (pl (A s)) (mid (A s)) (wid (A s)) (l2h c)) (D (pl (B s)) (mid (B s)) (wid (B s)) (h2l c)) (last_random s) (is_on s) (last_micros s) (st s).
Definition Deactivate (s : sw) : sw :=
  Sw (D None (mid (A s)) (wid (A s)) (sep (A s))) (D None (mid (B s)) (wid (B s)) (sep (B s))) (last_random s) (is_on s) (last_micros s) (st s).
Definition SB_On (c : config) (s : sw) (i : pick) : sw * list event :=
  PickRandomSwing c (Sw (A s) (B s) (last_random s) true (last_micros s) (st s)) i.
Definition SB_Off (s : sw) (blade0 : bool) : sw * list event :=
  if blade0 then (Sw (A s) (B s) (last_random s) false (last_micros s) (st s), off (A s) ++ off (B s)) else (s, []).

Inductive op := Act | Deact | On (i : pick) | Off (blade0 : bool) | Move (i : motion).
Definition step (c : config) (fuel : nat) (s : sw) (o : op) : option (sw * list event) :=
  match o with
  | Act => Some (Activate c s, [])
  | Deact => Some (Deactivate s, [])
  | On i => Some (SB_On c s i)
  | Off b => Some (SB_Off s b)
  | Move i => SB_Motion c fuel s i
  end.
Fixpoint run (c : config) (fuel : nat) (s : sw) (os : list op) : option (sw * list (list event)) :=
  match os with
  | [] => Some (s, [])
  | o :: os => match step c fuel s o with
               | None => None
               | Some (s, e) => match run c fuel s os with None => None | Some (s, es) => Some (s, e :: es) end
               end
  end.
