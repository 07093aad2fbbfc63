(** Blade identification: blades/blade_id.h and the parts of props/prop_base.h that use it. Floats are rational numbers. *)
From Coq Require Import ZArith QArith Qabs List Bool.
From Verif Require Import Machine ArithModel.
Import ListNotations.
Open Scope Z_scope.

(** events.h:110 *)
Definition NO_BLADE : Z := 1000000000.
(** blade_id.h:6-21 with the value read from the pin, 0 to 1023 *)
Definition ExternalPullupBladeID (PULLUP_OHMS : Q) (blade_id : Z) : Q :=
  let volts := (inject_Z blade_id * (33 # 10) / inject_Z 1024)%Q in
  let amps := (((33 # 10) - volts) / PULLUP_OHMS)%Q in
  (volts / amps)%Q.
(** blade_id.h:36-43 *)
Definition SnapshotBladeID (blade_id : Z) : Q := inject_Z blade_id.
(** blade_id.h:46-61; v2: PROFFIEBOARD_VERSION == 2 *)
Definition BridgedPullupBladeID (v2 : bool) (blade_id : Z) : Q :=
  let ret := ExternalPullupBladeID (inject_Z 37000) blade_id in if v2 then (ret + inject_Z 470)%Q else ret.
(** blade_id.h:64-72: [ids] are the N results *)
Definition AverageBladeIDNTimes (ids : list Q) : Q := (fold_left Qplus ids 0 / inject_Z (Z.of_nat (length ids)))%Q.
(** blade_id.h:92-104 *)
Definition NO_BLADE_RangeID (min max : Z) (ret : Q) : Q :=
  if Qle_bool (inject_Z min) ret && Qle_bool ret (inject_Z max) then (ret + inject_Z NO_BLADE)%Q else ret.

(** blade_config.h:6-18: the resistor; the blades, None for NULL *)
Record config := Config { ohm : Z; blades : list (option nat) }.
(** prop_base.h:541-559. [pin]: BLADE_DETECT_PIN is defined *)
Definition id (pin detected : bool) (r : Q) : Q := if pin && negb detected then (r + inject_Z NO_BLADE)%Q else r.
(** prop_base.h:569-575 *)
Fixpoint best_of (ohms : list Z) (i : nat) (resistor : Q) (best_config : nat) (best_err : Q) : nat :=
  match ohms with
  | [] => best_config
  | o :: ohms =>
    let err := Qabs (resistor - inject_Z o) in
    if negb (Qle_bool best_err err) then best_of ohms (S i) resistor i err else best_of ohms (S i) resistor best_config best_err
  end.
(** prop_base.h:561-578 *)
Definition FindBestConfig (cs : list config) (resistor : Q) : nat :=
  if (1 <? length cs)%nat then best_of (map ohm cs) 0 resistor 0 (inject_Z 100000000) else 0%nat.

(** What the rest of the program is told *)
Inductive event := Scanned | BladeDetect (on : bool) | NewFont | Bad_blade.
(** current_config, an index (None: NULL); blade_detected_; find_blade_again_pending_; last_scan_id_; which blades are active; whether a
    null pointer was used; the time in ms *)
Record state := State { clk : Z; current : option nat; detected : bool; pending : bool; last_scan : Z; active : nat -> bool; crashed : bool }.
Definition put (f : nat -> bool) (i : nat) (x : bool) (j : nat) : bool := if (i =? j)%nat then x else f j.

Section Prop_.
Variable pin : bool.
Variable cs : list config.
Variable scan_millis : Z.
Definition config_of (i : nat) : config := nth i cs (Config 0 []).
(** prop_base.h:629-634: ACTIVATE, up to the first NULL *)
Fixpoint activate (bs : list (option nat)) (a : nat -> bool) : (nat -> bool) * bool :=
  match bs with
  | [] => (a, true)
  | Some b :: bs => activate bs (put a b true)
  | None :: _ => (a, false)
  end.
(** prop_base.h:624-651 (presets are left out) *)
Definition FindBlade (r : Q) (s : state) : state * list event :=
  let i := FindBestConfig cs (id pin (detected s) r) in
  let '(a, good) := activate (blades (config_of i)) (active s) in
  (State (clk s) (Some i) (detected s) (pending s) (last_scan s) a (crashed s), if good then [] else [Bad_blade]).
(** prop_base.h:370-371, 745: UnSetStyle of each blade *)
Definition unset_ok (bs : list (option nat)) : bool := forallb (fun b => match b with None => false | _ => true end) bs.
(** prop_base.h:747-752 *)
Fixpoint deactivate (bs : list (option nat)) (a : nat -> bool) : nat -> bool :=
  match bs with
  | [] => a
  | Some b :: bs => deactivate bs (put a b false)
  | None :: bs => deactivate bs a
  end.
(** prop_base.h:736-755 *)
Definition FindBladeAgain (r : Q) (s : state) : state * list event :=
  match current s with
  | None => (s, [])
  | Some i =>
    let bs := blades (config_of i) in
    if unset_ok bs then FindBlade r (State (clk s) (current s) (detected s) (pending s) (last_scan s) (deactivate bs (active s)) (crashed s))
    else (State (clk s) (current s) (detected s) (pending s) (last_scan s) (active s) true, [])
  end.
(** prop_base.h:586-599 *)
Definition ScanBladeIdNow (r : Q) (s : state) : state * list event :=
  let now := u32 (clk s) in
  if scan_millis <? u32 (now - last_scan s) then
    let best := FindBestConfig cs (id pin (detected s) r) in
    let other := match current s with Some i => negb (i =? best)%nat | None => true end in
    (State (clk s) (current s) (detected s) (if other then true else pending s) now (active s) (crashed s), [Scanned])
  else (s, []).
(** prop_base.h:605, 607 *)
Definition level (s : state) : Z := match current s with Some i => Z.quot (ohm (config_of i)) NO_BLADE | None => 0 end.
(** prop_base.h:602-617 *)
Definition PollScanId (r : Q) (s : state) : state * list event :=
  if pending s then
    let before := level s in
    let '(s, ev) := FindBladeAgain r (State (clk s) (current s) (detected s) false (last_scan s) (active s) (crashed s)) in
    let after := level s in
    (s, ev ++ [if before <? after then BladeDetect false else if after <? before then BladeDetect true else NewFont])
  else (s, []).
(** saber.h:70-85 *)
Definition Detect (on : bool) (r : Q) (s : state) : state * list event :=
  let '(s, ev) := FindBladeAgain r (State (clk s) (current s) on (pending s) (last_scan s) (active s) (crashed s)) in
  (s, ev ++ [BladeDetect on]).
(** [r]: what the identification class measures then. Again: the command "scanid" (prop_base.h:1240-1243). Once a null pointer was used
    nothing more happens. *)
Inductive op := Tick (d : nat) | Scan (r : Q) | Poll (r : Q) | Detected (on : bool) (r : Q) | Again (r : Q).
Definition step (s : state) (o : op) : state * list event :=
  if crashed s then (s, []) else
  match o with
  | Tick d => (State (clk s + Z.of_nat d) (current s) (detected s) (pending s) (last_scan s) (active s) (crashed s), [])
  | Scan r => ScanBladeIdNow r s
  | Poll r => PollScanId r s
  | Detected on r => Detect on r s
  | Again r => FindBladeAgain r s
  end.
(** ProffieOS.ino:1612-1657: the detect button warms up to [d], then FindBlade measures [r] at time [t] *)
Definition boot (t : Z) (d : bool) (r : Q) : state * list event := FindBlade r (State t None d false 0 (fun _ => false) false).
End Prop_.
