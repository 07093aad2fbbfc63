(** What blades sharing a frame buffer must do. *)
From Coq Require Import ZArith List Bool PeanoNat.
From Verif Require Import TurnModel.
Import ListNotations.
Open Scope Z_scope.

(** Nobody but blade i began a frame between i's last BeginFrame and each EndFrame of i.
    [last]: who called BeginFrame last. *)
Fixpoint owned (last : option nat) (tr : list event) : Prop :=
  match tr with
  | [] => True
  | Begin i :: tr => owned (Some i) tr
  | End i :: tr => last = Some i /\ owned last tr
  | _ :: tr => owned last tr
  end.

(** The frame buffer: free, begun by a blade, or filled by it. *)
Inductive buffer := Free | Begun (i : nat) | Full (i : nat).
Definition fill (b : buffer) (i : nat) : buffer := match b with Begun j => if Nat.eqb i j then Full i else b | _ => b end.
Definition buffer_after (b : buffer) (e : event) : buffer :=
  match e with Begin i => Begun i | Draw i | Black i => fill b i | End _ => Free | _ => b end.
(** A blade sends a frame only if it began it, filled it, and nobody began another in between;
    and sends it once. *)
Fixpoint sends_own (b : buffer) (tr : list event) : Prop :=
  match tr with
  | [] => True
  | e :: tr => match e with End i => b = Full i | _ => True end /\ sends_own (buffer_after b e) tr
  end.

(** *** The histories and situations the theorems speak of *)
(** No style is removed, and no frame is sent in the very call that powered the blade up. *)
Definition keeps_style (o : op) : Prop := match o with UnSetStyle _ => False | Loop _ w => re_up w = false | _ => True end.
(** A Loop call in which the LED driver never makes the blade wait. *)
Definition ready (w : world) : Prop := rb w = true /\ re w = true /\ re_up w = true.
Definition other_ready (i : nat) (o : op) : Prop := exists j w, o = Loop j w /\ j <> i /\ ready w.
(** The blade is active, has a style to show and is not being switched off. *)
Definition waits_turn (b : blade) : Prop := linked b = true /\ style b = true /\ run_ b = true /\ off_req b = false.
Definition no_power_change (i : nat) (o : op) : Prop := match o with Activate j => j <> i | Deactivate _ => False | _ => True end.

(** The blade is on, nobody asked it to power off, and it is not waiting to send a frame after
    which it would power off. *)
Definition armed (b : blade) : Prop := on b = true /\ off_req b = false /\ (at_ b = AtEnd -> allow b = false).
Definition turns_off (i : nat) (o : op) : Prop := match o with SBOff j _ | Deactivate j => j = i | _ => False end.
Definition wakes (i : nat) (o : op) : Prop := match o with SBOn j | SBEffect j => j = i | _ => False end.
(** There was a Loop call of blade i at time t, and nothing woke the blade since. *)
Definition asked_at (i : nat) (past : list op) (t : Z) : Prop :=
  exists newer w older, past = older ++ Loop i w :: newer /\ now w = t /\ Forall (fun o => ~ wakes i o) newer.

(** *** What a blade's power pins and frames may do *)
(** Seen from blade i: are the pins on, what is in the frame begun, what was last sent, and how many
    frames were sent since power came on. *)
Inductive content := Nothing | Colors | Dark.
Record supply := Supply { pins : bool; begun : content; last_sent : content; frames : nat }.
Definition supply0 : supply := Supply false Nothing Nothing 0.
(** None: not allowed. Power comes on only when it is off and the frame begun is black; the first
    three frames sent with power on are black; nothing is sent without power; power goes off only
    after a black frame was sent. *)
Definition supply_step (i : nat) (p : supply) (e : event) : option supply :=
  match e with
  | Begin j => Some (if Nat.eqb i j then Supply (pins p) Nothing (last_sent p) (frames p) else p)
  | Draw j => Some (if Nat.eqb i j then Supply (pins p) Colors (last_sent p) (frames p) else p)
  | Black j => Some (if Nat.eqb i j then Supply (pins p) Dark (last_sent p) (frames p) else p)
  | End j =>
    if Nat.eqb i j then
      if pins p && (match begun p with Dark => true | _ => (3 <=? frames p)%nat end) then Some (Supply true (begun p) (begun p) (S (frames p))) else None
    else Some p
  | PinOn j =>
    if Nat.eqb i j then match pins p, begun p with false, Dark => Some (Supply true Dark (last_sent p) 0) | _, _ => None end else Some p
  | PinOff j =>
    if Nat.eqb i j then match pins p, last_sent p with true, Dark => Some (Supply false (begun p) Dark (frames p)) | _, _ => None end else Some p
  end.
Fixpoint supply_run (i : nat) (p : supply) (tr : list event) : option supply :=
  match tr with [] => Some p | e :: tr => match supply_step i p e with None => None | Some p => supply_run i p tr end end.
