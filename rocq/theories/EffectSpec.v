(** What remembering effects, detecting them and switching blades must mean. *)
From Coq Require Import ZArith List Bool.
From Verif Require Import EffectModel.
Import ListNotations.
Open Scope Z_scope.

(** An effect that happened, at its real time in microseconds since boot. *)
Record event := Event { ev_time : Z; ev_type : effect_type; ev_loc : location; ev_len : Z; ev_wav : Z }.
(** How a remembered event is shown: with the 32-bit clock. *)
Definition show (e : event) : effect :=
  Effect (ev_type e) (ev_time e mod 2 ^ 32) (ev_loc e) (ev_len e) (ev_wav e).

(** The log of events worth remembering, newest first, extended by one announcement made
    at time [t] while lockup type [k] is set: a new font forgets everything before it,
    progress updates are not logged, lockup begin and end are logged as such for a normal
    lockup, as drag begin and end for a drag, and not at all for other lockups. *)
Definition note (k : lockup_type) (t : Z) (log : list event) (n : notice) : list event :=
  match n with
  | NEffect ENewFont l len wav => [Event t ENewFont l len wav]
  | NEffect EClashUpdate l len wav => log
  | NEffect ELockupBegin l len wav =>
    match k with LNormal => Event t ELockupBegin l len wav :: log | LDrag => Event t EDragBegin l len wav :: log | _ => log end
  | NEffect ELockupEnd l len wav =>
    match k with LNormal => Event t ELockupEnd l len wav :: log | LDrag => Event t EDragEnd l len wav :: log | _ => log end
  | NEffect ty l len wav => Event t ty l len wav :: log
  | _ => log
  end.
Definition new_lockup (k : lockup_type) (q : request) : lockup_type :=
  match q with SetLockup k' _ => k' | _ => k end.
(** The ten newest events not older than seven seconds. *)
Definition recent (t : Z) (log : list event) : list event :=
  filter (fun e => t - ev_time e <=? 7000000) (firstn 10 log).

(** Every question about the recent effects is answered from the log.  [log] and [k] hold
    at the start; [ns] are the announcements made for each request. *)
Fixpoint remembered_ok (k : lockup_type) (log : list event) (reqs : list (Z * request)) (nss : list (list notice)) : Prop :=
  match reqs, nss with
  | [], [] => True
  | (t, q) :: reqs, ns :: nss =>
    (q = GetEffects -> ns = [NEffects (map show (recent t log))]) /\
    remembered_ok (new_lockup k q) (fold_left (note k t) ns log) reqs nss
  | _, _ => False
  end.

(** The first event in a log that satisfies [m]. *)
Definition newest (m : event -> bool) (log : list event) : option event := find m log.
(** A detector for the events satisfying [m] answers with the newest recent one, unless
    that is the one it answered with last ([seen], identified by its real time). *)
Fixpoint detected_ok (m : event -> bool) (k : lockup_type) (log : list event) (seen : option Z)
    (reqs : list (Z * request)) (nss : list (list notice)) : Prop :=
  match reqs, nss with
  | [], [] => True
  | (t, q) :: reqs, ns :: nss =>
    match q with
    | Detect =>
      match newest m (recent t log) with
      | Some e =>
        if match seen with Some t' => t' =? ev_time e | None => false end
        then ns = [NDetected None] /\ detected_ok m k log seen reqs nss
        else ns = [NDetected (Some (show e))] /\ detected_ok m k log (Some (ev_time e)) reqs nss
      | None => ns = [NDetected None] /\ detected_ok m k log seen reqs nss
      end
    | _ => detected_ok m (new_lockup k q) (fold_left (note k t) ns log) seen reqs nss
    end
  | _, _ => False
  end.
(** All events logged in a run that satisfy [m], oldest first. *)
Fixpoint all_events (m : event -> bool) (k : lockup_type) (reqs : list (Z * request)) (nss : list (list notice)) : list event :=
  match reqs, nss with
  | (t, q) :: reqs, ns :: nss =>
    filter m (concat (map (fun n => note k t [] n) ns)) ++ all_events m (new_lockup k q) reqs nss
  | _, _ => []
  end.

(** Time does not run backwards. *)
Fixpoint clock_ok (t0 : Z) (reqs : list (Z * request)) : Prop :=
  match reqs with [] => True | (t, _) :: reqs => t0 <= t /\ clock_ok t reqs end.
Definition asks (q : request) : bool := match q with GetEffects | Detect => true | _ => false end.
(** The effects are asked for at least every 71 minutes (2^32 - 7000001 microseconds). *)
Fixpoint asked_often (asked : Z) (reqs : list (Z * request)) : Prop :=
  match reqs with
  | [] => True
  | (t, q) :: reqs => (asks q = true -> t - asked < 2 ^ 32 - 7000000) /\ asked_often (if asks q then t else asked) reqs
  end.

(** Blades on after a history: per blade, the last command that named it decides. *)
Definition named (l : location) (b : Z) : Prop := Z.testbit (blades l) b = true.
Fixpoint on_after (on : Z -> Prop) (reqs : list (Z * request)) : Z -> Prop :=
  match reqs with
  | [] => on
  | (_, TurnOnAll _ _) :: reqs => on_after (fun _ => True) reqs
  | (_, TurnOffAll _ _ _) :: reqs => on_after (fun _ => False) reqs
  | (_, TurnOn l _ _) :: reqs => on_after (fun b => named l b \/ on b) reqs
  | (_, TurnOff _ l _ _) :: reqs => on_after (fun b => on b /\ ~ named l b) reqs
  | _ :: reqs => on_after on reqs
  end.
(** The lockup shown by each blade: the last one set, on the blades it was set for. *)
Fixpoint lockup_after (lk : Z -> lockup_type) (reqs : list (Z * request)) : Z -> lockup_type :=
  match reqs with
  | [] => lk
  | (_, SetLockup k bs) :: reqs => lockup_after (fun b => if Z.testbit bs b then k else LNone) reqs
  | _ :: reqs => lockup_after lk reqs
  end.
Definition announce_off (o : off_type) (l : location) (len wav : Z) : list notice :=
  NOff o l :: match o with
              | OffNormal | OffFast => [NEffect ERetraction l len wav]
              | OffBlast => [NEffect EBlast l len wav]
              | _ => []
              end.
(** Commands are announced with exactly the blades they change, and not at all if they
    change none; [on] holds at the start and blades are numbered below [w]. *)
Fixpoint switch_ok (w : Z) (on : Z -> Prop) (reqs : list (Z * request)) (nss : list (list notice)) : Prop :=
  match reqs, nss with
  | [], [] => True
  | (t, q) :: reqs, ns :: nss =>
    match q with
    | TurnOnAll len wav =>
      exists l, ns = [NOn l; NEffect EIgnition l len wav] /\ (forall b, 0 <= b < w -> named l b)
    | TurnOffAll o len wav =>
      exists l, ns = announce_off o l len wav /\ (forall b, 0 <= b < w -> named l b)
    | TurnOn l len wav =>
      (ns = [] /\ forall b, named l b -> on b) \/
      (exists l', ns = [NOn l'; NEffect EIgnition l' len wav] /\ fixed l' = fixed l /\
        (exists b, named l' b) /\ forall b, named l' b <-> named l b /\ ~ on b)
    | TurnOff o l len wav =>
      (ns = [] /\ forall b, named l b -> ~ on b) \/
      (exists l', ns = announce_off o l' len wav /\ fixed l' = fixed l /\
        (exists b, named l' b) /\ forall b, named l' b <-> named l b /\ on b)
    | _ => True
    end /\ switch_ok w (on_after on [(t, q)]) reqs nss
  | _, _ => False
  end.
(** The locations in the commands are sets of blades below [w]. *)
Definition loc_ok (w : Z) (l : location) : Prop := 0 <= blades l < 2 ^ w.
Definition req_ok (w : Z) (r : Z * request) : Prop :=
  match snd r with TurnOn l _ _ | TurnOff _ l _ _ => loc_ok w l | SetLockup _ bs => 0 <= bs < 2 ^ w | _ => True end.
(** The real time of the last motion request or announced switch-off. *)
Fixpoint last_touch (t0 : Z) (reqs : list (Z * request)) (nss : list (list notice)) : Z :=
  match reqs, nss with
  | (t, q) :: reqs, ns :: nss =>
    last_touch (match q, ns with RequestMotion, _ => t | _, NOff _ _ :: _ => t | _, _ => t0 end) reqs nss
  | _, _ => t0
  end.
