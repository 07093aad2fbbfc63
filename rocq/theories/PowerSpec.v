(** What switching on and off means for each blade, in terms of the effects that are sent and
    of what the API answers. *)
From Coq Require Import ZArith List Bool.
From Verif Require Import Machine PowerModel.
Import ListNotations.
Open Scope Z_scope.

Definition lit (s : state) (b : Z) : bool := Z.testbit (on s) b.
Definition dark (s : state) : Prop := forall b, 0 <= b -> lit s b = false.

(** The light of blade [b] as told by the effects: it is lit by an ignition and put out by a
    retraction or a blast; lighting a lit blade or putting out a dark one is wrong. *)
Definition tell (b : Z) (l : option bool) (o : out) : option bool :=
  match l with
  | None => None
  | Some lit =>
    match o with
    | IGNITION loc => if Z.testbit loc b then if lit then None else Some true else l
    | RETRACTION loc | BLAST loc => if Z.testbit loc b then if lit then Some false else None else l
    | _ => l
    end
  end.
Definition told (b : Z) (os : list out) : option bool := fold_left (tell b) os (Some false).

(** The ways a prop switches off. *)
Definition usual (o : op) : Prop :=
  match o with Off OFF_NORMAL _ _ | Off OFF_FAST _ _ | Off OFF_BLAST _ _ => True | Off _ _ _ => False | _ => True end.
(** The prop asks for a preon only while no blade is lit. *)
Definition from_dark (s : state) (ops : list op) : Prop :=
  forall a loc r fr b, ops = a ++ On loc r fr :: b -> dark (run_state step s a).
Definition is_chdir (o : op) : bool := match o with Chdir _ => true | _ => false end.

(** Does not concern switching on and off; the preon sound goes on. *)
Definition waiting (o : op) : Prop :=
  match o with On _ _ _ | FastOn _ _ _ | Off _ _ _ | Chdir _ | SetPreset _ _ _ _ => False | Loop p _ _ => p = true | _ => True end.
(** Does not ask for light. *)
Definition no_ask (o : op) : Prop := match o with On _ _ _ | FastOn _ _ _ | SetPreset _ _ _ _ => False | _ => True end.
(** Does not switch off. *)
Definition no_off (o : op) : Prop := match o with Off _ _ _ | SetPreset _ _ _ _ => False | _ => True end.
Definition light_effect (o : out) : bool := match o with IGNITION _ | RETRACTION _ | BLAST _ => true | _ => false end.

(** A prop that switches all blades together, without blast. *)
Definition together (o : op) : Prop :=
  match o with
  | On loc _ _ | FastOn loc _ _ => loc = -1
  | Off ty loc _ => loc = -1 /\ (ty = OFF_NORMAL \/ ty = OFF_FAST)
  | _ => True
  end.
(** The hum is on or about to come on, being faded out, or off. *)
Definition humming (x : font_state) : Prop := x = STATE_OUT \/ x = STATE_HUM_FADE_IN \/ x = STATE_HUM_ON.
(** A wav player is free whenever one is asked for. *)
Definition players (o : op) : Prop :=
  match o with
  | On _ _ f | FastOn _ _ f | Off _ _ f | Loop _ _ f | Hum _ f | SetPreset _ _ _ f | LockCmd _ f | ClashLock _ f | Lightning f | Release f => f = true
  | _ => True
  end.
Definition count (p : out -> bool) (os : list out) : nat := length (filter p os).
Definition is_postoff (o : out) : bool := match o with POSTOFF _ => true | _ => false end.
Definition is_retraction (o : out) : bool := match o with RETRACTION _ => true | _ => false end.

(** Lockups as told by the effects: they begin when there is none, and end what has begun.
    0: none. *)
Definition lock_tell (l : option Z) (o : out) : option Z :=
  match l with
  | None => None
  | Some k =>
    match o with
    | LOCKUP_BEGIN j => if k =? 0 then Some j else None
    | LOCKUP_END j => if negb (k =? 0) && (k =? j) then Some 0 else None
    | _ => l
    end
  end.
Definition lock_told (os : list out) : option Z := fold_left lock_tell os (Some 0).
(** Kinds of lockup are not 0, and lightning block is not asked for during another one. *)
Definition good_lock (s : state) (o : op) : Prop :=
  match o with
  | LockCmd k _ | ClashLock k _ => k <> 0
  | Lightning _ => lockup s = 0
  | _ => True
  end.
Definition all_along (p : state -> op -> Prop) (s : state) (ops : list op) : Prop :=
  forall a o b, ops = a ++ o :: b -> p (run_state step s a) o.
Definition no_set_volume (o : op) : Prop := match o with SetVolume _ => False | _ => True end.
(** A normal switching off, by itself or for another preset, with a retraction and a font that has a post-off sound. *)
Definition tells_off (s : state) (o : op) : Prop :=
  match o with Off OFF_NORMAL _ _ | SetPreset _ _ _ _ => True | _ => False end /\ pstoff (fnt s) = true /\ exists l, In (RETRACTION l) (snd (step s o)).
