(** What a blaster and a detonator do, told from the effects they send. *)
From Coq Require Import ZArith List Bool.
From Verif Require Import Machine PowerModel ShotModel.
Import ListNotations.
Open Scope Z_scope.

Definition told {A} (tell : option A -> bout -> option A) (a : A) (os : list bout) : option A := fold_left tell os (Some a).

(** Rounds left in a magazine for [N]: every shot uses one, there is no shot without one, and
    the blaster only says it is empty when it is. *)
Definition ammo_tell (N : Z) (l : option Z) (o : bout) : option Z :=
  match l with
  | None => None
  | Some k =>
    match o with
    | FIRE | STUN => if 0 <? k then Some (k - 1) else None
    | EMPTY => if k =? 0 then Some 0 else None
    | RELOAD | CLIP_IN => Some N
    | CLIP_OUT => Some 0
    | _ => Some k
    end
  end.

(** Jammed or not: while jammed there is nothing but jams, until it is unjammed. *)
Definition jam_tell (l : option bool) (o : bout) : option bool :=
  match l with
  | None => None
  | Some j =>
    match o with
    | JAM => Some true
    | UNJAM => if j then Some false else None
    | FIRE | STUN | EMPTY | P (LOCKUP_BEGIN 4) => if j then None else Some j
    | _ => Some j
    end
  end.

(** The modes follow each other: stun, kill, autofire if there is one, stun. Each mode has its
    own way of firing. *)
Definition next_mode (has_auto : bool) (m : blaster_mode) : blaster_mode :=
  match m with MODE_STUN => MODE_KILL | MODE_KILL => if has_auto then MODE_AUTO else MODE_STUN | MODE_AUTO => MODE_STUN end.
Definition mode_eqb (a b : blaster_mode) : bool :=
  match a, b with MODE_STUN, MODE_STUN | MODE_KILL, MODE_KILL | MODE_AUTO, MODE_AUTO => true | _, _ => false end.
Definition mode_tell (has_auto : bool) (l : option blaster_mode) (o : bout) : option blaster_mode :=
  match l with
  | None => None
  | Some m =>
    match o with
    | MODE m' => if mode_eqb m' (next_mode has_auto m) then Some m' else None
    | STUN => if mode_eqb m MODE_STUN then l else None
    | FIRE => if mode_eqb m MODE_KILL then l else None
    | P (LOCKUP_BEGIN 4) => if mode_eqb m MODE_AUTO then l else None
    | _ => l
    end
  end.

(** Whether autofire is going on; the mode does not change meanwhile. *)
Definition firing_tell (l : option bool) (o : bout) : option bool :=
  match l with
  | None => None
  | Some f =>
    match o with
    | P (LOCKUP_BEGIN k) => Some (k =? 4)
    | P (LOCKUP_END _) => Some false
    | MODE _ => if f then None else l
    | _ => l
    end
  end.

(** What pulling the trigger does, given the rounds left (if they are limited), whether it is
    jammed, the mode and the random number. *)
Definition shot (limited : bool) (percent : option Z) (r : Z) (rounds : Z) (jammed : bool) (m : blaster_mode) : list bout :=
  if match percent with Some p => jammed || (r mod 100 <? p) | None => false end then [JAM]
  else if limited && (rounds =? 0) then [EMPTY]
  else match m with MODE_STUN => [STUN] | MODE_KILL => [FIRE] | MODE_AUTO => [P (LOCKUP_BEGIN 4)] end.

(** Commands do not start autofire by themselves. *)
Definition no_auto_cmd (o : bop) : Prop := match o with Base (LockCmd k _) => k <> 4 | _ => True end.

(** Since the last time autofire was started the trigger has not been released in a way that
    ended it. *)
Definition begins (os : list bout) : bool := existsb (fun o => match o with P (LOCKUP_BEGIN 4) => true | _ => false end) os.
Definition ends (os : list bout) : bool := existsb (fun o => match o with P (LOCKUP_END _) => true | _ => false end) os.
Definition trigger_release (o : bop) : bool := match o with Send 8 2 _ _ => true | _ => false end.
Fixpoint held (c : cfg) (s : bstate) (ops : list bop) (h : bool) : bool :=
  match ops with
  | [] => h
  | o :: r =>
    let '(s', os) := bstep c s o in
    held c s' r (if begins os then true else if trigger_release o && ends os then false else h)
  end.
Definition proper (o : bop) : Prop := match o with Send b e n _ => 1 <= e <= 8 /\ 1 <= n <= 4 | _ => True end.

(** ** The detonator *)

(** Presses are counted; commands neither explode it nor start its lockup. *)
Definition dplain (o : dop) : Prop :=
  match o with
  | DSend b e n _ _ => 1 <= e <= 8 /\ 1 <= n <= 4
  | DBase (LockCmd k _) => k <> 3
  | DBase (Off ty _ _) => ty = OFF_NORMAL \/ ty = OFF_FAST
  | _ => True
  end.
(** The time at which things happen *)
Definition at_time (o : dop) : option Z :=
  match o with DSend _ _ _ t _ | DLatch _ _ t _ | DPoll t _ => Some t | _ => None end.
(** Time does not go back. *)
Definition timed (ops : list dop) : Prop :=
  forall a x b y c t u, ops = a ++ x :: b ++ y :: c -> at_time x = Some t -> at_time y = Some u -> t <= u.

Section Detonator.
  Variable s0 : dstate.
  (** The button is pressed, at time t, and starts a sound of l ms: after [a] the operation [o]. *)
  Definition presses (a : list dop) (o : dop) (t l : Z) : Prop :=
    exists n v, o = DSend 4 1 n t v /\ len v = l /\ In (LOCKUP_BEGIN 3) (snd (dstep (run_state dstep s0 a) o)).
  (** The button is released. *)
  Definition releases (a : list dop) (o : dop) (t l : Z) : Prop :=
    exists n v k, o = DSend 4 2 n t v /\ len v = l /\ In (LOCKUP_END k) (snd (dstep (run_state dstep s0 a) o)).
  (** It is neither pressed nor released in [b], which follows [a]. *)
  Definition untouched (a b : list dop) : Prop :=
    forall x o y t l, b = x ++ o :: y -> ~ presses (a ++ x) o t l /\ ~ releases (a ++ x) o t l.
  (** The power switch is not turned on while it is off in [b], which follows [a]. *)
  Definition not_restarted (a b : list dop) : Prop :=
    forall x o y t v, b = x ++ o :: y -> o = DLatch 1 true t v -> Z.ldiff (dmods (run_state dstep s0 (a ++ x))) 1 = 0 ->
      IsOn (dpw (run_state dstep s0 (a ++ x))) = true.
End Detonator.

(** It was armed: the button was pressed, at t, it was left alone and the sound of l ms was over when
    the detonator looked, and it has not been restarted since. *)
Definition was_armed (s0 : dstate) (ops : list dop) : Prop :=
  exists a p b t1 fr c t l, ops = a ++ p :: b ++ DPoll t1 fr :: c /\ presses s0 a p t l /\ untouched s0 (a ++ [p]) b /\ l < t1 - t /\
    not_restarted s0 (a ++ p :: b ++ [DPoll t1 fr]) c.
