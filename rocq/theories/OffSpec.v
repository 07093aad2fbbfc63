(** What it means that a blade may be switched off. *)
From Coq Require Import ZArith List Bool QArith.
From Verif Require Import ArithModel ColorModel OffModel.
Import ListNotations.
Open Scope Z_scope.

(** A color that shows as black, whatever is under it. *)
Definition black (l : layer) : Prop :=
  match l with
  | LO o => oc o = Color 0 0 0
  | LU u => uc u = Color 0 0 0 /\ ua u = 32768
  | LP p => pc p = Color 0 0 0 /\ pa p = 32768
  end.
(** A color that does not show at all. *)
Definition clear (l : layer) : Prop :=
  match l with
  | LO _ => False
  | LU u => ua u = 0
  | LP p => pc p = Color 0 0 0 /\ pa p = 0
  end.
(** The whole blade is dark. *)
Definition dark (n : Z) (s : style) : Prop := forall led, 0 <= led < n -> black (color_at s led).
Definition invisible (n : Z) (s : style) : Prop := forall led, 0 <= led < n -> clear (color_at s led).

(** A frame in which the blade is off and nothing happens to it. *)
Definition quiet (n : Z) (e : env) : Prop := on e = false /\ (forall t, effect e t = false) /\ leds e = n.

Definition run_all (es : list env) (s : style) : style := fold_left (fun s e => fst (run e s)) es s.

(** ** The styles the claim is true of *)

(** The function never reports a constant 32768. *)
Fixpoint never_one (f : fn) : Prop :=
  match f with
  | Const n => n <> 32768
  | SyncAlt | InOut _ _ _ _ _ | Other _ _ => True
  | Helper allow _ _ => allow = false
  | Select _ ns _ => Forall (fun n => n <> 32768) ns
  | Linear _ f _ _ | Circular _ f _ _ _ => never_one f
  end.
(** A LinearSectionF that may fill the blade must be centered. *)
Fixpoint honest_fn (f : fn) : Prop :=
  match f with
  | Const _ | SyncAlt | Other _ _ => True
  | InOut out inn _ _ _ => honest_fn out /\ honest_fn inn
  | Helper _ f _ | Select f _ _ => honest_fn f
  | Linear p f _ _ => honest_fn p /\ honest_fn f /\ (p = Const 16384 \/ never_one f)
  | Circular p f _ _ _ => honest_fn p /\ honest_fn f
  end.
(** Cylon with a black off color must be on a black background. *)
Fixpoint honest (s : style) : Prop :=
  match s with
  | Black | Solid _ | Any _ _ | Effect _ _ => True
  | Pulse p _ => honest_fn p
  | Alpha c a => honest c /\ honest_fn a
  | AlphaMix a _ _ => honest_fn a
  | Compose b l => honest b /\ honest l
  | OnBlack l => honest l
  | InOutTr _ _ off _ _ => honest off
  | Remap f c _ | Rotate f c => honest_fn f /\ honest c
  | ByteOrder _ c => honest c
  | SparkTip _ b ext s o _ _ => honest b /\ honest_fn ext /\ honest s /\ honest o
  | IgnDelay ms c _ _ _ | RetrDelay ms c _ _ _ => honest_fn ms /\ honest c
  | Cycle cylon off_c on_c base_c _ _ _ _ _ _ _ _ _ _ =>
      honest off_c /\ honest on_c /\ honest base_c /\ (cylon = true -> off_c = Black -> base_c = Black)
  | Fire c1 c2 _ => honest c1 /\ honest c2
  end.

(** The values of the function are not negative while the blade is off. *)
Definition never_negative (f : fn) : Prop :=
  match f with
  | Const n => 0 <= n
  | Select _ ns _ => Forall (fun n => 0 <= n) ns
  | Other _ v => forall t led, 0 <= v t led
  | _ => True
  end.
(** Retraction takes no negative time. *)
Fixpoint steady_fn (f : fn) : Prop :=
  match f with
  | Const _ | SyncAlt | Other _ _ => True
  | InOut out inn _ _ _ => steady_fn out /\ steady_fn inn /\ never_negative inn
  | Helper _ f _ | Select f _ _ => steady_fn f
  | Linear p f _ _ | Circular p f _ _ _ => steady_fn p /\ steady_fn f
  end.
(** Parts that stay dark once they are: no delayed retraction; the extension of a spark tip is
    constant or InOutFunc; a color cycle shows nothing when off, or something when on; a fire goes
    out when off. *)
Fixpoint steady (n : Z) (s : style) : Prop :=
  match s with
  | Black | Solid _ | Any _ _ | Effect _ _ => True
  | Pulse p _ => steady_fn p
  | Alpha c a => steady n c /\ steady_fn a
  | AlphaMix a _ _ => steady_fn a
  | Compose b l => steady n b /\ steady n l
  | OnBlack l => steady n l
  | InOutTr _ _ off _ _ => steady n off
  | Remap f c _ | Rotate f c => steady_fn f /\ steady n c
  | ByteOrder _ c => steady n c
  | SparkTip _ _ ext _ _ _ _ => steady_fn ext /\ match ext with Const _ | InOut _ _ _ _ _ => True | _ => False end
  | IgnDelay _ c _ _ _ => steady n c
  | RetrDelay _ _ _ _ _ => False
  | Cycle _ _ _ _ off_p on_p fade_ms _ _ _ _ _ _ _ => 0 <= off_p /\ 0 <= on_p /\ (off_p = 0 \/ on_p <> 0) /\ 0 < fade_ms
  | Fire _ _ f => intensity_base (off_cfg f) = 0 /\ intensity_rand (off_cfg f) = 0 /\ 1 <= speed f /\ heat f (n + speed f) = 0
  end.

(** ** Delayed ignition and retraction: frames with the time, in milliseconds, at which they happen *)
Fixpoint frames_in_order (t : Z) (fs : list (Z * env)) : Prop :=
  match fs with
  | [] => True
  | (t', e) :: fs => t <= t' < t + 2147483648 /\ millis e = t' mod 4294967296 /\ frames_in_order t' fs
  end.
(** The frames as the style below should see them: on only after the blade has been on for longer
    than d.  [since] is the time since which the blade is on. *)
Fixpoint ignite_late (d : Z) (since : option Z) (fs : list (Z * env)) : list env :=
  match fs with
  | [] => []
  | (t, e) :: fs =>
      if on e then let t0 := match since with Some t0 => t0 | None => t end in with_on e (d <? t - t0) :: ignite_late d (Some t0) fs
      else with_on e false :: ignite_late d None fs
  end.
(** The same for retraction: off only after the blade has been off for longer than d. *)
Fixpoint retract_late (d : Z) (lit : bool) (since : option Z) (fs : list (Z * env)) : list env :=
  match fs with
  | [] => []
  | (t, e) :: fs =>
      if on e then with_on e true :: retract_late d true None fs
      else let t0 := match since with Some t0 => t0 | None => t end in
           let lit := lit && (t - t0 <=? d) in with_on e lit :: retract_late d lit (Some t0) fs
  end.
