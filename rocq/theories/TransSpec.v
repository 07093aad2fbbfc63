(** What transitions should do. *)
From Coq Require Import ZArith List Bool.
From Verif Require Import ArithModel TransModel.
Import ListNotations.
Open Scope Z_scope.

(** ** Time.  Moments are unbounded; the clock shows them modulo 2^32. *)
Definition clock (T : Z) : Z := T mod 4294967296.
(** Progress of a transition of length L begun at T0, at moment T: proportional, then full. *)
Definition progress (scale L T0 T : Z) : Z := if T - T0 <=? L then scale * (T - T0) / L else scale.
(** Once the length is over the transition is finished for good. *)
Fixpoint shown (scale L T0 : Z) (over : bool) (Ts : list Z) : list (Z * bool) :=
  match Ts with
  | [] => []
  | T :: Ts => let over := over || (L <? T - T0) in
               (if over then scale else scale * (T - T0) / L, over) :: shown scale L T0 over Ts
  end.
(** The first frame after the end comes less than 2^32 ms (49 days) after the beginning. *)
Fixpoint timely (L T0 : Z) (Ts : list Z) : Prop :=
  match Ts with
  | [] => True
  | T :: Ts => T0 <= T < T0 + 4294967296 /\ (T - T0 <= L -> timely L T0 Ts)
  end.

(** ** Histories *)
Inductive op := Begin | Run (f : frame).
Definition step (t : tr) (o : op) : tr := match o with Begin => begin t | Run f => run f t end.
(** Running frame after frame. *)
Definition runs (t : tr) (fs : list frame) : tr := fold_left (fun t f => run f t) fs t.
(** [t] becomes done with the last of the frames and not before. *)
Definition just_done (t : tr) (fs : list frame) : Prop :=
  exists fs1 f, fs = fs1 ++ [f] /\ done (runs t fs) = true /\
  forall k, (0 < k <= length fs1)%nat -> done (runs t (firstn k fs)) = false.
(** n complete passes, each begun anew, one after the other. *)
Inductive passes : tr -> nat -> list frame -> tr -> Prop :=
| P0 : forall t, passes t 0 [] t
| PS : forall t n fs gs u, just_done (begin t) fs -> passes (runs (begin t) fs) n gs u -> passes t (S n) (fs ++ gs) u.

(** A way of mixing colors: a fraction of nothing is the first, a full fraction the second. *)
Definition mixes {C} (ok : C -> Prop) (mix : C -> C -> Z -> Z -> C) : Prop :=
  (forall a b s, s = 8 \/ s = 14 -> ok b -> mix a b (2 ^ s) s = b) /\
  (forall a b s, s = 8 \/ s = 14 -> ok a -> mix a b 0 s = a).
(** Loop counts are at least one in this frame. *)
Fixpoint counts_ok (f : frame) (t : tr) : Prop :=
  match t with
  | Concat2 a b _ | Concat3 a _ b _ | Join a b | JoinR a b | LoopUntil _ _ a b => counts_ok f a /\ counts_ok f b
  | Alt _ ts _ _ => (fix all l := match l with [] => True | t :: l => counts_ok f t /\ all l end) ts
  | Extend _ _ _ t | Loop t | DoEffect _ _ _ _ t => counts_ok f t
  | LoopN n _ t => 1 <= val f n /\ counts_ok f t
  | _ => True
  end.
(** Transitions that end at the new color: not those that blink at the end. *)
Fixpoint ends_at_new (t : tr) : Prop :=
  match t with
  | Blink _ _ _ _ _ => False
  | Concat2 _ b _ => ends_at_new b
  | Join a b | JoinR a b => ends_at_new a /\ ends_at_new b
  | Alt _ ts _ _ => ts <> [] /\ (fix all l := match l with [] => True | t :: l => ends_at_new t /\ all l end) ts
  | Extend _ _ _ t | Loop t | DoEffect _ _ _ _ t | LoopN _ _ t => ends_at_new t
  | LoopUntil _ _ _ o => ends_at_new o
  | _ => True
  end.
(** Positions of center wipes are on the blade in this frame. *)
Fixpoint positions_ok (f : frame) (t : tr) : Prop :=
  match t with
  | CenterWipe p _ _ _ | CenterWipeIn p _ _ _ => 0 <= val f p <= 32768
  | Concat2 a b _ | Concat3 a _ b _ | Join a b | JoinR a b | LoopUntil _ _ a b => positions_ok f a /\ positions_ok f b
  | Alt _ ts _ _ => (fix all l := match l with [] => True | t :: l => positions_ok f t /\ all l end) ts
  | Extend _ _ _ t | Loop t | DoEffect _ _ _ _ t | LoopN _ _ t => positions_ok f t
  | _ => True
  end.
