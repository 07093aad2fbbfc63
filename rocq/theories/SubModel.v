(** Sub-blades (blades/sub_blade.h) and dimmed blades (blades/dim_blade.h). *)
From Coq Require Import ZArith List Bool PeanoNat.
From Verif Require Import ArithModel ColorModel.
Import ListNotations.
Open Scope Z_scope.

(** ** Geometry *)
(** The classes SubBladeWrapper (sub_blade.h:37-157), SubBladeWrapperReverse (187-197),
    SubBladeWrapperWithStride (224-238), SubBladeWrapperZZ (266-285) and BarBackWrapper
    (314-353), with the arguments of their constructor functions. *)
Inductive kind := KFwd | KRev | KStride (stride : Z) | KZZ (stride col : Z) | KBar (order : Z).
(** offset_ and num_leds_ of a wrapper; for BarBack num_leds() is 10 * units_ (347). *)
Record sub := Sub { sk : kind; offset : Z; nleds : Z }.

(** The SetupSubBlade (100-104), SetupStride, SetCol and SetupBarBack calls at the end of
    SubBlade 183, SubBladeReverse 220, SubBladeWithStride 261-262, SubBladeZZ 308-310 and
    BarBack 378 (342-346; BarBack is given units, [last] is computed from it in 363). *)
Definition setup (k : kind) (first last : Z) : sub :=
  match k with
  | KFwd => Sub k first (last + 1 - first)
  | KRev => Sub k last (last + 1 - first)
  | KStride s => Sub k first (Z.quot (last - first) s + 1)
  | KZZ s _ => Sub k first (Z.quot (last - first) s + 1)
  | KBar _ => Sub k first (Z.quot (last + 1 - first) 4 * 10)
  end.

(** set: which pixel of the parent LED [led] goes to: 40-42, 191-193, 229-231, 271-279. *)
Definition pixel (s : sub) (led : Z) : Z :=
  match sk s with
  | KFwd => led + offset s
  | KRev => offset s - led
  | KStride st => led * st + offset s
  | KZZ st col => offset s + led * st + (if Z.land led 1 =? 1 then col else st - 1 - col)
  | KBar _ => Z.quot led 10 * 4 + Z.quot (Z.rem led 10) 3 + offset s
  end.

(** primary(): 75-77, 188-190, 274-276 *)
Definition primary (s : sub) : bool :=
  match sk s with
  | KRev => offset s + 1 =? nleds s
  | KZZ _ _ => pixel s 0 =? 0
  | _ => offset s =? 0
  end.

(** ** BarBack: ten LEDs on four three-channel chips (314-353) *)
(** tmp, cnt_ *)
Record bar := Bar { tmp : color; cnt : Z }.
Definition brightness (c : color) : Z := Z.max (Z.max (r c) (g c)) (b c).
Definition put (t : color) (nibble w : Z) : color :=
  if nibble =? 1 then Color w (g t) (b t)
  else if nibble =? 2 then Color (r t) w (b t)
  else if nibble =? 3 then Color (r t) (g t) w
  else t.
(** 316-338 BarBackWrapper::set; [inv] is inverted_blade_byte_order_. Returns the call to
    the parent's set, if any. *)
Definition bar_set (inv off : Z) (s : bar) (led0 : Z) (c : color) : bar * option (Z * color) :=
  let unit := Z.quot led0 10 in
  let led := Z.rem led0 10 in
  let chip := Z.quot led 3 in
  let channel := Z.rem led 3 in
  let cnt1 := if cnt s =? 0 then (if chip =? 3 then 1 else 3) else cnt s in
  let t := put (tmp s) (Z.land (Z.shiftr inv (8 - channel * 4)) 15) (brightness c) in
  let cnt2 := u16 (cnt1 - 1) in
  if cnt2 =? 0 then (Bar (Color 65535 65535 65535) cnt2, Some (unit * 4 + chip + off, t))
  else (Bar t cnt2, None).
(** A style run calls set for LED 0, 1, 2 ... in order. *)
Fixpoint bar_frame (inv off : Z) (s : bar) (led : Z) (cs : list color) : bar * list (Z * color) :=
  match cs with
  | [] => (s, [])
  | c :: cs =>
    let '(s1, w) := bar_set inv off s led c in
    let '(s2, ws) := bar_frame inv off s1 (led + 1) cs in
    (s2, match w with Some x => x :: ws | None => ws end)
  end.

(** ** Construction: the ring of the sub-blades of one blade *)
(** A wrapper object; [parent] identifies the blade_ it points to, [next] is next_. Objects
    are numbered in the order they are made. *)
Record wrapper := Wrapper { geo : sub; parent : nat; next : nat }.
(** The objects, first_subblade_wrapper and last_subblade_wrapper (159-160). *)
Record world := World { objs : list wrapper; first_w : option nat; last_w : option nat }.
Definition world0 : world := World [] None None.
Fixpoint update {A} (l : list A) (n : nat) (f : A -> A) : list A :=
  match l, n with
  | [], _ => []
  | x :: l, O => f x :: l
  | x :: l, S n => x :: update l n f
  end.
Definition set_next (l : list wrapper) (n to : nat) : list wrapper := update l n (fun w => Wrapper (geo w) (parent w) to).
(** A constructor call: the kind, first_led, last_led and the blade argument (None = NULL). *)
Record call := Call { ck : kind; cfirst : Z; clast : Z; cblade : option nat }.
(** 162-185 SubBlade, and the same text in 199-222, 240-264, 287-312, 355-380. [leds] gives
    num_leds() of each blade. Returns the new object, or None for NULL. *)
Definition make (leds : nat -> Z) (w : world) (c : call) : world * option nat :=
  let w1 := match cblade c with Some _ => World (objs w) None None | None => w end in
  let blade := match cblade c with
               | Some b => Some b
               | None => match first_w w with
                         | None => None
                         | Some f => option_map parent (nth_error (objs w) f)
                         end
               end in
  match blade with
  | None => (w1, None)
  | Some b =>
    if leds b <=? clast c then (w1, None)
    else
      let ret := length (objs w1) in
      let obj := Wrapper (setup (ck c) (cfirst c) (clast c)) b in
      match first_w w1, last_w w1 with
      | Some f, Some l => (World (set_next (objs w1 ++ [obj l]) f ret) (Some f) (Some ret), Some ret)
      | _, _ => (World (objs w1 ++ [obj ret]) (Some ret) (Some ret), Some ret)
      end
  end.
Definition build (leds : nat -> Z) (cs : list call) : world := fold_left (fun w c => fst (make leds w c)) cs world0.

(** The do ... while (tmp != this) loops over next_ (51-55, 122-128, 138-142): the objects
    visited, in order. The fuel is the number of objects; C52_ring shows that the loop comes
    back within it. None: it does not come back. *)
Fixpoint walk (os : list wrapper) (fuel : nat) (this cur : nat) : option (list nat) :=
  match fuel with
  | O => None
  | S fuel =>
    match nth_error os cur with
    | None => None
    | Some o => if Nat.eqb (next o) this then Some [cur] else option_map (cons cur) (walk os fuel this (next o))
    end
  end.
Definition ring (os : list wrapper) (this : nat) : option (list nat) := walk os (length os) this this.

(** ** Activation (49-74) *)
(** What reaches the parent blade: Activate(0) or Deactivate(). *)
Inductive op := Activate (w : nat) | Deactivate (w : nat).
(** 49-57 SomeSubBladeIsActive *)
Definition some_active (os : list wrapper) (active : nat -> bool) (w : nat) : bool :=
  match ring os w with Some l => existsb active l | None => false end.
Definition set_active (active : nat -> bool) (w : nat) (v : bool) : nat -> bool := fun x => if Nat.eqb x w then v else active x.
(** 58-74 Activate, Deactivate: new active_ flags and the call to the parent, if any. *)
Definition act (os : list wrapper) (active : nat -> bool) (o : op) : (nat -> bool) * option (nat * bool) :=
  match o with
  | Activate w =>
    if active w then (active, None)
    else (set_active active w true,
          if some_active os active w then None else option_map (fun x => (parent x, true)) (nth_error os w))
  | Deactivate w =>
    if active w then
      let active' := set_active active w false in
      (active', if some_active os active' w then None else option_map (fun x => (parent x, false)) (nth_error os w))
    else (active, None)
  end.

(** ** Running the styles (120-130) *)
(** [allows w]: None = no style; Some a = the style calls allow_disable on its sub-blade iff
    a. Returns the wrappers whose styles run, in order, and whether allow_disable is called on
    the parent. *)
Definition run_ring (os : list wrapper) (allows : nat -> option bool) (w : nat) : option (list nat * bool) :=
  option_map (fun l =>
    (filter (fun x => match allows x with Some _ => true | None => false end) l,
     forallb (fun x => match allows x with Some a => a | None => false end) l)) (ring os w).

(** ** Dimming (dim_blade.h) *)
(** 10-16 set: one channel. No int overflow: 65535 * 16384 < 2^31. *)
Definition dim1 (fraction c : Z) : Z := clampi32 (Z.shiftr (c * fraction) 14) 0 65535.
Definition dim (fraction : Z) (c : color) : color := map1 (dim1 fraction) c.
(** 71-73 DimBlade: (int)(percentage * 16384 / 100.0). For whole percentages only: the product
    is exact, and the rounding of the division cannot cross an integer. *)
Definition dim_fraction (percent : Z) : Z := Z.quot (percent * 16384) 100.
