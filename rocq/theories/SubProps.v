(** C51 sub-blades address their own pixels, C52 sub-blades share a parent, C55 dimming. *)
From Coq Require Import ZArith List Bool PeanoNat Permutation Lia ZifyBool ZifyNat.
From Verif Require Import Machine ArithModel ColorModel ColorSpec SubModel SubSpec SubProofs.
Import ListNotations.
Open Scope Z_scope.

(** C51: the LEDs of a sub-blade are exactly the pixels that belong to it... *)
Theorem C51_pixels : forall k first last n, sensible k first last n -> (forall o, k <> KBar o) -> forall p,
  owns k first last p <-> exists led, 0 <= led < nleds (setup k first last) /\ pixel (setup k first last) led = p.
Proof. exact pixels_owned. Qed.
(** ... each exactly once, in the order of the chain, or in the opposite order if reversed. *)
Theorem C51_order : forall k first last n, sensible k first last n -> (forall o, k <> KBar o) -> forall i j,
  0 <= i -> i < j -> j < nleds (setup k first last) ->
  (k = KRev -> pixel (setup k first last) j < pixel (setup k first last) i) /\
  (k <> KRev -> pixel (setup k first last) i < pixel (setup k first last) j).
Proof.
  intros k first last n S NB i j I J N. pose proof (pixels_ordered k first last n S NB i j I J N) as H.
  split; intros E; [subst; exact H|]. destruct k; cbn [reversed] in H; try exact H. congruence.
Qed.
Example C51_ex :
  sensible (KZZ 3 0) 2 10 20 /\ nleds (setup (KZZ 3 0) 2 10) = 3 /\ map (pixel (setup (KZZ 3 0) 2 10)) [0; 1; 2] = [4; 5; 10] /\
  sensible (KStride 4) 1 10 20 /\ nleds (setup (KStride 4) 1 10) = 3 /\ map (pixel (setup (KStride 4) 1 10)) [0; 1; 2] = [1; 5; 9] /\
  sensible KRev 4 8 9 /\ map (pixel (setup KRev 4 8)) [0; 4] = [8; 4].
Proof. repeat split; vm_compute; congruence. Qed.

Lemma inside k first last n led : sensible k first last n -> 0 <= led < nleds (setup k first last) -> first <= pixel (setup k first last) led <= last.
Proof.
  intros S L. destruct k as [| |s|s c|o] eqn:EK;
    try (destruct (proj2 (pixels_owned k first last n ltac:(subst; exact S) ltac:(subst; discriminate) (pixel (setup k first last) led))) as (A & _);
         [exists led; subst; auto|subst; exact A]).
  destruct S as (R & _ & M). unfold pixel, setup in *. cbn [sk offset nleds] in *. apply Z.mod_divide in M as (m & M); [|lia].
  rewrite M in L. rewrite Z.quot_mul in L by lia. rewrite !Z.quot_div_nonneg, Z.rem_mod_nonneg by (try lia; rewrite ?Z.rem_mod_nonneg by lia; try lia; apply Z.mod_pos_bound; lia).
  pose proof (Z.mod_pos_bound led 10 ltac:(lia)) as B. pose proof (Z.div_lt_upper_bound led 10 m ltac:(lia) ltac:(lia)).
  pose proof (Z.div_pos led 10 ltac:(lia) ltac:(lia)). assert (0 <= (led mod 10) / 3 <= 3) by (split; [apply Z.div_pos; lia|apply Z.div_le_upper_bound; lia]). lia.
Qed.
(** C51: sub-blades over disjoint ranges never touch the same pixel, nor one outside the parent. *)
Theorem C51_disjoint : forall k1 f1 l1 k2 f2 l2 n, sensible k1 f1 l1 n -> sensible k2 f2 l2 n -> l1 < f2 -> forall i j,
  0 <= i < nleds (setup k1 f1 l1) -> 0 <= j < nleds (setup k2 f2 l2) ->
  pixel (setup k1 f1 l1) i <> pixel (setup k2 f2 l2) j /\ 0 <= pixel (setup k1 f1 l1) i < n /\ 0 <= pixel (setup k2 f2 l2) j < n.
Proof.
  intros k1 f1 l1 k2 f2 l2 n S1 S2 D i j I J. pose proof (inside _ _ _ _ _ S1 I). pose proof (inside _ _ _ _ _ S2 J).
  destruct S1 as (? & ? & _), S2 as (? & ? & _). lia.
Qed.
Example C51_disjoint_ex : sensible (KBar RGB) 0 7 30 /\ sensible KRev 8 20 30 /\ nleds (setup (KBar RGB) 0 7) = 20 /\ pixel (setup (KBar RGB) 0 7) 19 = 7.
Proof. repeat split; vm_compute; congruence. Qed.
(** C51: the columns of a panel share it out: every pixel is in exactly one column's sub-blade. *)
Theorem C51_columns : forall s first last n, 0 < s -> 0 <= first <= last -> last < n -> (last + 1 - first) mod s = 0 -> forall p, first <= p <= last ->
  exists c, 0 <= c < s /\ (exists led, 0 <= led < nleds (setup (KZZ s c) first last) /\ pixel (setup (KZZ s c) first last) led = p) /\
  forall c' led, 0 <= c' < s -> 0 <= led < nleds (setup (KZZ s c') first last) -> pixel (setup (KZZ s c') first last) led = p -> c' = c.
Proof.
  intros s first last n S R L M p P. exists (zz_column s first p).
  assert (C : 0 <= zz_column s first p < s) by (unfold zz_column; pose proof (Z.mod_pos_bound (p - first) s S); destruct (Z.even ((p - first) / s)); lia).
  split; [exact C|]. split.
  - apply (pixels_owned (KZZ s (zz_column s first p)) first last n); [repeat split; tauto|congruence|]. split; [exact P|reflexivity].
  - intros c' led C' L' E. destruct (proj2 (pixels_owned (KZZ s c') first last n ltac:(repeat split; tauto) ltac:(congruence) p)) as (_ & Q); [exists led; auto|]. symmetry. exact Q.
Qed.
Example C51_columns_ex : zz_column 3 0 0 = 2 /\ zz_column 3 0 3 = 0 /\ map (pixel (setup (KZZ 3 2) 0 8)) [0; 1; 2] = [0; 5; 6].
Proof. repeat split. Qed.
(** C51: the sub-blade that passes style and clear requests on to the parent is the one that
    has the parent's first pixel. *)
Theorem C51_primary : forall k first last n, sensible k first last n ->
  (primary (setup k first last) = true <-> exists led, 0 <= led < nleds (setup k first last) /\ pixel (setup k first last) led = 0).
Proof.
  intros k first last n S. destruct k as [| |s|s c|o] eqn:EK; subst.
  - destruct S as (R & L & _). unfold primary, pixel, setup. cbn [sk offset nleds]. split; [exists 0; lia|intros (led & A & B); lia].
  - destruct S as (R & L & _). unfold primary, pixel, setup. cbn [sk offset nleds]. split; [exists last; lia|intros (led & A & B); lia].
  - destruct S as (R & L & K). unfold primary, pixel, setup. cbn [sk offset nleds]. rewrite Z.quot_div_nonneg by lia. pose proof (Z.div_pos (last - first) s ltac:(lia) ltac:(lia)).
    split; [exists 0; lia|intros (led & A & B); nia].
  - pose proof (pixels_ordered _ _ _ _ S ltac:(congruence)) as O. cbn [reversed] in O.
    assert (N : 0 < nleds (setup (KZZ s c) first last)).
    { destruct S as (R & L & K). unfold setup. cbn [nleds]. rewrite Z.quot_div_nonneg by lia. pose proof (Z.div_pos (last - first) s ltac:(lia) ltac:(lia)). lia. }
    change (primary (setup (KZZ s c) first last)) with (pixel (setup (KZZ s c) first last) 0 =? 0). split; [exists 0; lia|]. intros (led & A & B).
    pose proof (inside _ _ _ _ 0 S ltac:(lia)) as I0. destruct (Z.eq_dec led 0) as [->|NE]; [lia|]. specialize (O 0 led ltac:(lia) ltac:(lia) ltac:(lia)). destruct S as (R & _). lia.
  - destruct (Z.eq_dec first 0) as [E|E].
    + split; [intros _; exists 0|intros _; unfold primary, setup; cbn; lia]. destruct S as (R & L & M). unfold setup, pixel. cbn [sk offset nleds].
      apply Z.mod_divide in M as (m & M); [|lia]. rewrite M, Z.quot_mul by lia. cbn. lia.
    + split; [unfold primary, setup; cbn; lia|]. intros (led & A & B). pose proof (inside _ _ _ _ _ S A). destruct S as (R & _). lia.
Qed.
Example C51_primary_ex : primary (setup KRev 0 5) = true /\ primary (setup (KZZ 3 2) 0 8) = true /\ primary (setup (KZZ 3 1) 0 8) = false /\ primary (setup KFwd 3 5) = false.
Proof. repeat split. Qed.
(** C51: a zig-zag sub-blade whose range ends inside a row has an LED outside the parent. *)
Theorem C51_partial_row_refuted : exists w k first last, fst (make (fun _ => 3) world0 (Call k first last (Some 0%nat))) = w /\
  exists o, nth_error (objs w) 0 = Some o /\ exists led, 0 <= led < nleds (geo o) /\ 3 <= pixel (geo o) led.
Proof. eexists _, (KZZ 2 1), 0, 2. split; [reflexivity|]. eexists. split; [reflexivity|]. exists 1. vm_compute. repeat split; congruence. Qed.
(** C51: neither is the first pixel checked. *)
Theorem C51_first_unchecked_refuted : exists o, nth_error (objs (build (fun _ => 3) [Call KFwd (-2) 2 (Some 0%nat)])) 0 = Some o /\ pixel (geo o) 0 = -2.
Proof. eexists. split; reflexivity. Qed.

(** C51: on a BarBack each chip is sent the brightness of its own three LEDs in order, the
    fourth chip of a unit that of the tenth LED; for the byte orders that are their own
    inverse. *)
Theorem C51_barback : forall o inv off t units cs, In o straight -> invert_byteorder o = Some inv -> length cs = (10 * units)%nat ->
  let writes := snd (bar_frame inv off (Bar t 0) 0 cs) in
  let level led := nth led (map brightness cs) 0 in
  length writes = (4 * units)%nat /\
  forall u, (u < units)%nat ->
    (forall chip, (chip < 3)%nat -> exists c, nth_error writes (4 * u + chip) = Some (off + 4 * Z.of_nat u + Z.of_nat chip, c) /\
       sent c o = [level (10 * u + 3 * chip)%nat; level (10 * u + 3 * chip + 1)%nat; level (10 * u + 3 * chip + 2)%nat]) /\
    (exists c, nth_error writes (4 * u + 3) = Some (off + 4 * Z.of_nat u + 3, c) /\ sent c o = [level (10 * u + 9)%nat; 65535; 65535]).
Proof.
  intros o inv off t units cs O IV L writes level. destruct (bar_all o inv off O IV units cs t 0 ltac:(lia) L) as (A & _). change (10 * 0) with 0 in A. fold writes in A.
  assert (LW : length writes = (4 * units)%nat) by (rewrite <- (map_length (on_wire o)), A; apply wires_length). split; [exact LW|].
  intros u U. destruct (wires_nth off units 0 (map brightness cs) u (on_wire o (0, Color 0 0 0)) U) as (B & C). rewrite <- A in B, C.
  assert (G : forall i, (i < 4 * units)%nat -> exists x, nth_error writes i = Some x /\ nth i (map (on_wire o) writes) (on_wire o (0, Color 0 0 0)) = on_wire o x).
  { intros i I. destruct (nth_error writes i) as [x|] eqn:E; [|apply nth_error_None in E; lia]. exists x. split; [reflexivity|]. rewrite map_nth. rewrite (nth_error_nth _ _ _ E). reflexivity. }
  split.
  - intros chip CH. destruct (G (4 * u + chip)%nat ltac:(lia)) as ((p, c) & E & E2). rewrite (B chip CH) in E2. unfold on_wire in E2. cbn [fst snd] in E2.
    pose proof (f_equal fst E2) as P1. pose proof (f_equal snd E2) as P2. cbn [fst snd] in P1, P2. exists c. rewrite E, <- P1, <- P2. split; [repeat f_equal; lia|reflexivity].
  - destruct (G (4 * u + 3)%nat ltac:(lia)) as ((p, c) & E & E2). rewrite C in E2. unfold on_wire in E2. cbn [fst snd] in E2.
    pose proof (f_equal fst E2) as P1. pose proof (f_equal snd E2) as P2. cbn [fst snd] in P1, P2. exists c. rewrite E, <- P1, <- P2. split; [repeat f_equal; lia|reflexivity].
Qed.
Example C51_barback_ex : let cs := map (fun i => Color i 0 (2 * i)) [1; 2; 3; 4; 5; 6; 7; 8; 9; 10] in
  map (on_wire GRB) (snd (bar_frame 0x213 5 (Bar (Color 0 0 0) 0) 0 cs)) = [(5, [2; 4; 6]); (6, [8; 10; 12]); (7, [14; 16; 18]); (8, [20; 65535; 65535])].
Proof. vm_compute. reflexivity. Qed.
(** C51: the pixels a BarBack of whole units gives data to are exactly those of its range: for each of
    them it has a LED, and what it passes on while setting LED [led] goes to the pixel of that LED. *)
Theorem C51_barback_range : forall o first last n, sensible (KBar o) first last n -> let w := setup (KBar o) first last in
  (forall p, first <= p <= last <-> exists led, 0 <= led < nleds w /\ pixel w led = p) /\
  (forall inv s led c p v, snd (bar_set inv (offset w) s led c) = Some (p, v) -> p = pixel w led).
Proof.
  intros o first last n S w. pose proof S as ((F0 & F1) & _ & M). cbn in M. apply Z.div_exact in M; [|lia].
  assert (N : nleds w = (last + 1 - first) / 4 * 10) by (cbn [w setup nleds]; rewrite Z.quot_div_nonneg by lia; reflexivity).
  split.
  - intros p. split.
    + intros P. exists ((p - first) / 4 * 10 + (p - first) mod 4 * 3). pose proof (Z.mod_pos_bound (p - first) 4 ltac:(lia)) as B. pose proof (Z.div_mod (p - first) 4 ltac:(lia)) as E.
      assert (0 <= (p - first) / 4 < (last + 1 - first) / 4) by lia. split; [lia|].
      unfold pixel. cbn [w setup sk offset]. set (q := (p - first) / 4) in *. set (m := (p - first) mod 4) in *. rewrite Z.quot_div_nonneg, Z.rem_mod_nonneg by lia.
      assert (X : (q * 10 + m * 3) / 10 = q) by (symmetry; apply (Z.div_unique _ _ _ (m * 3)); lia). assert (Y : (q * 10 + m * 3) mod 10 = m * 3) by (symmetry; apply (Z.mod_unique _ _ q); lia).
      rewrite X, Y. rewrite Z.quot_mul by lia. lia.
    + intros (led & R & <-). apply (inside (KBar o) first last n led S R).
  - intros inv s led c p v. unfold bar_set, pixel. cbv zeta. cbn [w setup sk offset]. match goal with |- context [if ?x =? 0 then (Bar _ _, Some _) else _] => destruct (x =? 0) end; cbn [snd]; intros H; [injection H as <- _; reflexivity|discriminate].
Qed.
Example C51_barback_range_ex : sensible (KBar RGB) 8 15 30 /\ nleds (setup (KBar RGB) 8 15) = 20 /\ map (pixel (setup (KBar RGB) 8 15)) [0; 8; 9; 10; 19] = [8; 10; 11; 12; 15].
Proof. repeat split; vm_compute; congruence. Qed.
(** C51: for the other two byte orders the LEDs of a chip trade places. *)
Theorem C51_barback_rotated_refuted : exists o inv, In o rgb_orders /\ invert_byteorder o = Some inv /\
  map (on_wire o) (snd (bar_frame inv 0 (Bar (Color 0 0 0) 0) 0 (map (fun i => Color i i i) [1; 2; 3; 4; 5; 6; 7; 8; 9; 10]))) =
  [(0, [2; 3; 1]); (1, [5; 6; 4]); (2, [8; 9; 7]); (3, [65535; 65535; 10])].
Proof. exists BRG. eexists. split; [right; left; reflexivity|]. split; [vm_compute; reflexivity|]. vm_compute. reflexivity. Qed.

(** C52: however the sub-blades are made, those of one blade form one ring: following the
    links from any of them visits each exactly once and comes back. *)
Theorem C52_ring : forall leds cs, let os := objs (build leds cs) in
  length os = made (all_families leds cs) /\
  (forall w, (w < length os)%nat -> exists b g, In (b, g) (fams (all_families leds cs)) /\ In w g) /\
  (forall b g w, In (b, g) (fams (all_families leds cs)) -> In w g ->
     option_map parent (nth_error os w) = Some b /\ exists l, ring os w = Some l /\ Permutation l g).
Proof.
  intros leds cs os. destruct (build_ok leds cs) as (M & _ & C & _). fold os in M. split; [lia|]. split.
  - intros w W. apply C. lia.
  - intros b g w I J. split; [exact (family_parent leds cs b g w I J)|exact (family_ring leds cs b g w I J)].
Qed.
Definition ex_calls : list call := [Call KFwd 4 8 (Some 7%nat); Call KFwd 3 3 None; Call KRev 0 99 None; Call KRev 0 2 None; Call (KStride 2) 0 8 (Some 2%nat); Call KFwd 1 1 None].
Example C52_ring_ex : fams (all_families (fun _ => 9) ex_calls) = [(2%nat, [4; 3]%nat); (7%nat, [2; 1; 0]%nat)] /\
  ring (objs (build (fun _ => 9) ex_calls)) 1 = Some [1; 0; 2]%nat.
Proof. split; vm_compute; reflexivity. Qed.
(** C52: after any activations and deactivations the parent was activated and deactivated in
    turn, and is active exactly while some of its sub-blades is. *)
Theorem C52_active : forall leds cs b g ops, only_family leds cs b g ->
  let calls := calls_to b (run_outs (act (objs (build leds cs))) (fun _ => false) ops) in
  alternates true calls /\ (List.last calls false = true <-> exists w, In w g /\ is_active (rev ops) w = true).
Proof.
  intros leds cs b g ops OF calls. destruct (acts_family leds cs b g OF ops (fun _ => false)) as (A & B).
  assert (E : existsb (fun _ : nat => false) g = false) by (clear; induction g; auto). rewrite E in A, B. fold calls in A, B. split; [exact A|]. rewrite B.
  rewrite existsb_exists. split; intros (w & I & X); exists w; (split; [exact I|]); [rewrite <- (active_spec (objs (build leds cs)))|rewrite active_spec]; exact X.
Qed.
Example C52_active_ex : only_family (fun _ => 9) ex_calls 7 [2; 1; 0]%nat /\
  calls_to 7 (run_outs (act (objs (build (fun _ => 9) ex_calls))) (fun _ => false) [Activate 1; Activate 3; Activate 0; Activate 1; Deactivate 1; Deactivate 0; Deactivate 0; Activate 2]%nat) = [true; false; true].
Proof.
  split; [|vm_compute; reflexivity]. split; [right; left; reflexivity|]. change (fams (all_families (fun _ => 9) ex_calls)) with [(2%nat, [4; 3]%nat); (7%nat, [2; 1; 0]%nat)].
  intros g' [E|[E|[]]] _; injection E; [discriminate|congruence].
Qed.
(** C52: one run of the parent runs the style of every sub-blade once, and allows the parent to
    power down exactly if every one of them allows it. *)
Theorem C52_run : forall leds cs b g w allows, In (b, g) (fams (all_families leds cs)) -> In w g ->
  exists l v, run_ring (objs (build leds cs)) allows w = Some (l, v) /\
  Permutation l (filter (fun x => match allows x with Some _ => true | None => false end) g) /\
  (v = true <-> forall x, In x g -> allows x = Some true).
Proof.
  intros leds cs b g w allows I J. destruct (family_ring leds cs b g w I J) as (l & R & P). unfold run_ring. rewrite R. cbn [option_map]. eexists _, _. split; [reflexivity|].
  split; [apply filter_perm; exact P|]. rewrite (forallb_perm _ _ _ P). rewrite forallb_forall. split; intros H x X; specialize (H x X).
  - destruct (allows x) as [[|]|]; congruence.
  - rewrite H. reflexivity.
Qed.
Example C52_run_ex : run_ring (objs (build (fun _ => 9) ex_calls)) (fun w => if Nat.eqb w 0 then None else Some true) 1 = Some ([1; 2]%nat, false) /\
  run_ring (objs (build (fun _ => 9) ex_calls)) (fun w => Some true) 1 = Some ([1; 0; 2]%nat, true).
Proof. split; vm_compute; reflexivity. Qed.

(** C55: dimming to p percent multiplies each channel by (nearly) p/100, rounding down, keeps
    the order of brightness, and 0 and 100 percent are exact. *)
Theorem C55_dim : forall p, 0 <= p <= 100 -> forall c, is16 c ->
  let f := dim_fraction p in
  (16384 * p - 100 < 100 * f <= 16384 * p) /\
  each2 (fun d x => 0 <= d <= x /\ 16384 * d <= x * f < 16384 * (d + 1)) (dim f c) c /\
  (forall c', is16 c' -> each2 Z.le c c' -> each2 Z.le (dim f c) (dim f c')) /\
  (p = 0 -> dim f c = Color 0 0 0) /\ (p = 100 -> dim f c = c).
Proof.
  intros p P c C f. assert (F : 16384 * p - 100 < 100 * f <= 16384 * p).
  { unfold f, dim_fraction. rewrite Z.quot_div_nonneg by lia. pose proof (Z.div_mod (p * 16384) 100 ltac:(lia)). pose proof (Z.mod_pos_bound (p * 16384) 100 ltac:(lia)). lia. }
  split; [exact F|]. assert (F2 : 0 <= f <= 16384) by lia.
  assert (G : forall x, 0 <= x <= 65535 -> 0 <= dim1 f x <= x /\ 16384 * dim1 f x <= x * f < 16384 * (dim1 f x + 1)).
  { intros x X. destruct (dim1_ok f x F2 X) as (E & B). split; [exact B|]. rewrite E. pose proof (Z.div_mod (x * f) 16384 ltac:(lia)). pose proof (Z.mod_pos_bound (x * f) 16384 ltac:(lia)). lia. }
  assert (H : forall x y, 0 <= x -> x <= y -> y <= 65535 -> dim1 f x <= dim1 f y).
  { intros x y X XY Y. rewrite (proj1 (dim1_ok f x F2 ltac:(lia))), (proj1 (dim1_ok f y F2 ltac:(lia))). apply Z.div_le_mono; nia. }
  destruct C as (R & GG & B). unfold each2, dim, map1. cbn [r g b]. split; [auto|]. split.
  { intros c' (R' & G' & B') (L1 & L2 & L3). repeat split; apply H; lia. }
  split; intros ->.
  - unfold f, dim1. change (dim_fraction 0) with 0. rewrite !Z.mul_0_r. reflexivity.
  - destruct c as (cr, cg, cb). cbn [r g b] in *. unfold f. change (dim_fraction 100) with 16384.
    rewrite (proj1 (dim1_ok 16384 cr ltac:(lia) ltac:(lia))), (proj1 (dim1_ok 16384 cg ltac:(lia) ltac:(lia))), (proj1 (dim1_ok 16384 cb ltac:(lia) ltac:(lia))).
    rewrite !Z.div_mul by lia. reflexivity.
Qed.
Example C55_ex : dim (dim_fraction 50) (Color 65535 1 1000) = Color 32767 0 500 /\ dim_fraction 33 = 5406.
Proof. split; reflexivity. Qed.

Print Assumptions C51_pixels.
Print Assumptions C51_order.
Print Assumptions C51_disjoint.
Print Assumptions C51_columns.
Print Assumptions C51_primary.
Print Assumptions C51_partial_row_refuted.
Print Assumptions C51_first_unchecked_refuted.
Print Assumptions C51_barback.
Print Assumptions C51_barback_range.
Print Assumptions C51_barback_rotated_refuted.
Print Assumptions C52_ring.
Print Assumptions C52_active.
Print Assumptions C52_run.
Print Assumptions C55_dim.
