(** C140: alternatives and color variation kept together.
    C141: finding, shortening and coloring the blade. *)
From Coq Require Import List ZArith Bool Lia.
From Verif Require Import ArithModel ColorModel SyncModel SyncSpec SyncProofs.
Import ListNotations.
Local Open Scope Z_scope.

(** A state in which there are [n] alternatives and one of them is chosen. *)
Definition possible (s : sync) : Prop :=
  0 <= variation s < 2 ^ 32 /\ 0 < alts s < 2 ^ 31 /\ 0 <= alt s < alts s.

(** ** C140 *)

(** Whatever has happened to the two, after the synchronizer's turn they agree. *)
Theorem C140_agree : forall ops s, possible s ->
  Forall (fun o => match o with AltSound k => -1 <= k | _ => True end) ops ->
  let s' := fold_left sync_step (ops ++ [SyncLoop]) s in
  alt s' = stands_for (variation s') (alts s) /\ 0 <= alt s' < alts s.
Proof. exact agree. Qed.

Example C140_agree_ex :
  let s := Sync 7 1 3 2147483647 [] in
  possible s /\
  let s1 := fold_left sync_step
    [SetVar 8; AltSound (-1); SyncLoop; StepVar (-9); AltSound 5; SyncLoop] s in
  (variation s1, alt s1, sounds s1) = (4294967295, 2, []) /\
  let s2 := fold_left sync_step [AltSound 0; SyncLoop] s1 in
  (variation s2, alt s2, sounds s2) = (0, 0, []) /\
  let s3 := fold_left sync_step [StepVar 1; SyncLoop] s2 in
  (variation s3, alt s3, sounds s3) = (1, 1, [1]).
Proof.
  cbv zeta. split.
  - unfold possible. cbn [variation alt alts]. lia.
  - vm_compute. auto.
Qed.

(** The side that changed since the last turn decides; the variation if both did.
    The sound is played exactly when the variation decides. *)
Theorem C140_change : forall ops s, possible s ->
  Forall (fun o => match o with
                   | AltSound k => -1 <= k | SyncLoop => False | _ => True end) ops ->
  let s0 := sync_loop s in
  let s1 := fold_left sync_step ops s0 in
  let s2 := sync_loop s1 in
  let var := stands_for (variation s1) (alts s) in
  (var <> alt s0 ->
     alt s2 = var /\ variation s2 = variation s1 /\ sounds s2 = sounds s1 ++ [var]) /\
  (var = alt s0 -> alt s1 <> alt s0 ->
     alt s2 = alt s1 /\ variation s2 = alt s1 /\ sounds s2 = sounds s1) /\
  (var = alt s0 -> alt s1 = alt s0 -> s2 = s1).
Proof.
  intros ops s P K s0 s1 s2 var.
  destruct (wf_step s SyncLoop P I) as [W0 E0]. cbn [sync_step] in W0, E0. fold s0 in W0, E0.
  destruct (loop_agrees s P) as [_ S0]. fold s0 in S0.
  assert (K' : Forall op_ok ops).
  { eapply Forall_impl; [|exact K]. intros [ | | | ]; cbn; auto. }
  destruct (wf_run ops s0 W0 K') as [W1 E1]. fold s1 in W1, E1.
  assert (S1 : seen s1 = seen s0).
  { unfold s1. clear - K. clearbody s0. clear - K. revert s0.
    induction ops as [|o ops IH]; intros s0; cbn [fold_left]; auto.
    inversion K as [|? ? K1 K2]; subst. rewrite IH by auto.
    destruct o; cbn in K1 |- *; auto; [|easy].
    unfold alt_sound. destruct (alts s0 =? 0); auto. now destruct (n =? -1). }
  assert (A0 : 0 <= alt s0 < 2 ^ 31 - 1) by (destruct W0 as (_ & ? & ?); lia).
  pose proof (change s1 W1 ltac:(rewrite S1, S0; lia)) as C. cbv zeta in C.
  rewrite E1, E0, S1, S0 in C. exact C.
Qed.

(** A new synchronizer follows the variation without a sound. *)
Theorem C140_first : forall s, possible s -> seen s = 2147483647 ->
  let s' := sync_loop s in
  alt s' = stands_for (variation s) (alts s) /\ variation s' = variation s /\
  sounds s' = sounds s.
Proof.
  intros s P S. cbv zeta. rewrite (sync_loop_cases s P), S. destruct P as (_ & N & A).
  destruct (Z.eqb_spec (alt s) 2147483647); [lia|]. rewrite andb_false_r. cbn. auto.
Qed.

(** Nothing more happens until something changes; nothing at all in a font without
    alternatives. *)
Theorem C140_idle : forall s, possible s -> sync_loop (sync_loop s) = sync_loop s.
Proof.
  intros s P. destruct (wf_step s SyncLoop P I) as [W E]. cbn [sync_step] in W.
  destruct (loop_agrees s P) as [A S]. rewrite (sync_loop_cases _ W).
  rewrite <- A, S, Z.eqb_refl. reflexivity.
Qed.

Theorem C140_none : forall s, alts s = 0 -> sync_loop s = s.
Proof. intros s H. unfold sync_loop. now rewrite H. Qed.

(** ** C141 *)

(** The length finder lights exactly one LED: the one the variation names, the last
    one if that is too far. *)
Theorem C141_lit : forall leds f var now, 0 < leds < 2 ^ 31 -> 0 <= var < 2 ^ 32 ->
  -1 <= led f < 2 ^ 31 ->
  let '(f', var', _) := finder_run leds f var now in
  var' = Z.min var (leds - 1) /\
  forall l, 0 <= l < leds -> finder_lit f' l = true <-> l = var'.
Proof.
  intros leds f var now L V F. rewrite finder_run_spec by auto.
  destruct (_ && _); (split; [reflexivity|]); intros l R; unfold finder_lit;
    cbn [led]; apply Z.eqb_eq.
Qed.

(** What it says are the lit LED's numbers, counted from 1, more than three seconds
    apart by the clock (which starts at 0 for the first). *)
Theorem C141_says : forall leds f var now f' var' k, 0 < leds < 2 ^ 31 ->
  0 <= var < 2 ^ 32 -> -1 <= led f < 2 ^ 31 ->
  finder_run leds f var now = (f', var', Some k) ->
  finder_lit f' (k - 1) = true /\ 1 <= k <= leds.
Proof.
  intros leds f var now f' var' k L V F H. rewrite finder_run_spec in H by auto.
  destruct (_ && _); [|discriminate]. injection H as <- <- <-.
  unfold finder_lit. cbn [led]. split; lia.
Qed.

Theorem C141_pace : forall leds l, 0 < leds < 2 ^ 31 ->
  Forall (fun x => 0 <= fst x < 2 ^ 32) l ->
  let said := snd (finder_history leds finder0 l) in
  forall k x, nth_error said k = Some x ->
    3000 < (fst x - match k with O => 0 | S k => fst (nth k said (0, 0)) end) mod 2 ^ 32.
Proof.
  intros leds l L V said k x X.
  destruct (finder_pace leds l finder0 L ltac:(unfold finder_ok; cbn; lia) V said eq_refl)
    as [P _].
  specialize (P k x X). unfold u32 in P. destruct k; exact P.
Qed.

(** Three seconds after it last spoke, what it said last is what is lit. *)
Theorem C141_told : forall leds l var now, 0 < leds < 2 ^ 31 ->
  Forall (fun x => 0 <= fst x < 2 ^ 32) l -> 0 <= var < 2 ^ 32 ->
  3000 < (now - last_speak (fst (finder_history leds finder0 l))) mod 2 ^ 32 ->
  last (map snd (snd (finder_history leds finder0 (l ++ [(var, now)])))) 0 =
    Z.min var (leds - 1) + 1.
Proof. exact finder_told. Qed.

Example C141_told_ex :
  finder_history 144 finder0
    [(0, 2000); (0, 4000); (1, 5000); (2, 6000); (9, 7001); (9, 9000); (500, 12000)]
  = (Finder false 143 12000, [(4000, 1); (7001, 10); (12000, 144)]).
Proof. reflexivity. Qed.

(** One step below the first LED lights the last one, not the first. *)
Theorem C141_down_refuted : forall leds f now, 0 < leds < 2 ^ 31 ->
  -1 <= led f < 2 ^ 31 ->
  snd (fst (finder_run leds f ((0 - 1) mod 2 ^ 32) now)) = leds - 1.
Proof.
  intros leds f now L F. change ((0 - 1) mod 2 ^ 32) with 4294967295.
  rewrite finder_run_spec by (auto; lia). destruct (_ && _); cbn [fst snd]; lia.
Qed.

(** Every LED gets its color once, in order: the style's, unchanged while the
    variation is a multiple of 32768, or the style handles variations itself, or
    the blade has no colors. *)
Theorem C141_plain : forall handled colorless var leds style i,
  (handled = true \/ colorless = true \/ var mod 32768 = 0) ->
  (i < leds)%nat -> channels_ok (fst (style (Z.of_nat i))) ->
  nth_error (runloop handled colorless var 16384 leds style) i =
  Some (Write (Z.of_nat i) (fst (style (Z.of_nat i))) (snd (style (Z.of_nat i)))).
Proof.
  intros handled colorless var leds style i H L C. rewrite runloop_nth by auto.
  replace (negb handled && negb colorless && negb (Z.land var 32767 =? 0)) with false.
  - destruct (style (Z.of_nat i)) as [c []]; cbn [fst snd] in *; auto.
    now rewrite dimmed_full.
  - change 32767 with (Z.ones 15). rewrite Z.land_ones by lia. change (2 ^ 15) with 32768.
    destruct H as [-> | [-> | ->]]; cbn; auto.
    + now rewrite andb_false_r.
    + now rewrite andb_false_r.
Qed.

Theorem C141_count : forall handled colorless var dimming leds style,
  length (runloop handled colorless var dimming leds style) = leds.
Proof. exact runloop_length. Qed.

(** Otherwise the hue is turned by the variation, 32768 to a full turn. *)
Theorem C141_turned : forall var leds style i,
  var mod 32768 <> 0 -> (i < leds)%nat ->
  nth_error (runloop false false var 16384 leds style) i =
  Some (let c := rotate (fst (style (Z.of_nat i))) (var mod 32768 * 98304 / 32768) in
        let od := snd (style (Z.of_nat i)) in
        Write (Z.of_nat i) (if od then c else dimmed 16384 c) od).
Proof.
  intros var leds style i H L. rewrite runloop_nth by auto.
  change 32767 with (Z.ones 15). rewrite Z.land_ones by lia. change (2 ^ 15) with 32768.
  destruct (Z.eqb_spec (var mod 32768) 0); [easy|]. cbn [negb andb].
  replace (var mod 32768 * 98304 / 32768) with (var mod 32768 * 3)
    by (replace (var mod 32768 * 98304) with (var mod 32768 * 3 * 32768) by lia;
        now rewrite Z.div_mul by lia).
  now destruct (style (Z.of_nat i)) as [c []].
Qed.

(** Dimming scales every channel of the colors that may be dimmed. *)
Theorem C141_dim : forall handled colorless var dimming leds style i,
  (handled = true \/ colorless = true) -> 0 <= dimming <= 16384 ->
  (i < leds)%nat -> channels_ok (fst (style (Z.of_nat i))) ->
  nth_error (runloop handled colorless var dimming leds style) i =
  Some (let '(c, od) := style (Z.of_nat i) in
        Write (Z.of_nat i)
          (if od then c
           else Color (dim_channel dimming (r c)) (dim_channel dimming (g c))
                      (dim_channel dimming (b c))) od).
Proof.
  intros handled colorless var dimming leds style i H D L C. rewrite runloop_nth by auto.
  replace (negb handled && negb colorless && negb (Z.land var 32767 =? 0)) with false
    by (destruct H as [-> | ->]; cbn; rewrite ?andb_false_r; reflexivity).
  destruct (style (Z.of_nat i)) as [c []]; cbn [fst snd] in *; auto.
  now rewrite dimmed_spec.
Qed.

Example C141_dim_ex :
  runloop false false 16384 8192 2
    (fun i => if i =? 0 then (Color 65535 0 0, false) else (Color 65535 0 0, true)) =
  [Write 0 (Color 0 32767 32767) false; Write 1 (Color 0 65535 65535) true].
Proof. reflexivity. Qed.

(** A shortened blade shows the style on its first LEDs and black on the others. *)
Theorem C141_short : forall shown len handled colorless var style, 0 <= len ->
  (forall i, channels_ok (fst (style i))) ->
  (handled = true \/ colorless = true \/ var mod 32768 = 0) ->
  let k := Z.to_nat (Z.min (Z.of_nat (length shown)) len) in
  set_leds shown (snd (shorten (Z.of_nat (length shown)) len (fun m =>
    runloop handled colorless var 16384 (Z.to_nat m) style))) =
  Some (map (fun i => fst (style (Z.of_nat i))) (seq 0 k) ++
        repeat black (length shown - k)).
Proof.
  intros shown len handled colorless var style L C H k.
  rewrite shorten_shown; auto.
  - fold k. do 2 f_equal.
    apply nth_error_same. intros i. rewrite !nth_error_map.
    destruct (Nat.lt_ge_cases i k) as [Lt|Ge].
    + rewrite C141_plain by auto.
      rewrite (nth_error_nth' _ 0%nat) by (rewrite seq_length; lia).
      rewrite seq_nth by lia. reflexivity.
    + rewrite (proj2 (nth_error_None _ _)) by (rewrite C141_count; lia).
      rewrite (proj2 (nth_error_None _ _)) by (rewrite seq_length; lia). reflexivity.
  - now rewrite C141_count.
  - intros i w W. assert (Lt : (i < k)%nat).
    { rewrite <- (C141_count handled colorless var 16384 k style).
      apply nth_error_Some. fold k in W. congruence. }
    fold k in W. rewrite C141_plain in W by auto. injection W as <-. reflexivity.
Qed.

Example C141_short_ex :
  set_leds (repeat (Color 9 9 9) 5) (snd (shorten 5 3 (fun m =>
    runloop false false 0 16384 (Z.to_nat m) (fun i => (Color i 0 7, false))))) =
  Some [Color 0 0 7; Color 1 0 7; Color 2 0 7; black; black].
Proof. reflexivity. Qed.

(** With a stored length below zero (other than the -1 that stands for none) LEDs
    before the first are set. *)
Theorem C141_negative_refuted : forall shown len frame, len < 0 ->
  frame len = [] ->
  set_leds shown (snd (shorten (Z.of_nat (length shown)) len frame)) = None.
Proof.
  intros shown len frame L F. unfold shorten.
  replace (Z.min (Z.of_nat (length shown)) len) with len by lia. cbn [snd].
  rewrite F. cbn [app].
  destruct (Z.to_nat (Z.of_nat (length shown) - len)) as [|m] eqn:M; [lia|].
  cbn [seq map set_leds]. unfold set_led at 1. cbn [w_led].
  destruct (Z.ltb_spec (len + Z.of_nat 0) 0); [|lia]. reflexivity.
Qed.

(** RGBCycle: whatever the memory held, frames in three successive milliseconds are
    full red, green and blue in some order; within a millisecond nothing changes. *)
Theorem C141_cycle : forall s t1 t2 t3, 0 <= n s < 256 ->
  t1 <> at_last s -> t2 <> t1 -> t3 <> t2 ->
  let s1 := cycle_run s t1 in
  let s2 := cycle_run s1 t2 in
  let s3 := cycle_run s2 t3 in
  let c1 := cycle_color s1 in let c2 := cycle_color s2 in let c3 := cycle_color s3 in
  (primary c1 /\ primary c2 /\ primary c3) /\
  (r c1 + r c2 + r c3 = 65535 /\ g c1 + g c2 + g c3 = 65535 /\
   b c1 + b c2 + b c3 = 65535) /\
  cycle_run s1 t1 = s1.
Proof.
  intros s t1 t2 t3 N T1 T2 T3 s1 s2 s3 c1 c2 c3.
  destruct (cycle_next s t1 N T1) as (A1 & B1 & _). fold s1 in A1, B1.
  destruct (cycle_next s1 t2 ltac:(lia) ltac:(congruence)) as (A2 & B2 & C2).
  fold s2 in A2, B2, C2. specialize (C2 A1).
  destruct (cycle_next s2 t3 ltac:(lia) ltac:(congruence)) as (A3 & B3 & C3).
  fold s3 in A3, B3, C3. specialize (C3 A2).
  assert (E : cycle_run s1 t1 = s1).
  { unfold cycle_run. rewrite B1, Z.eqb_refl. reflexivity. }
  split; [|split; [|exact E]]; unfold c1, c2, c3, cycle_color, primary; rewrite C3, C2;
    clear - A1; set (k := n s1) in *; clearbody k;
    assert (k = 0 \/ k = 1 \/ k = 2) as [-> | [-> | ->]] by lia; cbn; auto 10.
Qed.

Example C141_cycle_ex :
  map cycle_color [cycle_run (Cycle 5 255) 6; cycle_run (cycle_run (Cycle 5 255) 6) 7] =
  [Color 65535 0 0; Color 0 65535 0].
Proof. reflexivity. Qed.

Print Assumptions C140_agree.
Print Assumptions C140_change.
Print Assumptions C140_first.
Print Assumptions C140_idle.
Print Assumptions C140_none.
Print Assumptions C141_lit.
Print Assumptions C141_says.
Print Assumptions C141_pace.
Print Assumptions C141_told.
Print Assumptions C141_down_refuted.
Print Assumptions C141_plain.
Print Assumptions C141_count.
Print Assumptions C141_turned.
Print Assumptions C141_dim.
Print Assumptions C141_short.
Print Assumptions C141_negative_refuted.
Print Assumptions C141_cycle.
