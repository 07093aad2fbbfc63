(** Lemmas about switching off. *)
From Coq Require Import ZArith List Bool QArith Qminmax Qround Lia ZifyBool ZifyNat Lqa.
From Verif Require Import ArithModel ColorModel OffModel OffSpec.
Import ListNotations.
Open Scope Z_scope.

(** ** Colors *)
Lemma mul32_0_l x : mul32 0 x = 0. Proof. reflexivity. Qed.
Lemma mul32_0_r c : mul32 c 0 = 0. Proof. unfold mul32, u32, u16. rewrite Z.mod_0_l, Z.mul_0_r by lia. reflexivity. Qed.
Lemma scale_black l : black l -> black (scale l 32768).
Proof.
  destruct l as [o|u|p]; cbn [black scale].
  - intros H. unfold opaque_mul. cbn [uc ua]. split; [exact H|reflexivity].
  - intros (C & A). unfold um_mul. cbn. rewrite C, A. split; reflexivity.
  - intros (C & A). unfold pm_mul. cbn [pc pa]. rewrite C, A. split; reflexivity.
Qed.
Lemma scale_clear l x : clear l -> clear (scale l x).
Proof.
  destruct l as [o|u|p]; cbn [clear scale]; [tauto| |].
  - intros A. unfold um_mul. cbn [ua]. rewrite A. reflexivity.
  - intros (C & A). unfold pm_mul. cbn [pc pa]. rewrite C, A. split; reflexivity.
Qed.
Lemma paint32_00 ac oa : paint32 ac oa 0 0 = 0. Proof. reflexivity. Qed.
Lemma over_black b l : black l -> black (over b l).
Proof.
  assert (P : forall b ac, ac = 0 -> paint32 ac 32768 b 0 = 0) by (intros x ac ->; unfold paint32; rewrite mul32_0_r; reflexivity).
  assert (A : forall b ac, ac = 0 -> addc ac b 0 = 0) by (intros x ac ->; unfold addc; rewrite mul32_0_r; reflexivity).
  destruct b as [b|b|b], l as [o|u|p]; cbn [black over]; intros H; try (destruct H as (C & AL)).
  - unfold opaque_over_um. cbn [ua uc]. rewrite H. cbn [oc]. unfold map2. cbn. rewrite !P by reflexivity. reflexivity.
  - unfold opaque_over_um. rewrite C, AL. cbn. unfold map2. cbn. rewrite !P by reflexivity. reflexivity.
  - unfold opaque_over_pm. rewrite C, AL. cbn. unfold map2. cbn. rewrite !A by reflexivity. reflexivity.
  - unfold um_over_um. cbn [ua uc pc pa]. rewrite H. change (u16 (32768 - 32768)) with 0. rewrite Z.mul_0_r. unfold map2. cbn. rewrite !P by reflexivity. split; reflexivity.
  - unfold um_over_um. cbn [ua uc pc pa]. rewrite C, AL. change (u16 (32768 - 32768)) with 0. rewrite Z.mul_0_r. unfold map2. cbn. rewrite !P by reflexivity. split; reflexivity.
  - unfold um_over_pm. cbn [ua uc pc pa]. rewrite C, AL. change (u16 (32768 - 32768)) with 0. rewrite Z.mul_0_r. unfold map2. cbn. rewrite !A by reflexivity. split; reflexivity.
  - unfold pm_over_um. cbn [ua uc pc pa]. rewrite H. change (u16 (32768 - 32768)) with 0. rewrite Z.mul_0_r. unfold map2. cbn. rewrite !P by reflexivity. split; reflexivity.
  - unfold pm_over_um. cbn [ua uc pc pa]. rewrite C, AL. change (u16 (32768 - 32768)) with 0. rewrite Z.mul_0_r. unfold map2. cbn. rewrite !P by reflexivity. split; reflexivity.
  - unfold pm_over_pm. cbn [ua uc pc pa]. rewrite C, AL. change (u16 (32768 - 32768)) with 0. rewrite Z.mul_0_r. unfold map2. cbn. rewrite !A by reflexivity. split; reflexivity.
Qed.
Lemma over_clear_black b l : black b -> clear l -> black (over b l).
Proof.
  assert (P : forall ac o, paint32 ac 0 0 o = 0) by (intros ac x; unfold paint32; rewrite mul32_0_r; reflexivity).
  destruct b as [b|b|b], l as [o|u|p]; cbn [black clear over]; intros B L; try tauto.
  - unfold opaque_over_um. rewrite L. exact B.
  - destruct L as (C & A). unfold opaque_over_pm. rewrite A. exact B.
  - destruct B as (C & A). unfold um_over_um. cbn [pc pa]. rewrite L, A, C. unfold map2. cbn [r g ColorModel.b]. rewrite !P. split; reflexivity.
  - destruct B as (C & A), L as (C' & A'). unfold um_over_pm. cbn [pc pa]. rewrite A', A, C, C'. split; reflexivity.
  - destruct B as (C & A). unfold pm_over_um. cbn [pc pa]. rewrite L, A, C. unfold map2. cbn [r g ColorModel.b]. rewrite !P. split; reflexivity.
  - destruct B as (C & A), L as (C' & A'). unfold pm_over_pm. cbn [pc pa]. rewrite A', A, C, C'. split; reflexivity.
Qed.
Lemma over_clear_clear b l : clear b -> clear l -> clear (over b l).
Proof.
  assert (P : forall b o, paint32 0 0 b o = 0) by (intros x y; unfold paint32; rewrite !mul32_0_r; reflexivity).
  assert (P' : forall ac o, paint32 ac 0 0 o = 0) by (intros ac x; unfold paint32; rewrite mul32_0_r; reflexivity).
  assert (A : forall b, addc 0 b 0 = 0) by (intros x; unfold addc; rewrite mul32_0_r; reflexivity).
  destruct b as [b|b|b], l as [o|u|p]; cbn [clear over]; intros B L; try tauto.
  - unfold um_over_um. cbn [pc pa]. rewrite L, B. change (Z.shiftr (0 * u16 (32768 - 0)) 15) with 0. unfold map2. rewrite !P. split; reflexivity.
  - destruct L as (C' & A'). unfold um_over_pm. cbn [pc pa]. rewrite A', B, C'. change (Z.shiftr (0 * u16 (32768 - 0)) 15) with 0. unfold map2. cbn [r g ColorModel.b]. rewrite !A. split; reflexivity.
  - destruct B as (C & A0). unfold pm_over_um. cbn [pc pa]. rewrite L, A0, C. unfold map2. cbn [r g ColorModel.b]. rewrite !P'. split; reflexivity.
  - destruct B as (C & A0), L as (C' & A'). unfold pm_over_pm. cbn [pc pa]. rewrite A', A0, C, C'. split; reflexivity.
Qed.
Lemma dealpha_black l : black l \/ clear l -> black (dealpha l).
Proof.
  destruct l as [o|u|p]; cbn [black clear dealpha oc]; intros [H|H]; try tauto.
  - destruct H as (C & A). rewrite C, A. reflexivity.
  - rewrite H. unfold map1. rewrite !mul32_0_r. reflexivity.
Qed.
Lemma to_pm_black l : black l -> pc (to_pm l) = Color 0 0 0 /\ pa (to_pm l) = 32768.
Proof. destruct l as [o|u|p]; cbn [black to_pm]; intros H; [cbn; rewrite H; tauto|destruct H as (C & A); unfold pm_of_um; cbn [pc pa]; rewrite C, A; split; reflexivity|exact H]. Qed.
Lemma to_pm_clear l : clear l -> pc (to_pm l) = Color 0 0 0 /\ pa (to_pm l) = 0.
Proof. destruct l as [o|u|p]; cbn [clear to_pm]; intros H; [tauto|unfold pm_of_um; cbn [pc pa]; rewrite H; unfold map1; rewrite !mul32_0_r; split; reflexivity|exact H]. Qed.
Lemma mix32_00 x s : mix32 x s 0 0 = 0. Proof. unfold mix32. rewrite !mul32_0_l. cbn [Z.add]. unfold u32. rewrite Z.mod_0_l by lia. rewrite Z.shiftr_0_l. reflexivity. Qed.
Lemma mix_black a c x : black a -> black c -> black (mix a c x 15).
Proof.
  intros A C.
  assert (M : black (LP (mix_pm (to_pm a) (to_pm c) x 15))).
  { destruct (to_pm_black a A) as (A1 & A2), (to_pm_black c C) as (C1 & C2). cbn [black]. unfold mix_pm. cbn [pc pa]. rewrite A1, A2, C1, C2. unfold map2. cbn [r g ColorModel.b]. rewrite !mix32_00. split; [reflexivity|].
    replace (32768 * (2 ^ 15 - x) + 32768 * x + (2 ^ 15 - 1)) with (32768 * 32768 + 32767) by (change (2 ^ 15) with 32768; ring). reflexivity. }
  destruct a as [a|a|a], c as [c|c|c]; cbn [mix]; try exact M. cbn [black] in *. unfold mix_opaque. cbn [oc]. rewrite A, C. unfold map2. cbn [r g ColorModel.b]. rewrite !mix32_00. reflexivity.
Qed.
Lemma mix_clear a c x : clear a -> clear c -> clear (mix a c x 15).
Proof.
  intros A C.
  assert (M : clear (LP (mix_pm (to_pm a) (to_pm c) x 15))).
  { destruct (to_pm_clear a A) as (A1 & A2), (to_pm_clear c C) as (C1 & C2). cbn [clear]. unfold mix_pm. cbn [pc pa]. rewrite A1, A2, C1, C2. unfold map2. cbn [r g ColorModel.b]. rewrite !mix32_00. split; reflexivity. }
  destruct a as [a|a|a], c as [c|c|c]; cbn [mix]; try exact M. destruct A.
Qed.
Lemma mix_first c s : 0 <= s <= 15 -> black (mix (LO (Opaque black16 false)) c 0 s).
Proof.
  intros S0. assert (M : forall o, mix32 0 s 0 o = 0). { intros o. unfold mix32. rewrite mul32_0_l, mul32_0_r. cbn [Z.add]. unfold u32. rewrite Z.mod_0_l by lia. rewrite Z.shiftr_0_l. reflexivity. }
  destruct c as [c|c|c]; cbn [mix black].
  - unfold mix_opaque. cbn [oc]. unfold map2, black16. cbn [r g ColorModel.b]. rewrite !M. reflexivity.
  - unfold mix_pm. cbn [pc pa to_pm pm_of_opaque oc]. unfold map2, black16. cbn [r g ColorModel.b]. rewrite !M. split; [reflexivity|].
    rewrite Z.mul_0_r, Z.add_0_r, Z.sub_0_r. rewrite Z.shiftr_div_pow2 by lia. rewrite Z.div_add_l by (apply Z.pow_nonzero; lia). rewrite Z.div_small by (pose proof (Z.pow_pos_nonneg 2 s); lia). reflexivity.
  - unfold mix_pm. cbn [pc pa to_pm pm_of_opaque oc]. unfold map2, black16. cbn [r g ColorModel.b]. rewrite !M. split; [reflexivity|].
    rewrite Z.mul_0_r, Z.add_0_r, Z.sub_0_r. rewrite Z.shiftr_div_pow2 by lia. rewrite Z.div_add_l by (apply Z.pow_nonzero; lia). rewrite Z.div_small by (pose proof (Z.pow_pos_nonneg 2 s); lia). reflexivity.
Qed.
Lemma recolor_black f l : f (Color 0 0 0) = Color 0 0 0 -> black l -> black (recolor f l).
Proof. intros F. destruct l as [o|u|p]; cbn; [intros ->; exact F| |]; intros (-> & ->); rewrite F; tauto. Qed.
Lemma rotate_black x : rotate (Color 0 0 0) x = Color 0 0 0.
Proof. unfold rotate. destruct (x =? 0); reflexivity. Qed.
Lemma getByte_black o i : getByte (Color 0 0 0) o i = 0.
Proof. unfold getByte. cbn [r g b white]. repeat (destruct (_ =? _)); reflexivity. Qed.

Lemma clamp_bottom x lo hi : x <= lo <= hi -> clampi32 x lo hi = lo.
Proof. intros H. unfold clampi32. destruct (Z.ltb_spec x lo); [reflexivity|]. replace x with lo by lia. destruct (Z.gtb_spec lo hi); lia. Qed.
Lemma clamp_top x lo hi : lo <= hi <= x -> clampi32 x lo hi = hi.
Proof. intros H. unfold clampi32. destruct (Z.ltb_spec x lo); [lia|]. destruct (Z.gtb_spec x hi); lia. Qed.

(** ** Functions *)
Lemma covered_full led : 0 <= led -> forall n, led < n -> covered 0 (n * 32768) led = 32768.
Proof. intros L n N. unfold covered. lia. Qed.
Lemma const_res_ok n r : const_res n = r -> (r = FZero -> n = 0) /\ (r = FOne -> n = 32768).
Proof. unfold const_res. intros <-. destruct (Z.eqb_spec n 0), (Z.eqb_spec n 32768); split; intros; try discriminate; assumption. Qed.
Lemma never_one_ok e f : never_one f -> snd (run_fn e f) <> FOne.
Proof.
  induction f; cbn [never_one run_fn]; intros H.
  - cbn. unfold const_res. destruct (n =? 0); [discriminate|]. destruct (Z.eqb_spec n 32768); [congruence|discriminate].
  - discriminate.
  - destruct (run_fn e f1), (run_fn e f2). cbn. destruct (negb (on e) && _); discriminate.
  - subst. destruct (run_fn e f). discriminate.
  - destruct (run_fn e f) as [f' r]. cbn [snd]. set (v := nth _ ns 0). assert (V : v <> 32768).
    { unfold v. destruct (Nat.ltb_spec (Z.to_nat (calculate f' mod Z.of_nat (length ns))) (length ns)) as [L|L]; [|rewrite nth_overflow by lia; lia]. rewrite Forall_forall in H. apply H. apply nth_In. exact L. }
    destruct r; try discriminate; unfold const_res; destruct (v =? 0); try discriminate; destruct (Z.eqb_spec v 32768); congruence.
  - destruct (run_fn e f1), (run_fn e f2) as [f2' r]. cbn [snd] in *. apply IHf2, H.
  - destruct (run_fn e f1), (run_fn e f2) as [f2' r]. destruct (if calculate f2' =? 32768 then _ else _) as [? ?]. cbn [snd] in *. apply IHf2, H.
  - discriminate.
Qed.
Definition fclaim (n : Z) (r : fres) (f : fn) : Prop :=
  match r with FUnknown => True | FZero => forall led, 0 <= led < n -> get f led = 0 | FOne => forall led, 0 <= led < n -> get f led = 32768 end.
Lemma fn_claim e f : 1 <= leds e -> honest_fn f -> fclaim (leds e) (snd (run_fn e f)) (fst (run_fn e f)).
Proof.
  intros N. induction f; cbn [honest_fn run_fn]; intros H.
  - cbn. unfold const_res. destruct (Z.eqb_spec n 0); [cbn; intros; assumption|]. destruct (Z.eqb_spec n 32768); cbn; [intros; assumption|exact Logic.I].
  - cbn. reflexivity.
  - destruct (run_fn e f1), (run_fn e f2). cbn. destruct (negb (on e) && _) eqn:E; cbn; [|exact Logic.I]. intros led L. lia.
  - destruct (run_fn e f) as [f' r]. cbn [fst snd] in *. specialize (IHf H). destruct allow; [|exact Logic.I]. destruct r; cbn [fclaim get] in *; [exact Logic.I| |].
    + intros led L. unfold calculate. rewrite IHf by lia. apply clamp_top; lia.
    + intros led L. unfold calculate. rewrite IHf by lia. apply clamp_bottom; lia.
  - destruct (run_fn e f) as [f' r]. cbn [fst snd]. set (v := nth _ ns 0). destruct r; [exact Logic.I| |]; unfold const_res; (destruct (Z.eqb_spec v 0); [cbn; intros; assumption|]; destruct (Z.eqb_spec v 32768); cbn; [intros; assumption|exact Logic.I]).
  - destruct H as (H1 & H2 & H3). pose proof (never_one_ok e f2) as NO. destruct H3 as [->|H3].
    + cbn [run_fn]. destruct (run_fn e f2) as [f2' r]. cbn [fst snd] in *. specialize (IHf2 H2). unfold calculate at 1 3. cbn [get]. destruct r; cbn [fclaim get] in *; [exact Logic.I| |]; intros led L; unfold calculate; rewrite !IHf2 by lia.
      * change (Z.quot 0 2) with 0. rewrite Z.sub_0_r, Z.add_0_r. unfold covered. lia.
      * change (Z.quot 32768 2) with 16384. rewrite clamp_bottom, clamp_top by lia. unfold covered. lia.
    + specialize (NO H3). destruct (run_fn e f1) as [f1' r1], (run_fn e f2) as [f2' r]. cbn [fst snd] in *. specialize (IHf2 H2). destruct r; [exact Logic.I| |congruence]. cbn [fclaim get] in *. intros led L. unfold calculate at 2 4. rewrite !IHf2 by lia. change (Z.quot 0 2) with 0. unfold covered. rewrite Z.sub_0_r, Z.add_0_r. lia.
  - destruct H as (H1 & H2). destruct (run_fn e f1) as [f1' r1], (run_fn e f2) as [f2' r]. cbn [fst snd] in *. specialize (IHf2 H2). unfold calculate. destruct r; cbn [fclaim] in *.
    + destruct (if get f2' 0 =? 32768 then _ else _) as [? ?]. exact Logic.I.
    + rewrite !IHf2 by lia. change (0 =? 32768) with false. change (0 =? 0) with true. cbv iota. cbn [fst snd fclaim get]. intros led L. rewrite Z.leb_refl. unfold covered. lia.
    + rewrite !IHf2 by lia. change (32768 =? 32768) with true. cbv iota. cbn [fst snd fclaim get]. intros led L. replace (0 <=? leds e * 32768) with true by lia. apply covered_full; lia.
  - exact Logic.I.
Qed.

(** ** What running keeps *)
Lemma never_one_run e f : never_one f -> never_one (fst (run_fn e f)).
Proof.
  induction f; cbn [never_one run_fn]; intros H.
  - exact H.
  - exact H.
  - destruct (run_fn e f1), (run_fn e f2). exact Logic.I.
  - destruct (run_fn e f). exact H.
  - destruct (run_fn e f). exact H.
  - destruct (run_fn e f1), (run_fn e f2). cbn [fst] in *. cbn [never_one]. auto.
  - destruct (run_fn e f1), (run_fn e f2). destruct (if _ =? 32768 then _ else _). cbn [fst] in *. cbn [never_one]. auto.
  - exact Logic.I.
Qed.
Lemma honest_fn_run e f : honest_fn f -> honest_fn (fst (run_fn e f)).
Proof.
  induction f; cbn [honest_fn run_fn]; intros H; try exact Logic.I.
  - destruct (run_fn e f1), (run_fn e f2). cbn [fst honest_fn] in *. tauto.
  - destruct (run_fn e f). cbn [fst honest_fn] in *. tauto.
  - destruct (run_fn e f). cbn [fst honest_fn] in *. tauto.
  - destruct H as (H1 & H2 & [->|H3]).
    + cbn [run_fn]. destruct (run_fn e f2). cbn [fst honest_fn] in *. tauto.
    + apply (never_one_run e) in H3. destruct (run_fn e f1), (run_fn e f2). cbn [fst honest_fn] in *. tauto.
  - destruct (run_fn e f1), (run_fn e f2). destruct (if _ =? 32768 then _ else _). cbn [fst honest_fn] in *. tauto.
Qed.
Lemma never_negative_run e f : never_negative f -> never_negative (fst (run_fn e f)).
Proof.
  destruct f; cbn [never_negative run_fn]; intros H; try exact H.
  - destruct (run_fn e f1), (run_fn e f2). exact Logic.I.
  - destruct (run_fn e f). exact H.
  - destruct (run_fn e f). exact H.
  - destruct (run_fn e f1), (run_fn e f2). exact Logic.I.
  - destruct (run_fn e f1), (run_fn e f2). destruct (if _ =? 32768 then _ else _). exact Logic.I.
Qed.
Lemma steady_fn_run e f : steady_fn f -> steady_fn (fst (run_fn e f)).
Proof.
  induction f; cbn [steady_fn run_fn]; intros H; try exact Logic.I.
  - destruct H as (H1 & H2 & H3). apply (never_negative_run e) in H3. destruct (run_fn e f1), (run_fn e f2). cbn [fst steady_fn] in *. tauto.
  - destruct (run_fn e f). cbn [fst steady_fn] in *. tauto.
  - destruct (run_fn e f). cbn [fst steady_fn] in *. tauto.
  - destruct (run_fn e f1), (run_fn e f2). cbn [fst steady_fn] in *. tauto.
  - destruct (run_fn e f1), (run_fn e f2). destruct (if _ =? 32768 then _ else _). cbn [fst steady_fn] in *. tauto.
Qed.

Definition claim (n : Z) (r : lres) (s : style) : Prop := match r with LUnknown => True | LBlack => dark n s | LTransparent => invisible n s end.
Lemma as_bool_claim n r s s' : (dark n s -> dark n s') -> claim n r s -> claim n (as_bool r) s'.
Proof. destruct r; cbn; tauto. Qed.
Theorem style_claim s : forall e, 1 <= leds e -> honest s -> claim (leds e) (snd (run e s)) (fst (run e s)).
Proof.
  induction s; intros e N; cbn [honest run]; intros H.
  - cbn. intros led L. reflexivity.
  - cbn. destruct ((r c =? 0) && (g c =? 0) && (b c =? 0)) eqn:E; cbn; [|exact Logic.I]. intros led L. cbn. destruct c as [x y z]. cbn in E. f_equal; lia.
  - exact Logic.I.
  - destruct H as (H1 & H2). pose proof (fn_claim e a N H2) as FA. specialize (IHs e N H1). destruct (run e s) as [s' r], (run_fn e a) as [a' ra]. cbn [fst snd] in *. destruct ra; cbn [fclaim claim] in *; [exact Logic.I| |].
    + intros led L. cbn [color_at]. rewrite FA by exact L. reflexivity.
    + destruct r; cbn [claim] in *; [exact Logic.I| |]; intros led L; cbn [color_at]; rewrite FA by exact L; change (32768 =? 0) with false; cbv iota; [apply scale_black|apply scale_clear]; apply IHs, L.
  - destruct (run_fn e a) as [a1 r1] eqn:E1. assert (H' : honest_fn a1) by (apply (honest_fn_run e) in H; rewrite E1 in H; exact H). pose proof (fn_claim e a1 N H') as FA. destruct (run_fn e a1) as [a' ra]. cbn [fst snd] in *. destruct ra; cbn [fclaim claim] in *; try exact Logic.I. intros led L. cbn [color_at]. rewrite FA by exact L. reflexivity.
  - destruct H as (H1 & H2). specialize (IHs1 e N H1). specialize (IHs2 e N H2). destruct (run e s1) as [s1' r1], (run e s2) as [s2' r2]. cbn [fst snd] in *. destruct r2; cbn [claim] in *; [exact Logic.I| |].
    + intros led L. cbn [color_at]. apply over_black, IHs2, L.
    + destruct r1; cbn [claim] in *; [exact Logic.I| |]; intros led L; cbn [color_at]; [apply over_clear_black|apply over_clear_clear]; auto.
  - specialize (IHs e N H). destruct (run e s) as [s' r]. cbn [fst snd] in *. destruct r; cbn [claim] in *; [exact Logic.I| |]; intros led L; cbn [color_at]; apply dealpha_black; auto.
  - specialize (IHs e N H). destruct (run e s) as [s' ro]. cbn [fst snd] in *. set (o' := tr_run _). set (i' := tr_run _). destruct (allow && negb (on e) && negb (active o') && negb (active i')) eqn:E; [|exact Logic.I].
    assert (E' : on e = false /\ active o' = false /\ active i' = false) by (destruct allow, (on e), (active o'), (active i'); cbn in E; intuition discriminate). destruct E' as (E1 & E2 & E3).
    assert (CE : forall led, color_at (InOutTr allow (on e) s' o' i') led = color_at s' led) by (intros led; cbn [color_at]; rewrite E1, E2, E3; reflexivity).
    destruct ro; cbn [claim] in *; [exact Logic.I| |]; intros led L; rewrite CE; apply IHs, L.
  - cbn [fst snd]. set (t' := tr_run _). destruct (active t') eqn:A; cbn [claim]; [exact Logic.I|]. intros led L. cbn [color_at]. rewrite A. reflexivity.
  - destruct (run_fn e p). exact Logic.I.
  - destruct H as (H1 & H2). specialize (IHs e N H2). destruct (run_fn e f) as [f' ?], (run e s) as [s' r]. cbn [fst snd] in *.
    assert (IN : forall led, let x := Z.max 0 (Z.min (get f' led * leds e) (leds e * 32768 - 1)) in 0 <= Z.shiftr x 15 < leds e).
    { intros led. cbv zeta. set (x := Z.max _ _). assert (0 <= x <= leds e * 32768 - 1) by (unfold x; lia). rewrite Z.shiftr_div_pow2 by lia. change (2 ^ 15) with 32768. split; [apply Z.div_pos; lia|apply Z.div_lt_upper_bound; lia]. }
    destruct r; cbn [claim] in *; [exact Logic.I| |]; intros led L; specialize (IN led); cbv zeta in IN; cbn [color_at]; [apply mix_black|apply mix_clear]; apply IHs; lia.
  - destruct H as (H1 & H2). specialize (IHs e N H2). destruct (run_fn e f) as [f' ?], (run e s) as [s' r]. cbn [fst snd] in *. revert IHs. apply as_bool_claim. intros D led L. cbn [color_at]. apply recolor_black; [apply rotate_black|apply D, L].
  - specialize (IHs e N H). destruct (run e s) as [s' r]. cbn [fst snd] in *. revert IHs. apply as_bool_claim. intros D led L. cbn [color_at]. apply recolor_black; [rewrite !getByte_black; reflexivity|apply D, L].
  - destruct (run e s1) as [s1' ?], (run_fn e ext) as [ext' ?]. destruct (is_black_type s3) eqn:B.
    + destruct s3; try discriminate. cbn [run fst snd]. destruct (allow && true && _) eqn:E; [|exact Logic.I]. cbn [claim]. intros led L. cbn [color_at]. set (th := Z.shiftr _ 7) in *. replace (clampi32 (th - led * 256) 0 255) with 0; [apply mix_first; lia|]. symmetry. apply clamp_bottom. lia.
    + destruct (run e s3). cbn [fst snd]. rewrite andb_false_r. exact Logic.I.
  - destruct H as (H1 & H2). destruct (run_fn e ms) as [ms' ?]. set (q := if on e then _ else _). destruct q as [[w i] si]. specialize (IHs (with_on e i) N H2). cbn [leds with_on] in IHs. destruct (run (with_on e i) s) as [s' r]. cbn [fst snd] in *. revert IHs. apply as_bool_claim. intros D. exact D.
  - destruct H as (H1 & H2). destruct (run_fn e ms) as [ms' ?]. set (q := if on e then _ else _). destruct q as [[w i] si]. specialize (IHs (with_on e i) N H2). cbn [leds with_on] in IHs. destruct (run (with_on e i) s) as [s' r]. cbn [fst snd] in *. revert IHs. apply as_bool_claim. intros D. exact D.
  - destruct H as (H1 & H2 & H3 & H4). assert (BB : is_black_type (if cylon then s1 else s3) = true -> s3 = Black). { destruct cylon; [intros B; apply H4; [reflexivity|]; destruct s1; discriminate || reflexivity|intros B; destruct s3; discriminate || reflexivity]. }
    destruct (run e s1) as [s1' ?], (run e s2) as [s2' ?]. set (blk := is_black_type _) in *. destruct (run e s3) as [s3' r3] eqn:E3. set (pc := (_ + _)%Q). destruct (Qeq_bool pc 100); [exact Logic.I|]. destruct (Qeq_bool pc 0).
    + cbn [fst snd negb andb]. destruct blk eqn:B; [|exact Logic.I]. rewrite (BB eq_refl) in E3. cbn in E3. injection E3 as <- <-. cbn [claim]. intros led L. cbn [color_at]. replace (cycle_mix cylon 0 0 (leds e * 16384) led) with 0; [apply mix_first; lia|]. unfold cycle_mix. rewrite Z.leb_refl, orb_true_r. unfold covered14. lia.
    + destruct (span tick). exact Logic.I.
  - destruct (run e s1) as [s1' ?], (run e s2) as [s2' ?]. unfold fire_run. destruct (u32 (millis e - last_update f) <? 10); [exact Logic.I|].
    set (q := if effect e clash_effect then _ else _). destruct q as [f' cfg]. cbv zeta. cbn [fst snd]. set (h2 := fun i => if (0 <=? i) && (i <? leds e) then _ else _).
    destruct (forallb _ _) eqn:Z0; [|exact Logic.I]. cbn [claim]. intros led L. cbn [color_at]. cbn [heat fire_leds]. rewrite forallb_forall in Z0.
    assert (Hz : h2 (leds e - 1 - led) = 0). { specialize (Z0 (Z.to_nat (leds e - 1 - led))). rewrite in_seq, Z2Nat.id in Z0 by lia. apply Z.eqb_eq, Z0. lia. }
    rewrite Hz. reflexivity.
Qed.

Lemma black_run e s : run e s = run e s -> (is_black_type (fst (run e s)) = is_black_type s).
Proof.
  intros _. destruct s; cbn [run]; try reflexivity;
    repeat match goal with
    | |- context [run_fn ?e ?f] => destruct (run_fn e f)
    | |- context [run ?e ?f] => destruct (run e f)
    | |- context [fire_run ?e ?f] => destruct (fire_run e f)
    | |- context [match ?x with pair _ _ => _ end] => destruct x
    end; reflexivity.
Qed.
Lemma is_black s : is_black_type s = true <-> s = Black.
Proof. destruct s; cbn; split; congruence. Qed.
Lemma honest_run s : forall e, honest s -> honest (fst (run e s)).
Proof.
  induction s; intros e; cbn [honest run]; intros H; try exact Logic.I.
  - destruct H as (H1 & H2). apply (honest_fn_run e) in H2. specialize (IHs e H1). destruct (run e s), (run_fn e a). cbn [fst honest] in *. tauto.
  - apply (honest_fn_run e) in H. destruct (run_fn e a) as [a1 ?]. cbn [fst] in H. apply (honest_fn_run e) in H. destruct (run_fn e a1). exact H.
  - destruct H as (H1 & H2). specialize (IHs1 e H1). specialize (IHs2 e H2). destruct (run e s1), (run e s2). cbn [fst honest] in *. tauto.
  - specialize (IHs e H). destruct (run e s). exact IHs.
  - specialize (IHs e H). destruct (run e s). exact IHs.
  - apply (honest_fn_run e) in H. destruct (run_fn e p). exact H.
  - destruct H as (H1 & H2). apply (honest_fn_run e) in H1. specialize (IHs e H2). destruct (run e s), (run_fn e f). cbn [fst honest] in *. tauto.
  - destruct H as (H1 & H2). apply (honest_fn_run e) in H1. specialize (IHs e H2). destruct (run e s), (run_fn e f). cbn [fst honest] in *. tauto.
  - specialize (IHs e H). destruct (run e s). exact IHs.
  - destruct H as (H1 & H2 & H3 & H4). apply (honest_fn_run e) in H2. specialize (IHs1 e H1). specialize (IHs3 e H4). destruct (run e s1), (run_fn e ext), (run e s3). cbn [fst honest] in *. tauto.
  - destruct H as (H1 & H2). apply (honest_fn_run e) in H1. destruct (run_fn e ms). destruct (if on e then _ else _) as [[w i] si]. specialize (IHs (with_on e i) H2). destruct (run (with_on e i) s). cbn [fst honest] in *. tauto.
  - destruct H as (H1 & H2). apply (honest_fn_run e) in H1. destruct (run_fn e ms). destruct (if on e then _ else _) as [[w i] si]. specialize (IHs (with_on e i) H2). destruct (run (with_on e i) s). cbn [fst honest] in *. tauto.
  - destruct H as (H1 & H2 & H3 & H4). specialize (IHs1 e H1). specialize (IHs2 e H2). specialize (IHs3 e H3). pose proof (black_run e s1 eq_refl) as B1. pose proof (black_run e s3 eq_refl) as B3.
    destruct (run e s1), (run e s2), (run e s3). destruct (if Qeq_bool _ 100 then _ else _). cbn [fst honest] in *. repeat split; try assumption. intros C D. apply is_black. rewrite B3. apply is_black. apply H4; [exact C|]. apply is_black. rewrite <- B1. apply is_black. exact D.
  - destruct H as (H1 & H2). specialize (IHs1 e H1). specialize (IHs2 e H2). destruct (run e s1), (run e s2), (fire_run e f). cbn [fst honest] in *. tauto.
Qed.
Lemma fire_run_keeps e f : off_cfg (fst (fire_run e f)) = off_cfg f /\ speed (fst (fire_run e f)) = speed f.
Proof.
  unfold fire_run. destruct (u32 (millis e - last_update f) <? 10); [split; reflexivity|].
  unfold fire_on. destruct (effect e clash_effect); [split; reflexivity|]. destruct (negb (on e)); split; reflexivity.
Qed.
Lemma fire_run_far e f : 1 <= leds e -> 0 <= speed f -> heat (fst (fire_run e f)) (leds e + speed f) = heat f (leds e + speed f).
Proof.
  intros N S0. unfold fire_run. destruct (u32 (millis e - last_update f) <? 10); [reflexivity|].
  unfold fire_on. destruct (effect e clash_effect); [|destruct (negb (on e))]; cbn [fst heat speed];
    (replace (leds e + speed f <? leds e) with false by lia; replace (leds e + speed f <? leds e + speed f) with false by lia; rewrite !andb_false_r; reflexivity).
Qed.
Lemma steady_run s : forall e, 1 <= leds e -> steady (leds e) s -> steady (leds e) (fst (run e s)).
Proof.
  induction s; intros e N; cbn [steady run]; intros H; try exact Logic.I.
  - destruct H as (H1 & H2). apply (steady_fn_run e) in H2. specialize (IHs e N H1). destruct (run e s), (run_fn e a). cbn [fst steady] in *. tauto.
  - apply (steady_fn_run e) in H. destruct (run_fn e a) as [a1 ?]. cbn [fst] in H. apply (steady_fn_run e) in H. destruct (run_fn e a1). exact H.
  - destruct H as (H1 & H2). specialize (IHs1 e N H1). specialize (IHs2 e N H2). destruct (run e s1), (run e s2). cbn [fst steady] in *. tauto.
  - specialize (IHs e N H). destruct (run e s). exact IHs.
  - specialize (IHs e N H). destruct (run e s). exact IHs.
  - apply (steady_fn_run e) in H. destruct (run_fn e p). exact H.
  - destruct H as (H1 & H2). apply (steady_fn_run e) in H1. specialize (IHs e N H2). destruct (run e s), (run_fn e f). cbn [fst steady] in *. tauto.
  - destruct H as (H1 & H2). apply (steady_fn_run e) in H1. specialize (IHs e N H2). destruct (run e s), (run_fn e f). cbn [fst steady] in *. tauto.
  - specialize (IHs e N H). destruct (run e s). exact IHs.
  - destruct H as (H1 & H2). apply (steady_fn_run e) in H1. destruct (run e s1). destruct ext; try tauto.
    + cbn [run_fn]. destruct (run e s3). cbn [fst steady steady_fn]. tauto.
    + cbn [run_fn] in *. destruct (run_fn e ext1), (run_fn e ext2), (run e s3). cbn [fst steady] in *. tauto.
  - destruct (run_fn e ms). destruct (if on e then _ else _) as [[w i] si]. specialize (IHs (with_on e i) N H). destruct (run (with_on e i) s). exact IHs.
  - destruct H.
  - destruct (run e s1), (run e s2), (run e s3). destruct (if Qeq_bool _ 100 then _ else _). exact H.
  - destruct (fire_run_keeps e f) as (K1 & K2). destruct H as (H1 & H2 & H3 & H4). pose proof (fire_run_far e f N ltac:(lia)) as K3. destruct (run e s1), (run e s2), (fire_run e f) as [f' r]. cbn [fst steady] in *. rewrite K1, K2, K3. tauto.
Qed.

(** ** Staying *)
Lemma covered_nonneg lo hi led : 0 <= covered lo hi led. Proof. unfold covered. lia. Qed.
Lemma extend_off ext d out inn : 0 <= d -> 0 <= inn -> (0 <= ext)%Q -> (0 <= extend false ext d out inn <= ext)%Q.
Proof.
  intros D N E. unfold extend. destruct (Z.eqb_spec inn 0); [split; [apply Qle_refl|exact E]|].
  assert (P : (0 <= inject_Z d / inject_Z (inn * 1000))%Q).
  { apply Qle_shift_div_l; [unfold Qlt; cbn; lia|]. rewrite Qmult_0_l. unfold Qle. cbn. lia. }
  split; [apply Q.le_max_r|]. apply Q.max_lub; [lra|exact E].
Qed.
Lemma extend_nonneg ext d out inn : (0 <= extend false ext d out inn)%Q.
Proof. unfold extend. destruct (inn =? 0); [apply Qle_refl|apply Q.le_max_r]. Qed.
Lemma floor_nonneg q : (0 <= q)%Q -> 0 <= Qfloor (q * 32768).
Proof. intros H. change 0 with (Qfloor 0). apply Qfloor_resp_le. nra. Qed.
Lemma floor_le p q : (p <= q)%Q -> Qfloor (p * 32768) <= Qfloor (q * 32768).
Proof. intros H. apply Qfloor_resp_le. nra. Qed.
Lemma clamp_nonneg x : 0 <= clampi32 x 0 32768.
Proof. unfold clampi32. destruct (Z.ltb_spec x 0); [lia|]. destruct (x >? 32768); lia. Qed.
Lemma nonneg e f : on e = false -> never_negative f -> 0 <= calculate (fst (run_fn e f)).
Proof.
  intros O. unfold calculate. destruct f; cbn [never_negative run_fn]; intros H; try (cbn; auto; lia).
  - destruct (run_fn e f1), (run_fn e f2). cbn [fst get]. rewrite O. apply floor_nonneg, extend_nonneg.
  - destruct (run_fn e f). cbn [fst get]. apply clamp_nonneg.
  - destruct (run_fn e f) as [f' ?]. cbn [fst get]. destruct (Nat.ltb_spec (Z.to_nat (calculate f' mod Z.of_nat (length ns))) (length ns)) as [L|L]; [|rewrite nth_overflow by lia; lia]. rewrite Forall_forall in H. apply H. apply nth_In. exact L.
  - destruct (run_fn e f1), (run_fn e f2). cbn [fst get]. apply covered_nonneg.
  - destruct (run_fn e f1), (run_fn e f2). destruct (if _ =? 32768 then _ else _). cbn [fst get]. destruct (_ <=? _); [apply covered_nonneg|]. apply Z.add_nonneg_nonneg; apply covered_nonneg.
Qed.
Lemma u32_nonneg x : 0 <= u32 x. Proof. unfold u32. apply Z.mod_pos_bound. lia. Qed.

Section Stay.
Variable n : Z.
Hypothesis N : 1 <= n.
Lemma fn_claim' e f : quiet n e -> honest_fn f -> fclaim n (snd (run_fn e f)) (fst (run_fn e f)).
Proof. intros (_ & _ & L) H. pose proof (fn_claim e f) as C. rewrite L in C. auto. Qed.
Lemma fn_stay e e' f : quiet n e -> quiet n e' -> honest_fn f -> steady_fn f -> snd (run_fn e f) <> FUnknown ->
  snd (run_fn e' (fst (run_fn e f))) = snd (run_fn e f).
Proof.
  intros Q1 Q2. induction f; cbn [honest_fn steady_fn run_fn]; intros HO SO U.
  - reflexivity.
  - reflexivity.
  - destruct SO as (S1 & S2 & S3). pose proof (never_negative_run e f2 S3) as NN.
    destruct (run_fn e f1) as [g1 ?], (run_fn e f2) as [g2 ?]. cbn [fst snd run_fn] in *. pose proof (nonneg e' g2 (proj1 Q2) NN) as NN'.
    destruct (run_fn e' g1) as [h1 ?], (run_fn e' g2) as [h2 ?]. cbn [fst snd] in *. rewrite (proj1 Q1), (proj1 Q2) in *. cbn [negb andb] in *.
    set (x := extend false ext _ _ _) in *. destruct (Z.eqb_spec (Qfloor (x * 32768)) 0) as [X|X]; [|congruence].
    assert (X0 : (0 <= x)%Q) by apply extend_nonneg.
    pose proof (extend_off x (u32 (micros e' - micros e)) (calculate h1) (calculate h2) (u32_nonneg _) NN' X0) as (E1 & E2).
    set (y := extend false x _ _ _) in *. apply floor_nonneg in E1. apply floor_le in E2. replace (Qfloor (y * 32768) =? 0) with true by lia. reflexivity.
  - specialize (IHf HO SO). destruct (run_fn e f) as [f' r]. cbn [fst snd run_fn] in *. destruct allow; [|congruence]. destruct (run_fn e' f') as [f'' r']. cbn [fst snd] in *. rewrite IHf; [reflexivity|]. destruct r; congruence.
  - assert (U' : snd (run_fn e f) <> FUnknown) by (destruct (run_fn e f) as [f' r]; cbn [fst snd] in *; destruct r; congruence).
    specialize (IHf HO SO U'). pose proof (fn_claim' e' _ Q2 (honest_fn_run e f HO)) as C2. pose proof (fn_claim' e f Q1 HO) as C3. destruct (run_fn e f) as [f' r]. cbn [fst snd run_fn] in *. destruct (run_fn e' f') as [f'' r']. cbn [fst snd] in *. subst r'.
    replace (calculate f'') with (calculate f'); [reflexivity|]. unfold calculate. destruct r; cbn [fclaim] in *; [congruence| |]; rewrite C2, C3 by lia; reflexivity.
  - destruct (run_fn e f1) as [g1 ?], (run_fn e f2) as [g2 r]. cbn [fst snd run_fn] in *. destruct (run_fn e' g1) as [h1 ?], (run_fn e' g2) as [h2 r']. cbn [fst snd] in *. apply IHf2; tauto.
  - destruct (run_fn e f1) as [g1 ?], (run_fn e f2) as [g2 r]. destruct (if calculate g2 =? 32768 then _ else _). cbn [fst snd run_fn] in *. destruct (run_fn e' g1) as [h1 ?], (run_fn e' g2) as [h2 r']. destruct (if calculate h2 =? 32768 then _ else _). cbn [fst snd] in *. apply IHf2; tauto.
  - cbn in U. congruence.
Qed.
Definition fn_all (es : list env) (f : fn) : fn := fold_left (fun f e => fst (run_fn e f)) es f.
Lemma fn_forever es : forall e f, quiet n e -> Forall (quiet n) es -> honest_fn f -> steady_fn f ->
  fclaim n (snd (run_fn e f)) (fn_all es (fst (run_fn e f))).
Proof.
  induction es as [|e2 es IH]; intros e f Q1 QS HO SO; [apply fn_claim'; assumption|].
  inversion QS as [|x y Q2 QS']; subst. cbn [fn_all fold_left]. fold (fn_all es (fst (run_fn e2 (fst (run_fn e f))))).
  pose proof (IH e2 (fst (run_fn e f)) Q2 QS' (honest_fn_run e f HO) (steady_fn_run e f SO)) as C.
  destruct (snd (run_fn e f)) eqn:R; [exact Logic.I| |]; rewrite (fn_stay e e2 f Q1 Q2 HO SO) in C by congruence; rewrite R in C; exact C.
Qed.

Lemma all_alpha es : forall c a, run_all es (Alpha c a) = Alpha (run_all es c) (fn_all es a).
Proof. induction es as [|e es IH]; intros c a; [reflexivity|]. cbn [run_all fn_all fold_left run]. destruct (run e c), (run_fn e a). apply IH. Qed.
Definition dup (es : list env) : list env := flat_map (fun e => [e; e]) es.
Lemma dup_quiet es : Forall (quiet n) es -> Forall (quiet n) (dup es).
Proof. induction 1; cbn; auto. Qed.
Lemma all_alphamix es : forall a t cs, exists t', run_all es (AlphaMix a t cs) = AlphaMix (fn_all (dup es) a) t' cs.
Proof. induction es as [|e es IH]; intros a t cs; [exists t; reflexivity|]. cbn [run_all fn_all fold_left run dup flat_map app]. destruct (run_fn e a) as [a1 ?]. cbn [fst]. destruct (run_fn e a1) as [a2 ?]. apply IH. Qed.
Lemma all_compose es : forall c a, run_all es (Compose c a) = Compose (run_all es c) (run_all es a).
Proof. induction es as [|e es IH]; intros c a; [reflexivity|]. cbn [run_all fold_left run]. destruct (run e c), (run e a). apply IH. Qed.
Lemma all_onblack es : forall c, run_all es (OnBlack c) = OnBlack (run_all es c).
Proof. induction es as [|e es IH]; intros c; [reflexivity|]. cbn [run_all fold_left run]. destruct (run e c). apply IH. Qed.
Lemma all_inouttr es : Forall (quiet n) es -> forall al off o i, active o = false -> active i = false -> run_all es (InOutTr al false off o i) = InOutTr al false (run_all es off) o i.
Proof.
  induction 1 as [|e es Q1 QS IH]; intros al off o i A1 A2; [reflexivity|]. cbn [run_all fold_left run]. destruct (run e off) as [off' ?]. rewrite (proj1 Q1). cbn [eqb negb andb fst]. unfold tr_run. rewrite A1, A2. apply IH; assumption.
Qed.
Lemma all_effect es : Forall (quiet n) es -> forall ty t, active t = false -> run_all es (Effect ty t) = Effect ty t.
Proof.
  induction 1 as [|e es Q1 QS IH]; intros ty t A1; [reflexivity|]. cbn [run_all fold_left run fst]. rewrite (proj1 (proj2 Q1)). unfold tr_run. rewrite A1. apply IH; assumption.
Qed.
Lemma all_remap es : Forall (quiet n) es -> forall f c, run_all es (Remap f c n) = Remap (fn_all es f) (run_all es c) n.
Proof. induction 1 as [|e es Q1 QS IH]; intros f c; [reflexivity|]. cbn [run_all fn_all fold_left run]. destruct (run e c), (run_fn e f). cbn [fst]. rewrite (proj2 (proj2 Q1)). apply IH. Qed.
Lemma all_rotate es : forall f c, run_all es (Rotate f c) = Rotate (fn_all es f) (run_all es c).
Proof. induction es as [|e es IH]; intros f c; [reflexivity|]. cbn [run_all fn_all fold_left run]. destruct (run e c), (run_fn e f). apply IH. Qed.
Lemma all_byteorder es : forall o c, exists o', run_all es (ByteOrder o c) = ByteOrder o' (run_all es c).
Proof. induction es as [|e es IH]; intros o c; [exists o; reflexivity|]. cbn [run_all fold_left run]. destruct (run e c). apply IH. Qed.
Lemma all_igndelay es : Forall (quiet n) es -> forall ms c w i si, exists ms' w' i' si',
  run_all es (IgnDelay ms c w i si) = IgnDelay ms' (run_all (map (fun e => with_on e false) es) c) w' i' si'.
Proof.
  induction 1 as [|e es Q1 QS IH]; intros ms c w i si; [repeat eexists; reflexivity|]. cbn [run_all fold_left run map]. destruct (run_fn e ms). rewrite (proj1 Q1). destruct (run (with_on e false) c). cbn [fst]. apply IH.
Qed.
Lemma with_on_quiet e : quiet n e -> quiet n (with_on e false).
Proof. intros (A & B & C). repeat split; assumption. Qed.

(** A spark tip that stays dark. *)
Definition tip_ext (f : fn) : Prop :=
  match f with
  | Const k => Z.shiftr (k * (n + 4)) 7 = 0
  | InOut out inn x last ret => steady_fn inn /\ never_negative inn /\ (0 <= x)%Q /\ ret = Qfloor (x * 32768) /\ Z.shiftr (ret * (n + 4)) 7 = 0
  | _ => False
  end.
Definition tip (s : style) : Prop := match s with SparkTip _ _ ext _ Black _ th => th = 0 /\ tip_ext ext | _ => False end.
Lemma shiftr_less x y : 0 <= x <= y -> Z.shiftr y 7 = 0 -> Z.shiftr x 7 = 0.
Proof. rewrite !Z.shiftr_div_pow2 by lia. change (2 ^ 7) with 128. intros H E. apply Z.div_small. pose proof (Z.div_mod y 128). pose proof (Z.mod_pos_bound y 128). lia. Qed.
Lemma tip_step e s : quiet n e -> tip s -> tip (fst (run e s)).
Proof.
  intros Q1 T. destruct s; try contradiction. destruct s3; try contradiction. cbn [tip] in T. destruct T as (-> & T). cbn [run]. destruct (run e s1). destruct ext as [k| |out inn ex la re| | | | |]; cbn [tip_ext] in T; try contradiction.
  - cbn [run_fn fst tip]. rewrite (proj2 (proj2 Q1)). split; exact T.
  - destruct T as (T1 & T2 & T3 & T4 & T5). pose proof (steady_fn_run e _ T1). pose proof (never_negative_run e _ T2). pose proof (nonneg e _ (proj1 Q1) T2) as NN. cbn [run_fn]. destruct (run_fn e out) as [h1 ?], (run_fn e inn) as [h2 ?]. cbn [fst tip tip_ext] in *. rewrite (proj1 Q1), (proj2 (proj2 Q1)).
    pose proof (extend_off ex (u32 (micros e - la)) (calculate h1) (calculate h2) (u32_nonneg _) NN T3) as (E1 & E2). set (y := extend false ex _ _ _) in *. unfold calculate. cbn [get].
    pose proof (floor_nonneg y E1). pose proof (floor_le _ _ E2). assert (Z.shiftr (Qfloor (y * 32768) * (n + 4)) 7 = 0) by (eapply shiftr_less; [|exact T5]; nia).
    repeat split; assumption.
Qed.
Lemma tip_dark s : tip s -> dark n s.
Proof.
  intros T. destruct s; try contradiction. destruct s3; try contradiction. destruct T as (-> & T). intros led L. cbn [color_at]. replace (clampi32 (0 - led * 256) 0 255) with 0 by (symmetry; apply clamp_bottom; lia). apply mix_first. lia.
Qed.
(** A color cycle that stays dark. *)
Definition cyc (s : style) : Prop :=
  match s with
  | Cycle _ _ _ Black off_p on_p fade_ms fade _ start stop _ _ _ =>
      0 <= off_p /\ 0 <= on_p /\ (off_p = 0 \/ on_p <> 0) /\ 0 < fade_ms /\ (0 <= fade <= 1)%Q /\ (inject_Z off_p * (1 - fade) + inject_Z on_p * fade == 0)%Q /\ start = 0 /\ stop = 0
  | _ => False
  end.
Lemma fade_range e fade last ms : (0 <= cycle_fade e fade last ms <= 1)%Q.
Proof. unfold cycle_fade. split; [apply Q.le_max_l|]. apply Q.max_lub; [lra|apply Q.le_min_l]. Qed.
Lemma fade_off e fade last ms : on e = false -> 0 < ms -> (0 <= fade)%Q -> (cycle_fade e fade last ms <= fade)%Q.
Proof.
  intros O M F. unfold cycle_fade. rewrite O. set (d := if _ <? _ then 1 else _). assert (D : 0 <= d) by (unfold d; pose proof (u32_nonneg (micros e - last)); destruct (_ <? _); lia). clearbody d.
  assert (P : (0 <= inject_Z d / inject_Z (1000 * ms))%Q) by (apply Qle_shift_div_l; [unfold Qlt, inject_Z; cbn [Qnum Qden]; lia|]; rewrite Qmult_0_l; unfold Qle, inject_Z; cbn [Qnum Qden]; lia).
  apply Q.max_lub; [exact F|]. eapply Qle_trans; [apply Q.le_min_r|]. lra.
Qed.
Lemma percent_zero off_p on_p (x y : Q) : 0 <= off_p -> 0 <= on_p -> off_p = 0 \/ on_p <> 0 -> (0 <= y <= x)%Q -> (x <= 1)%Q ->
  (inject_Z off_p * (1 - x) + inject_Z on_p * x == 0)%Q -> (inject_Z off_p * (1 - y) + inject_Z on_p * y == 0)%Q.
Proof.
  intros A B C D E F. assert (A' : (0 <= inject_Z off_p)%Q) by (unfold Qle; cbn; lia). assert (B' : (0 <= inject_Z on_p)%Q) by (unfold Qle; cbn; lia).
  destruct C as [->|C].
  - change (inject_Z 0) with 0%Q in *. assert (G : (inject_Z on_p * x == 0)%Q) by lra. assert ((0 <= inject_Z on_p * y)%Q) by nra. assert ((inject_Z on_p * y <= inject_Z on_p * x)%Q) by nra. lra.
  - assert (B'' : (0 < inject_Z on_p)%Q) by (unfold Qlt; cbn; lia). assert (G : (inject_Z on_p * x <= 0)%Q) by nra. assert (X : (x <= 0)%Q) by nra. assert (Y : (y == x)%Q) by lra. rewrite Y. exact F.
Qed.
Lemma not_100 q : (q == 0)%Q -> Qeq_bool q 100 = false.
Proof. intros H. destruct (Qeq_bool q 100) eqn:E; [|reflexivity]. apply Qeq_bool_iff in E. rewrite H in E. discriminate. Qed.
Lemma cyc_step e s : quiet n e -> cyc s -> cyc (fst (run e s)).
Proof.
  intros Q1 T. destruct s; try contradiction. destruct s3; try contradiction. cbn [cyc] in T. destruct T as (T1 & T2 & T3 & T4 & T5 & T6 & -> & ->). cbn [run]. destruct (run e s1), (run e s2).
  pose proof (fade_range e fade last fade_ms) as R. pose proof (fade_off e fade last fade_ms (proj1 Q1) T4 (proj1 T5)) as O. set (y := cycle_fade e _ _ _) in *.
  assert (P : (inject_Z off_p * (1 - y) + inject_Z on_p * y == 0)%Q) by (apply (percent_zero off_p on_p fade y); tauto).
  rewrite (not_100 _ P). replace (Qeq_bool _ 0) with true by (symmetry; apply Qeq_bool_iff; exact P). cbn [fst cyc]. tauto.
Qed.
Lemma cyc_dark s : cyc s -> dark n s.
Proof.
  intros T. destruct s; try contradiction. destruct s3; try contradiction. destruct T as (_ & _ & _ & _ & _ & _ & -> & ->). intros led L. cbn [color_at]. replace (cycle_mix cylon 0 0 total led) with 0 by (unfold cycle_mix; rewrite Z.leb_refl, orb_true_r; unfold covered14; lia). apply mix_first. lia.
Qed.
(** A fire that has gone out. *)
Definition cold (s : style) : Prop :=
  match s with
  | Fire _ _ f => intensity_base (off_cfg f) = 0 /\ intensity_rand (off_cfg f) = 0 /\ 1 <= speed f /\ fire_leds f = n /\ (forall i, 0 <= i <= n + speed f -> heat f i = 0)
  | _ => False
  end.
Lemma random_nonneg e i k : 0 <= random e i k.
Proof. unfold random. destruct (Z.leb_spec k 0); [lia|]. apply Z.mod_pos_bound. lia. Qed.
Lemma cold_step e s : quiet n e -> cold s -> cold (fst (run e s)).
Proof.
  intros (Q1 & Q2 & Q3) T. destruct s; try contradiction. cbn [cold] in T. destruct T as (T1 & T2 & T3 & T4 & T5). cbn [run]. destruct (run e s1), (run e s2). unfold fire_run. destruct (_ <? 10); [cbn; tauto|]. rewrite Q2. unfold fire_on. rewrite Q1. cbn [negb]. cbv zeta. cbn [fst cold speed heat off_cfg fire_leds]. repeat split; try assumption.
  rewrite Q3.
  assert (R0 : forall k, random e k 0 = 0) by reflexivity.
  assert (H1 : forall i, 0 <= i <= n + speed f -> (if (n <=? i) && (i <? n + speed f) then (0 + 0) mod 65536 else heat f i) = 0) by (intros i I0; destruct ((n <=? i) && _); [reflexivity|apply T5; exact I0]).
  intros i I0. rewrite T1, T2, !R0. destruct ((0 <=? i) && (i <? n)) eqn:E; [|apply H1; exact I0]. assert (0 <= i < n) by lia. rewrite !H1 by lia. apply clamp_bottom. pose proof (random_nonneg e (3 * Z.to_nat i + 100000) (cooling (off_cfg f))) as RN. change (Z.shiftr (0 * 3 + 0 * 10 + 0 * 3) 4) with 0. lia.
Qed.
Lemma cold_dark s : cold s -> dark n s.
Proof.
  intros T. destruct s; try contradiction. destruct T as (_ & _ & T3 & T4 & T5). intros led L. cbn [color_at]. rewrite T4, T5 by lia. reflexivity.
Qed.
Lemma all_inv (P : style -> Prop) es : (forall e s, quiet n e -> P s -> P (fst (run e s))) -> Forall (quiet n) es -> forall s, P s -> P (run_all es s).
Proof. intros ST. induction 1 as [|e es Q1 QS IH]; intros s H; [exact H|]. cbn [run_all fold_left]. apply IH, ST; assumption. Qed.
Lemma all_black es : run_all es Black = Black. Proof. induction es; [reflexivity|exact IHes]. Qed.
Lemma all_solid es c : run_all es (Solid c) = Solid c. Proof. induction es; [reflexivity|exact IHes]. Qed.

Theorem style_forever s : forall e es, quiet n e -> Forall (quiet n) es -> honest s -> steady n s ->
  claim n (snd (run e s)) (run_all es (fst (run e s))).
Proof.
  induction s; intros e es Q1 QS HO SO; pose proof (style_claim _ e (eq_ind_r (fun z => 1 <= z) N (proj2 (proj2 Q1))) HO) as NOW; rewrite (proj2 (proj2 Q1)) in NOW; revert HO SO NOW; cbn [honest steady run]; intros HO SO NOW.
  - cbn [fst]. rewrite all_black. exact NOW.
  - cbn [fst snd] in *. rewrite all_solid. exact NOW.
  - exact Logic.I.
  - destruct HO as (H1 & H2), SO as (S1 & S2). pose proof (fn_forever es e a Q1 QS H2 S2) as FA. specialize (IHs e es Q1 QS H1 S1). destruct (run e s) as [s' r], (run_fn e a) as [a' ra]. cbn [fst snd] in *. rewrite all_alpha. destruct ra; cbn [fclaim claim] in *; [exact Logic.I| |].
    + intros led L. cbn [color_at]. rewrite FA by exact L. reflexivity.
    + destruct r; cbn [claim] in *; [exact Logic.I| |]; intros led L; cbn [color_at]; rewrite FA by exact L; change (32768 =? 0) with false; cbv iota; [apply scale_black|apply scale_clear]; apply IHs, L.
  - destruct (run_fn e a) as [a1 r1] eqn:E1. assert (H' : honest_fn a1) by (apply (honest_fn_run e) in HO; rewrite E1 in HO; exact HO). assert (S' : steady_fn a1) by (apply (steady_fn_run e) in SO; rewrite E1 in SO; exact SO). pose proof (fn_forever (dup es) e a1 Q1 (dup_quiet es QS) H' S') as FA. destruct (run_fn e a1) as [a' ra]. cbn [fst snd] in *. destruct (all_alphamix es a' (S tick) colors) as (t' & ->). destruct ra; cbn [fclaim claim] in *; try exact Logic.I. intros led L. cbn [color_at]. rewrite FA by exact L. reflexivity.
  - destruct HO as (H1 & H2), SO as (S1 & S2). specialize (IHs1 e es Q1 QS H1 S1). specialize (IHs2 e es Q1 QS H2 S2). destruct (run e s1) as [s1' r1], (run e s2) as [s2' r2]. cbn [fst snd] in *. rewrite all_compose. destruct r2; cbn [claim] in *; [exact Logic.I| |].
    + intros led L. cbn [color_at]. apply over_black, IHs2, L.
    + destruct r1; cbn [claim] in *; [exact Logic.I| |]; intros led L; cbn [color_at]; [apply over_clear_black|apply over_clear_clear]; auto.
  - specialize (IHs e es Q1 QS HO SO). destruct (run e s) as [s' r]. cbn [fst snd] in *. rewrite all_onblack. destruct r; cbn [claim] in *; [exact Logic.I| |]; intros led L; cbn [color_at]; apply dealpha_black; auto.
  - specialize (IHs e es Q1 QS HO SO). destruct (run e s) as [s' ro]. cbn [fst snd] in *. rewrite (proj1 Q1) in *. clear NOW. set (o' := tr_run (if negb (eqb was_on false) && false then _ else _)). set (i' := tr_run (if negb (eqb was_on false) && negb false then _ else _)). clearbody o' i'. destruct (allow && negb false && negb (active o') && negb (active i')) eqn:E; [|exact Logic.I].
    assert (E' : active o' = false /\ active i' = false) by (destruct allow, (active o'), (active i'); cbn in E; intuition discriminate). destruct E' as (E2 & E3).
    rewrite (all_inouttr es QS _ _ _ _ E2 E3).
    assert (CE : forall led, color_at (InOutTr allow false (run_all es s') o' i') led = color_at (run_all es s') led) by (intros led; cbn [color_at]; rewrite E2, E3; reflexivity).
    destruct ro; cbn [claim] in *; [exact Logic.I| |]; intros led L; rewrite CE; apply IHs, L.
  - cbn [fst snd] in *. set (t' := tr_run _) in *. destruct (active t') eqn:A; cbn [claim]; [exact Logic.I|]. rewrite (all_effect es QS _ _ A). exact NOW.
  - destruct (run_fn e p). exact Logic.I.
  - destruct HO as (H1 & H2), SO as (S1 & S2). specialize (IHs e es Q1 QS H2 S2). destruct (run_fn e f) as [f' ?], (run e s) as [s' r]. cbn [fst snd] in *. rewrite (proj2 (proj2 Q1)). rewrite (all_remap es QS).
    assert (IN : forall led, let x := Z.max 0 (Z.min (get (fn_all es f') led * n) (n * 32768 - 1)) in 0 <= Z.shiftr x 15 < n).
    { intros led. cbv zeta. set (x := Z.max _ _). assert (0 <= x <= n * 32768 - 1) by (unfold x; lia). rewrite Z.shiftr_div_pow2 by lia. change (2 ^ 15) with 32768. split; [apply Z.div_pos; lia|apply Z.div_lt_upper_bound; lia]. }
    destruct r; cbn [claim] in *; [exact Logic.I| |]; intros led L; specialize (IN led); cbv zeta in IN; cbn [color_at]; [apply mix_black|apply mix_clear]; apply IHs; lia.
  - destruct HO as (H1 & H2), SO as (S1 & S2). specialize (IHs e es Q1 QS H2 S2). destruct (run_fn e f) as [f' ?], (run e s) as [s' r]. cbn [fst snd] in *. rewrite all_rotate. revert IHs. apply as_bool_claim. intros D led L. cbn [color_at]. apply recolor_black; [apply rotate_black|apply D, L].
  - specialize (IHs e es Q1 QS HO SO). destruct (run e s) as [s' r]. cbn [fst snd] in *. destruct (all_byteorder es (order e) s') as (o' & ->). revert IHs. apply as_bool_claim. intros D led L. cbn [color_at]. apply recolor_black; [rewrite !getByte_black; reflexivity|apply D, L].
  - destruct SO as (S1 & S2). destruct (run e s1) as [s1' ?]. destruct (is_black_type s3) eqn:B; [|destruct (run_fn e ext), (run e s3); cbn [fst snd]; rewrite andb_false_r; exact Logic.I].
    apply is_black in B. subst s3. destruct ext as [k| |out inn ex la re| | | | |]; try contradiction.
    + cbn [run_fn run fst snd]. rewrite (proj2 (proj2 Q1)). destruct (allow && true && _) eqn:E; [|exact Logic.I]. cbn [claim]. apply tip_dark. apply all_inv; [apply tip_step|exact QS|]. cbn [tip tip_ext]. unfold calculate in *. cbn [get] in *. lia.
    + pose proof (steady_fn_run e _ S1) as S1'. cbn [run_fn] in *. destruct (run_fn e out) as [h1 ?], (run_fn e inn) as [h2 ?]. cbn [run fst snd steady_fn] in *. clear NOW. rewrite (proj2 (proj2 Q1)), (proj1 Q1) in *. pose proof (extend_nonneg ex (u32 (micros e - la)) (calculate h1) (calculate h2)) as Y0. set (y := extend false ex _ _ _) in *. change (calculate (InOut h1 h2 y (micros e) (Qfloor (y * 32768)))) with (Qfloor (y * 32768)). clearbody y. destruct (Z.eqb_spec (Z.shiftr (Qfloor (y * 32768) * (n + 4)) 7) 0) as [E|E]; [|rewrite andb_false_r; exact Logic.I]. destruct (allow && true && true); [|exact Logic.I]. cbn [claim]. apply tip_dark. apply all_inv; [apply tip_step|exact QS|]. cbn [tip tip_ext]. tauto.
  - destruct HO as (H1 & H2). destruct (run_fn e ms) as [ms' ?]. rewrite (proj1 Q1). pose proof (with_on_quiet e Q1) as Q1'. assert (QS' : Forall (quiet n) (map (fun e => with_on e false) es)) by (apply Forall_map; revert QS; apply Forall_impl; exact with_on_quiet). specialize (IHs _ _ Q1' QS' H2 SO). destruct (run (with_on e false) s) as [s' r]. cbn [fst snd] in *.
    destruct (all_igndelay es QS ms' s' false false since) as (ms'' & w' & i' & si' & ->). revert IHs. apply as_bool_claim. intros D. exact D.
  - contradiction.
  - destruct HO as (H1 & H2 & H3 & H4). assert (BB : is_black_type (if cylon then s1 else s3) = true -> s3 = Black). { destruct cylon; [intros B; apply H4; [reflexivity|]; destruct s1; discriminate || reflexivity|intros B; destruct s3; discriminate || reflexivity]. }
    destruct (run e s1) as [s1' ?], (run e s2) as [s2' ?]. set (blk := is_black_type _) in *. destruct (run e s3) as [s3' r3] eqn:E3. pose proof (fade_range e fade last fade_ms) as R. set (y := cycle_fade e fade last fade_ms) in *. set (pc := (_ + _)%Q) in *. destruct (Qeq_bool pc 100); [exact Logic.I|]. destruct (Qeq_bool pc 0) eqn:PZ.
    + cbn [fst snd negb andb]. destruct blk eqn:B; [|exact Logic.I]. rewrite (BB eq_refl) in E3. cbn in E3. injection E3 as <- <-. cbn [claim]. apply cyc_dark. apply all_inv; [apply cyc_step|exact QS|]. cbn [cyc]. apply Qeq_bool_iff in PZ. tauto.
    + destruct (span tick). exact Logic.I.
  - destruct SO as (S1 & S2 & S3 & S4). destruct (run e s1) as [s1' ?], (run e s2) as [s2' ?]. destruct Q1 as (Q1 & Q2 & Q3). unfold fire_run in *. destruct (u32 (millis e - last_update f) <? 10); [exact Logic.I|].
    rewrite Q2. unfold fire_on. rewrite Q1. cbn [negb]. cbv zeta. cbn [fst snd speed heat off_cfg]. rewrite Q3. set (h2 := fun i => if (0 <=? i) && (i <? n) then _ else _).
    destruct (forallb _ _) eqn:Z0; [|exact Logic.I]. cbn [claim]. apply cold_dark. apply all_inv; [apply cold_step|exact QS|]. cbn [cold off_cfg speed fire_leds heat]. repeat split; try assumption. rewrite forallb_forall in Z0. intros i I0. destruct (Z.ltb_spec i n) as [L|L].
    + specialize (Z0 (Z.to_nat i)). rewrite in_seq, Z2Nat.id in Z0 by lia. apply Z.eqb_eq, Z0. lia.
    + unfold h2. replace ((0 <=? i) && (i <? n)) with false by lia. destruct (Z.eqb_spec i (n + speed f)) as [->|NE].
      * rewrite Z.ltb_irrefl, andb_false_r. exact S4.
      * replace ((n <=? i) && (i <? n + speed f)) with true by lia. rewrite S1, S2. reflexivity.
Qed.
End Stay.

(** ** Delays *)
Lemma u32_diff a b : 0 <= a - b < 4294967296 -> u32 (a mod 4294967296 - b mod 4294967296) = a - b.
Proof. intros H. unfold u32. rewrite <- Zminus_mod. apply Z.mod_small. exact H. Qed.
Definition ign_inv (d t : Z) (since : option Z) (w i : bool) (si : Z) : Prop :=
  match since with
  | None => w = false /\ i = false
  | Some t0 => w = true /\ t0 <= t /\ if i then d < t - t0 /\ si = (t - d - 1) mod 4294967296 else t - t0 <= d /\ si = t0 mod 4294967296
  end.
Lemma ign_all d : 0 <= d < 2147483648 -> forall fs t since c w i si, frames_in_order t fs -> ign_inv d t since w i si ->
  exists w' i' si', run_all (map snd fs) (IgnDelay (Const d) c w i si) = IgnDelay (Const d) (run_all (ignite_late d since fs) c) w' i' si'.
Proof.
  intros D. induction fs as [|(t', e) fs IH]; intros t since c w i si F V; [repeat eexists; reflexivity|].
  cbn [frames_in_order] in F. destruct F as (F1 & F2 & F3). cbn [map snd run_all fold_left run run_fn ignite_late]. unfold calculate. cbn [get]. replace (d <? 0) with false by lia. cbn [orb].
  destruct (on e) eqn:O.
  - set (s0 := if w then si else millis e). set (t0 := match since with Some t0 => t0 | None => t' end).
    assert (K : (u32 d <? u32 (millis e - s0)) = (d <? t' - t0) /\ ((d <? t' - t0) = false -> i = false /\ s0 = t0 mod 4294967296) /\ t0 <= t').
    { replace (u32 d) with d by (unfold u32; rewrite Z.mod_small; lia). unfold s0, t0. unfold ign_inv in V. destruct since as [u|].
      - destruct V as (-> & V1 & V2). destruct i; destruct V2 as (V2 & ->).
        + rewrite F2, u32_diff by lia. split; [|split; [|lia]]; [destruct (Z.ltb_spec d (t' - (t - d - 1))), (Z.ltb_spec d (t' - u)); lia|intros X; lia].
        + rewrite F2, u32_diff by lia. repeat split; lia.
      - destruct V as (-> & ->). rewrite Z.sub_diag, Z.sub_diag. change (u32 0) with 0. repeat split; try lia. }
    destruct K as (K1 & K2 & K3). rewrite K1. destruct (Z.ltb_spec d (t' - t0)) as [L|L].
    + cbn [fst]. rewrite (surjective_pairing (run (with_on e true) c)). cbn [fst fold_left]. apply (IH t'); [exact F3|]. unfold ign_inv. split; [reflexivity|]. split; [exact K3|]. split; [exact L|]. unfold u32. rewrite F2. replace (t' mod 4294967296 - d - 1) with (t' mod 4294967296 - (d + 1)) by ring. rewrite Zminus_mod_idemp_l. f_equal. ring.
    + destruct (K2 eq_refl) as (-> & ->). rewrite (surjective_pairing (run (with_on e false) c)). cbn [fst fold_left]. apply (IH t'); [exact F3|]. unfold ign_inv. repeat split; lia.
  - rewrite (surjective_pairing (run (with_on e false) c)). cbn [fst fold_left]. apply (IH t'); [exact F3|]. split; reflexivity.
Qed.
Definition retr_inv (d t : Z) (lit : bool) (since : option Z) (w i : bool) (si : Z) : Prop :=
  i = lit /\
  match since with
  | None => w = false
  | Some t0 => w = true /\ t0 <= t /\ (t - t0 <= d -> si = t0 mod 4294967296) /\ (d < t - t0 -> lit = false)
  end.
Lemma retr_all d : 0 <= d < 2147483648 -> forall fs t lit since c w i si, frames_in_order t fs -> retr_inv d t lit since w i si ->
  exists w' i' si', run_all (map snd fs) (RetrDelay (Const d) c w i si) = RetrDelay (Const d) (run_all (retract_late d lit since fs) c) w' i' si'.
Proof.
  intros D. induction fs as [|(t', e) fs IH]; intros t lit since c w i si F V; [repeat eexists; reflexivity|].
  cbn [frames_in_order] in F. destruct F as (F1 & F2 & F3). destruct V as (-> & V). cbn [map snd run_all fold_left run run_fn retract_late]. unfold calculate. cbn [get].
  destruct (on e) eqn:O.
  - rewrite (surjective_pairing (run (with_on e true) c)). cbn [fst fold_left]. apply (IH t'); [exact F3|]. split; reflexivity.
  - set (s0 := if w then si else millis e). set (t0 := match since with Some t0 => t0 | None => t' end).
    assert (K : t0 <= t' /\ (t' - t0 <= d -> s0 = t0 mod 4294967296) /\ (lit = true -> d < t' - t0 -> d < u32 (millis e - s0)) /\ (t' - t0 <= d -> u32 (millis e - s0) = t' - t0)).
    { unfold s0, t0. destruct since as [u|].
      - destruct V as (-> & V1 & V2 & V3). split; [lia|]. split; [intros; apply V2; lia|]. split.
        + intros L X. destruct (Z_le_gt_dec (t - u) d) as [Y|Y]; [|rewrite V3 in L by lia; discriminate]. rewrite (V2 Y), F2, u32_diff by lia. exact X.
        + intros X. rewrite V2, F2, u32_diff by lia. reflexivity.
      - rewrite V. rewrite !Z.sub_diag. change (u32 0) with 0. repeat split; lia. }
    destruct K as (K1 & K2 & K3 & K4). replace (u32 d) with d by (unfold u32; rewrite Z.mod_small; lia).
    destruct (Z.ltb_spec d (u32 (millis e - s0))) as [L|L].
    + assert (X : d < t' - t0) by (destruct (Z_le_gt_dec (t' - t0) d) as [Y|Y]; [rewrite (K4 Y) in L|]; lia). replace (lit && (t' - t0 <=? d)) with false by lia. rewrite (surjective_pairing (run (with_on e false) c)). cbn [fst fold_left]. apply (IH t'); [exact F3|]. split; [reflexivity|]. repeat split; try lia.
    + replace (lit && (t' - t0 <=? d)) with lit by (destruct lit; cbn; [destruct (Z.leb_spec (t' - t0) d); [reflexivity|specialize (K3 eq_refl); lia]|reflexivity]). rewrite (surjective_pairing (run (with_on e lit) c)). cbn [fst fold_left]. apply (IH t'); [exact F3|]. split; [reflexivity|]. repeat split; try assumption. intros X. destruct lit; [specialize (K3 eq_refl X); lia|reflexivity].
Qed.

(** ** Pixelate *)
Definition blocks (n : Z) (color : Z -> layer) (led : Z) (count : nat) : list layer := map (fun i => color (n * ((led + Z.of_nat i) / n))) (seq 0 count).
Lemma blocks_S n color led count : blocks n color led (S count) = color (n * (led / n)) :: blocks n color (led + 1) count.
Proof. unfold blocks. cbn [seq map]. rewrite Z.add_0_r. f_equal. rewrite <- seq_shift, map_map. apply map_ext. intros i. do 3 f_equal. lia. Qed.
(** inside a frame: the pixel before [led] has set the memory *)
Lemma pix_rest n color : 1 <= n -> forall count p led, 1 <= led -> last_led p = n * ((led - 1) / n) -> last_color p = color (last_led p) ->
  snd (pix_frame n color p led count) = blocks n color led count /\
  last_led (fst (pix_frame n color p led count)) = n * ((led + Z.of_nat count - 1) / n).
Proof.
  intros N. induction count as [|count IH]; intros p led L E C; [split; [reflexivity|]; cbn; rewrite E; f_equal; f_equal; lia|].
  cbn [pix_frame]. rewrite blocks_S. unfold pix_color.
  pose proof (Z.div_mod (led - 1) n ltac:(lia)) as DM. pose proof (Z.mod_pos_bound (led - 1) n ltac:(lia)) as MB.
  destruct (Z.leb_spec n (Z.abs (led - last_led p))) as [A|A].
  - assert (X : led = n * ((led - 1) / n + 1)) by (rewrite E in A; lia). assert (Y : n * (led / n) = led) by (rewrite X at 1; rewrite Z.mul_comm, (Z.mul_comm n), Z.div_mul by lia; lia).
    specialize (IH (Pix led (color led)) (led + 1) ltac:(lia)). cbn [last_led last_color] in IH. replace (led + 1 - 1) with led in IH by lia. specialize (IH (eq_sym Y) eq_refl).
    destruct (pix_frame n color (Pix led (color led)) (led + 1) count) as [p' cs]. cbn [fst snd last_color] in *. destruct IH as (-> & ->). rewrite Y. split; [reflexivity|]. f_equal. f_equal. lia.
  - assert (X : led / n = (led - 1) / n) by (symmetry; apply Z.div_unique with (led - n * ((led - 1) / n)); rewrite E in A; lia).
    specialize (IH p (led + 1) ltac:(lia)). replace (led + 1 - 1) with led in IH by lia. rewrite X in IH. specialize (IH E C).
    destruct (pix_frame n color p (led + 1) count) as [p' cs]. cbn [fst snd] in *. destruct IH as (-> & ->). rewrite X, <- E, C. split; [reflexivity|]. f_equal. f_equal. lia.
Qed.
Lemma pix_first n color count p : 1 <= n -> (0 < count)%nat -> n <= Z.abs (last_led p) ->
  snd (pix_frame n color p 0 count) = blocks n color 0 count /\ last_led (fst (pix_frame n color p 0 count)) = n * ((Z.of_nat count - 1) / n).
Proof.
  intros N C A. destruct count as [|count]; [lia|]. cbn [pix_frame]. unfold pix_color. rewrite Z.sub_0_l, Z.abs_opp. replace (n <=? Z.abs (last_led p)) with true by lia. rewrite blocks_S.
  destruct (pix_rest n color N count (Pix 0 (color 0)) (0 + 1) ltac:(lia)) as (R1 & R2); [cbn; rewrite Z.mul_0_r; reflexivity|reflexivity|].
  destruct (pix_frame n color (Pix 0 (color 0)) (0 + 1) count) as [p' cs]. cbn [fst snd last_color] in *. rewrite R1, R2. split; [|f_equal; f_equal; lia]. rewrite Z.div_0_l, Z.mul_0_r by lia. reflexivity.
Qed.
