(** Lemmas for LedProps.v. *)
From Coq Require Import ZArith QArith Qround List Bool Lia ZifyBool Lqa.
From Verif Require Import ArithModel ColorModel LedModel LedSpec.
Import ListNotations.
Open Scope Z_scope.

Lemma one_range top ret c o : 0 <= ret <= top -> 0 <= c -> 0 <= o -> 0 <= top -> 0 <= (if o =? 0 then ret else Z.min ret (c * top / o)) <= ret.
Proof.
  intros. destruct (o =? 0) eqn:E; [lia|]. assert (0 <= c * top / o) by (apply Z.div_pos; lia). lia.
Qed.
Lemma select_range c o : 0 <= r c -> 0 <= g c -> 0 <= b c -> 0 <= r o -> 0 <= g o -> 0 <= b o -> 0 <= select 65535 c o <= 65535.
Proof.
  intros. unfold select.
  pose proof (one_range 65535 65535 (r c) (r o) ltac:(lia) ltac:(lia) ltac:(lia) ltac:(lia)) as A.
  set (x := if r o =? 0 then 65535 else Z.min 65535 (r c * 65535 / r o)) in *.
  pose proof (one_range 65535 x (g c) (g o) ltac:(lia) ltac:(lia) ltac:(lia) ltac:(lia)) as B.
  set (y := if g o =? 0 then x else Z.min x (g c * 65535 / g o)) in *.
  pose proof (one_range 65535 y (b c) (b o) ltac:(lia) ltac:(lia) ltac:(lia) ltac:(lia)) as C. lia.
Qed.
Lemma u16_range x : 0 <= u16 x < 65536.
Proof. unfold u16. apply Z.mod_pos_bound. lia. Qed.
Lemma u16_small x : 0 <= x < 65536 -> u16 x = x.
Proof. intros. unfold u16. apply Z.mod_small. lia. Qed.
Lemma Select_range s c : in16 c -> 0 <= Select s c <= 65535.
Proof.
  intros (A & B & C). destruct s as [o|base o]; cbn [Select]; apply select_range; cbn; try lia; apply u16_range.
Qed.
(** Electricity *)
Lemma amps_current l V i : good_led l -> current l V i ->
  (((V - MaxVolts l + MaxAmps l * ((MaxVolts l - P2Volts l) / (MaxAmps l - P2Amps l))) / ((MaxVolts l - P2Volts l) / (MaxAmps l - P2Amps l) + R l)) == i)%Q.
Proof.
  intros (M & A & B & C) (v & H & E). unfold led_volts in H. set (di := (MaxAmps l - P2Amps l)%Q) in *. set (dv := (MaxVolts l - P2Volts l)%Q) in *.
  assert (Di : (0 < di)%Q) by (unfold di; lra). assert (Dv : (0 < dv)%Q) by (unfold dv; lra).
  assert (P : (0 < dv / di)%Q) by (apply Qlt_shift_div_l; lra). set (k := (dv / di)%Q) in *.
  assert (K : (dv == k * di)%Q) by (unfold k; field; lra).
  assert (VV : (v - MaxVolts l == (i - MaxAmps l) * k)%Q).
  { apply (Qmult_inj_r _ _ di); [lra|]. rewrite H, K. ring. }
  rewrite E. apply (Qmult_inj_r _ _ (k + R l)); [lra|]. 
  transitivity (v + i * R l - MaxVolts l + MaxAmps l * k)%Q; [field; lra|].
  transitivity ((v - MaxVolts l) + i * R l + MaxAmps l * k)%Q; [ring|]. rewrite VV. ring.
Qed.
Lemma Mult_cases l V i : good_led l -> current l V i ->
  ((i <= MaxAmps l)%Q /\ PWMMultiplier l V = 1%Q) \/ ((MaxAmps l < i)%Q /\ (PWMMultiplier l V == MaxAmps l / i)%Q).
Proof.
  intros G C. pose proof (amps_current l V i G C) as E. unfold PWMMultiplier. cbv zeta.
  set (a := (_ / _)%Q) in *. destruct (Qle_bool a (MaxAmps l)) eqn:Q.
  - left. apply Qle_bool_iff in Q. split; [rewrite <- E; exact Q|reflexivity].
  - right. assert (L : (MaxAmps l < a)%Q). { apply Qnot_le_lt. intros H. apply Qle_bool_iff in H. congruence. }
    rewrite <- E. split; [exact L|]. reflexivity.
Qed.
Lemma write_range v : 0 <= v <= 65535 -> 0 <= LSanalogWrite v /\ 2 * LSanalogWrite v <= v /\ v - 1 <= 2 * LSanalogWrite v.
Proof.
  intros H. unfold LSanalogWrite. rewrite Z.shiftr_div_pow2 by lia. change (2 ^ 1) with 2.
  pose proof (Z.div_mod v 2 ltac:(lia)). pose proof (Z.mod_pos_bound v 2 ltac:(lia)).
  destruct (v / 2 <? 0) eqn:E; [lia|]. destruct (32768 <? v / 2) eqn:E2; lia.
Qed.
Lemma Qfloor_0 x : (0 <= x)%Q -> 0 <= Qfloor x.
Proof. intros H. change 0 with (Qfloor 0). apply Qfloor_resp_le, H. Qed.
Lemma PWM_range l s V c : good_led l -> in16 c -> (exists i, current l V i) ->
  0 <= PWM l s V c <= PWM_overdrive s c /\ 0 <= PWM_overdrive s c <= 65535.
Proof.
  intros G C (i & I). pose proof (Select_range s c C) as S. unfold PWM, PWM_overdrive in *. split; [|exact S].
  assert (P : (0 <= inject_Z (Select s c))%Q) by (change 0%Q with (inject_Z 0); rewrite <- Zle_Qle; lia).
  destruct G as (M & G). destruct (Mult_cases l V i (conj M G) I) as [[A ->]|[A E]].
  - rewrite Qmult_1_r, Qfloor_Z. lia.
  - rewrite E. assert (D : (0 <= MaxAmps l / i)%Q) by (apply Qle_shift_div_l; lra).
    assert (D1 : (MaxAmps l / i <= 1)%Q) by (apply Qle_shift_div_r; lra).
    assert (D3 : (0 <= inject_Z (Select s c) * (MaxAmps l / i))%Q) by (apply Qmult_le_0_compat; assumption).
    assert (D2 : (inject_Z (Select s c) * (MaxAmps l / i) <= inject_Z (Select s c))%Q) by nra.
    split; [apply Qfloor_0; exact D3|]. rewrite <- (Qfloor_Z (Select s c)) at 2. apply Qfloor_resp_le. exact D2.
Qed.
Lemma current_exists l V : good_led l -> exists i, current l V i.
Proof.
  intros G. pose proof G as (M & A & B & C).
  set (k := ((MaxVolts l - P2Volts l) / (MaxAmps l - P2Amps l))%Q).
  assert (P : (0 < k)%Q) by (apply Qlt_shift_div_l; lra).
  exists ((V - MaxVolts l + MaxAmps l * k) / (k + R l))%Q. set (i := (_ / _)%Q).
  assert (E : (i * (k + R l) == V - MaxVolts l + MaxAmps l * k)%Q) by (unfold i; field; lra).
  exists (V - i * R l)%Q. split; [|ring]. unfold led_volts.
  assert (K : (MaxVolts l - P2Volts l == k * (MaxAmps l - P2Amps l))%Q) by (unfold k; field; lra).
  rewrite K. transitivity ((i * (k + R l) - i * R l - MaxAmps l * k) * (MaxAmps l - P2Amps l))%Q; [|ring]. rewrite E. ring.
Qed.
Lemma limit l s V i c : good_led l -> in16 c -> current l V i -> (average (set l s V c) i <= MaxAmps l)%Q.
Proof.
  intros G C I. destruct (PWM_range l s V c G C (ex_intro _ i I)) as [R1 R2]. unfold set, average.
  destruct (write_range (PWM l s V c)) as (W1 & W2 & _); [lia|]. set (d := LSanalogWrite (PWM l s V c)) in *.
  assert (D0 : (0 <= inject_Z d)%Q) by (change 0%Q with (inject_Z 0); rewrite <- Zle_Qle; lia).
  assert (D1 : (inject_Z d <= 32768)%Q) by (change 32768%Q with (inject_Z 32768); rewrite <- Zle_Qle; lia).
  pose proof G as (M & _). assert (F0 : (0 <= inject_Z d / 32768)%Q) by (apply Qle_shift_div_l; lra).
  assert (F1 : (inject_Z d / 32768 <= 1)%Q) by (apply Qle_shift_div_r; lra).
  destruct (Mult_cases l V i G I) as [[A _]|[A E]].
  - destruct (Qlt_le_dec i 0); nra.
  - assert (W3 : (inject_Z (2 * d) <= inject_Z (PWM_overdrive s c) * (MaxAmps l / i))%Q).
    { rewrite <- E. eapply Qle_trans; [|apply Qfloor_le]. rewrite <- Zle_Qle. exact W2. }
    assert (W4 : (inject_Z (PWM_overdrive s c) <= 65536)%Q) by (change 65536%Q with (inject_Z 65536); rewrite <- Zle_Qle; lia).
    assert (Pm : (0 <= MaxAmps l / i)%Q) by (apply Qle_shift_div_l; lra).
    assert (W5 : (inject_Z 2 * inject_Z d <= 65536 * (MaxAmps l / i))%Q).
    { rewrite <- inject_Z_mult. eapply Qle_trans; [exact W3|]. nra. }
    assert (W6 : (inject_Z d / 32768 <= MaxAmps l / i)%Q) by (apply Qle_shift_div_r; [lra|]; change (inject_Z 2) with 2%Q in W5; lra).
    eapply Qle_trans; [apply Qmult_le_compat_r; [exact W6|lra]|]. assert (X : (MaxAmps l / i * i == MaxAmps l)%Q) by (field; lra). lra.
Qed.
Lemma no_dim l s V i c : good_led l -> current l V i -> (i <= MaxAmps l)%Q -> PWM l s V c = PWM_overdrive s c.
Proof.
  intros G I L. destruct (Mult_cases l V i G I) as [[A E]|[A _]]; [|lra]. unfold PWM. rewrite E, Qmult_1_r, Qfloor_Z. reflexivity.
Qed.
Lemma dim_little l s V i c : good_led l -> current l V i -> (MaxAmps l < i)%Q ->
  (inject_Z (PWM_overdrive s c) * MaxAmps l < (inject_Z (PWM l s V c) + 1) * i)%Q.
Proof.
  intros G I L. destruct (Mult_cases l V i G I) as [[A _]|[A E]]; [lra|]. unfold PWM. rewrite E. pose proof G as (M & _).
  pose proof (Qlt_floor (inject_Z (PWM_overdrive s c) * (MaxAmps l / i))) as F. rewrite inject_Z_plus in F. change (inject_Z 1) with 1%Q in F.
  assert (X : (inject_Z (PWM_overdrive s c) * (MaxAmps l / i) * i == inject_Z (PWM_overdrive s c) * MaxAmps l)%Q) by (field; lra).
  rewrite <- X. apply Qmult_lt_compat_r; [lra|exact F].
Qed.
(** Colors *)
Lemma full x : 0 <= x <= 65535 -> Z.min 65535 (x * 65535 / 65535) = x.
Proof. intros. rewrite Z.div_mul by lia. lia. Qed.
Lemma full3 x y : 0 <= x -> Z.min y (x * 65535 / 65535) = Z.min y x.
Proof. intros. rewrite Z.div_mul by lia. reflexivity. Qed.
Lemma sel_white c : in16 c -> Select (Plain white) c = Z.min (Z.min (r c) (g c)) (b c).
Proof.
  intros (A & B & C). cbn [Select]. unfold select. change (c16_of_c8 white) with (Color 65535 65535 65535). cbn [r g b].
  change (65535 =? 0) with false. cbn iota. rewrite !full3 by lia. lia.
Qed.
Lemma sel_red c : in16 c -> Select (Plain red) c = r c.
Proof.
  intros (A & B & C). cbn [Select]. unfold select. change (c16_of_c8 red) with (Color 65535 0 0). cbn [r g b].
  change (65535 =? 0) with false. change (0 =? 0) with true. cbn iota. apply full. exact A.
Qed.
Lemma sel_green c : in16 c -> Select (Plain green) c = g c.
Proof.
  intros (A & B & C). cbn [Select]. unfold select. change (c16_of_c8 green) with (Color 0 65535 0). cbn [r g b].
  change (65535 =? 0) with false. change (0 =? 0) with true. cbn iota. apply full. exact B.
Qed.
Lemma sel_blue c : in16 c -> Select (Plain blue) c = b c.
Proof.
  intros (A & B & C). cbn [Select]. unfold select. change (c16_of_c8 blue) with (Color 0 0 65535). cbn [r g b].
  change (65535 =? 0) with false. change (0 =? 0) with true. cbn iota. apply full. exact C.
Qed.
Lemma minus_white c : in16 c -> let w := Select (Plain white) c in
  in16 (Color (u16 (r c - w)) (u16 (g c - w)) (u16 (b c - w))) /\
  u16 (r c - w) = r c - w /\ u16 (g c - w) = g c - w /\ u16 (b c - w) = b c - w.
Proof.
  intros C w. pose proof C as (A & B & D). pose proof (sel_white c C) as W. fold w in W.
  split; [|repeat split; apply u16_small; lia]. unfold in16. cbn [r g b]. pose proof (u16_range (r c - w)). pose proof (u16_range (g c - w)). pose proof (u16_range (b c - w)). lia.
Qed.
Lemma rgbw c : in16 c -> let w := Select (Plain white) c in
  Select (Subtract (Plain white) red) c + w = r c /\ Select (Subtract (Plain white) green) c + w = g c /\ Select (Subtract (Plain white) blue) c + w = b c.
Proof.
  intros C w. destruct (minus_white c C) as (I & X & Y & Z). fold w in I, X, Y, Z.
  change (Select (Subtract (Plain white) red) c) with (Select (Plain red) (Color (u16 (r c - w)) (u16 (g c - w)) (u16 (b c - w)))).
  change (Select (Subtract (Plain white) green) c) with (Select (Plain green) (Color (u16 (r c - w)) (u16 (g c - w)) (u16 (b c - w)))).
  change (Select (Subtract (Plain white) blue) c) with (Select (Plain blue) (Color (u16 (r c - w)) (u16 (g c - w)) (u16 (b c - w)))).
  rewrite sel_red, sel_green, sel_blue by exact I. cbn [r g b]. lia.
Qed.
Lemma one_mono ret ret' c c' o : ret <= ret' -> c <= c' -> 0 <= o ->
  (if o =? 0 then ret else Z.min ret (c * 65535 / o)) <= (if o =? 0 then ret' else Z.min ret' (c' * 65535 / o)).
Proof.
  intros. destruct (o =? 0) eqn:E; [lia|]. assert (c * 65535 / o <= c' * 65535 / o) by (apply Z.div_le_mono; lia). lia.
Qed.
Lemma select_mono c c' o : r c <= r c' -> g c <= g c' -> b c <= b c' -> 0 <= r o -> 0 <= g o -> 0 <= b o -> select 65535 c o <= select 65535 c' o.
Proof. intros. unfold select. repeat apply one_mono; lia. Qed.
Lemma less o c : in8 o -> in16 c -> Select (Subtract (Plain white) o) c <= Select (Plain o) c.
Proof.
  intros O C. destruct (minus_white c C) as (I & X & Y & Z). set (w := Select (Plain white) c) in *.
  change (Select (Subtract (Plain white) o) c) with (select 65535 (Color (u16 (r c - w)) (u16 (g c - w)) (u16 (b c - w))) (c16_of_c8 o)).
  cbn [Select]. pose proof (Select_range (Plain white) c C) as W. fold w in W.
  apply select_mono; cbn [r g b]; rewrite ?X, ?Y, ?Z; try lia; cbn; apply u16_range.
Qed.
Lemma black s : proper s -> Select s (Color 0 0 0) = 0.
Proof.
  assert (P : forall o, in8 o -> o <> Color 0 0 0 -> select 65535 (Color 0 0 0) (c16_of_c8 o) = 0).
  { intros [x y z] (A & B & C) N. cbn in A, B, C. unfold select. cbn [r g b c16_of_c8 map1].
    rewrite !u16_small by lia. destruct (x * 257 =? 0) eqn:E1, (y * 257 =? 0) eqn:E2, (z * 257 =? 0) eqn:E3; cbn; rewrite ?Z.div_0_l by lia; try lia.
    exfalso. apply N. f_equal; lia. }
  induction s as [o|base IH o]; cbn [proper Select].
  - intros [A B]. apply P; auto.
  - intros (A & B & D). rewrite (IH A). cbn [r g b]. change (u16 (0 - 0)) with 0. apply P; auto.
Qed.
