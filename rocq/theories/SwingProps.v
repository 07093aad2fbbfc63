(** C127: the swing sounds follow the turning of the hilt.  C128: when swings are heard. *)
From Coq Require Import ZArith QArith Qabs List Bool Arith Lia ZifyBool Lqa.
From Verif Require Import SwingModel SwingSpec SwingProofs.
Import ListNotations.
Local Open Scope Q_scope.

Lemma part_ext p k r r' : r == r' -> part p k r == part p k r'.
Proof. intros E. unfold part. pose proof (done_ext p k r r' E) as D. destruct (Nat.even k); rewrite D; reflexivity. Qed.
Lemma turned_app ms : forall l b, turned l (ms ++ b) == turned l ms + turned (match rev ms with [] => l | i :: _ => micros i end) b.
Proof.
  induction ms as [|i ms IH]; intros l b; [cbn; lra|]. cbn [app turned]. rewrite IH. change (rev (i :: ms)) with (rev ms ++ [i]).
  destruct (rev ms); cbn; lra.
Qed.
Lemma run_one c fuel s i s' es : run c fuel s (map Move [i]) = Some (s', es) -> exists e, es = [e] /\ SB_Motion c fuel s i = Some (s', e).
Proof. cbn. destruct (SB_Motion c fuel s i) as [[s1 e]|]; [|discriminate]. intros [= <- <-]. eauto. Qed.
Lemma run_len c fuel os : forall s s' es, run c fuel s os = Some (s', es) -> length es = length os.
Proof.
  induction os as [|o os IH]; intros s s' es E; [injection E as <- <-; reflexivity|]. cbn [run] in E.
  destruct (step c fuel s o) as [[s1 e]|]; [|discriminate]. destruct (run c fuel s1 os) as [[s2 es']|] eqn:R; [|discriminate].
  injection E as <- <-. cbn. now rewrite (IH _ _ _ R).
Qed.

(** C127.  While a swing lasts, the volumes of its two sounds depend on the angle turned since it began
    and on nothing else: not on how fast, in how many steps or with what changes of speed.  The sum of the
    two is the volume of the swing; the parts are those of the plan of transitions. *)
Theorem C127_angle : forall c fuel s ms i s' es e px py, 0 < sens c ->
  is_on s = true -> pl (A s) = Some px -> pl (B s) = Some py -> px <> py -> swings c s (ms ++ [i]) ->
  run c fuel s (map Move (ms ++ [i])) = Some (s', es ++ [e]) ->
  let r := turned (last_micros s) (ms ++ [i]) in
  exists k v w, passing (plan_of s) r k /\ volume_of px e = Some v /\ volume_of py e = Some w /\
    v == loud c i * part (plan_of s) k r /\ w == loud c i * (1 - part (plan_of s) k r) /\ 0 <= part (plan_of s) k r <= 1.
Proof.
  intros c fuel s ms i s' es e px py SE O PX PY NE SW E. cbv zeta.
  rewrite (run_begin c fuel s (ms ++ [i]) px py ltac:(destruct ms; discriminate) SW PX PY) in E. destruct SW as [FA _].
  apply Forall_app in FA. destruct FA as [FA FI]. inversion FI as [|? ? [S1 S2] _]; subst.
  rewrite map_app, run_app in E. destruct (run c fuel (on_st s) (map Move ms)) as [[s1 x1]|] eqn:R1; [|discriminate].
  destruct (run c fuel s1 (map Move [i])) as [[s2 x2]|] eqn:R2; [|discriminate]. injection E as <- E.
  apply run_one in R2. destruct R2 as (e2 & -> & M). apply app_inj_tail in E. destruct E as [_ <-].
  pose proof (follows0 (on_st s)) as F0. cbn [on_st A B] in F0. rewrite PX, PY in F0. change (plan_of (Sw (A s) (B s) (last_random s) (is_on s) (last_micros s) ON)) with (plan_of s) in F0.
  destruct (swing_follows c fuel (plan_of s) (Some px) (Some py) ms (on_st s) 0 0 s1 x1 eq_refl F0 FA R1) as (k1 & r1 & RR & F1 & ST1 & O1 & L1).
  cbn [on_st is_on last_micros] in *. rewrite O in O1.
  destruct (swing_volumes c fuel s1 i s2 e2 px py (plan_of s) r1 k1 ST1 O1 NE SE F1 S1 S2 M) as (k & v & w & F2 & PS & _ & _ & _ & V & W & VV & WW).
  rewrite L1 in *. set (r := r1 + speed i * dt (match rev ms with [] => last_micros s | i :: _ => micros i end) (micros i)) in *.
  assert (EQ : r == turned (last_micros s) (ms ++ [i])).
  { rewrite turned_app. cbn [turned]. unfold r. rewrite RR. lra. }
  exists k, v, w. pose proof (passing_ext _ _ _ _ EQ PS) as PS'. pose proof (part_ext (plan_of s) k _ _ EQ) as PE.
  split; [exact PS'|]. split; [exact V|]. split; [exact W|]. rewrite <- PE. split; [exact VV|]. split; [exact WW|]. apply part_range. exact PS.
Qed.

(** An example: the default settings with the sharpness 1. *)
Definition ex_c : config := Cfg 450 75 20 45 160 180 180 3 (fun x => x).
Definition ex_pick (t : Z) (n : Z) (sw : bool) : pick := Pick t true n sw 400 (Some 3%nat) (Some 4%nat).
Definition ex_move (v : Q) (us : Z) : motion := Motion v us false (fun _ => true) (fun v => v) (ex_pick (us / 1000) 2 false).
Definition ex_on : sw := match run ex_c 5 sw0 [Act; On (ex_pick 5000 1 false); Move (ex_move 0 6000000)] with Some (s, _) => s | None => sw0 end.
Definition ex_ms : list motion := [ex_move 90 6100000; ex_move 100 6200000; ex_move 200 6300000; ex_move 225 6500000].
(** 84 degrees turned: past the first transition, centred at 30, on the way to the one at 210. *)
Example C127_angle_ex : is_on ex_on = true /\ pl (A ex_on) = Some 3%nat /\ pl (B ex_on) = Some 4%nat /\ swings ex_c ex_on ex_ms /\
  turned (last_micros ex_on) ex_ms == 84 /\ passing (plan_of ex_on) 84 1 /\
  match run ex_c 5 ex_on (map Move ex_ms) with Some (s, es) => map (fun e => (option_map Qred (volume_of 3 e), option_map Qred (volume_of 4 e), map Qred (hums e))) es | None => [] end =
    [(Some (1 # 50), Some (29 # 50), [17 # 20]); (Some (23 # 135), Some (67 # 135), [5 # 6]); (Some (14 # 15), Some (2 # 5), [2 # 3]);
     (Some (3 # 2), Some 0, [5 # 8])].
Proof.
  split; [reflexivity|]. split; [reflexivity|]. split; [reflexivity|]. split.
  { split; [|right; split; [reflexivity|vm_compute; discriminate]]. repeat constructor; vm_compute; discriminate. }
  split; [reflexivity|]. split; [|vm_compute; reflexivity]. split; [|vm_compute; discriminate].
  intros [|j] J; [reflexivity|lia].
Qed.

(** C127.  If one transition ends before the next begins, the volumes change smoothly: from one motion to
    the next the part of each sound changes by no more than the angle turned over the smallest width. *)
Theorem C127_smooth : forall c fuel s ms i j s' es e1 e2 px py w, 0 < sens c ->
  is_on s = true -> pl (A s) = Some px -> pl (B s) = Some py -> px <> py -> swings c s (ms ++ [i; j]) ->
  run c fuel s (map Move (ms ++ [i; j])) = Some (s', es ++ [e1; e2]) ->
  apart (plan_of s) -> 0 < w -> w <= wid (A s) -> w <= wid (B s) ->
  exists v1 v2 g1 g2, volume_of px e1 = Some v1 /\ volume_of px e2 = Some v2 /\
    v1 == loud c i * g1 /\ v2 == loud c j * g2 /\ Qabs (g2 - g1) <= speed j * dt (micros i) (micros j) / w.
Proof.
  intros c fuel s ms i j s' es e1 e2 px py w SE O PX PY NE SW E AP W0 W1 W2.
  assert (SWA : swings c s (ms ++ [i])).
  { destruct SW as [FA H]. split.
    - apply Forall_app in FA. destruct FA as [X Y]. apply Forall_app. split; [exact X|]. inversion Y; subst. constructor; [assumption|constructor].
    - destruct H as [H|[H1 H2]]; [auto|]. right. split; [exact H1|]. destruct ms; exact H2. }
  assert (EA : exists s1, run c fuel s (map Move (ms ++ [i])) = Some (s1, es ++ [e1])).
  { replace (ms ++ [i; j]) with ((ms ++ [i]) ++ [j]) in E by (rewrite <- app_assoc; reflexivity). rewrite map_app, run_app in E.
    destruct (run c fuel s (map Move (ms ++ [i]))) as [[s1 x1]|]; [|discriminate].
    destruct (run c fuel s1 (map Move [j])) as [[s2 x2]|] eqn:R2; [|discriminate]. injection E as <- E.
    apply run_one in R2. destruct R2 as (e & -> & _). change [e1; e2] with ([e1] ++ [e2]) in E. rewrite app_assoc in E. apply app_inj_tail in E. destruct E as [-> _]. eauto. }
  destruct EA as (s1 & EA).
  replace (ms ++ [i; j]) with ((ms ++ [i]) ++ [j]) in E, SW by (rewrite <- app_assoc; reflexivity).
  replace (es ++ [e1; e2]) with ((es ++ [e1]) ++ [e2]) in E by (rewrite <- app_assoc; reflexivity).
  destruct (C127_angle c fuel s ms i s1 es e1 px py SE O PX PY NE SWA EA) as (k1 & v1 & y1 & P1 & V1 & _ & G1 & _).
  destruct (C127_angle c fuel s (ms ++ [i]) j s' (es ++ [e1]) e2 px py SE O PX PY NE SW E) as (k2 & v2 & y2 & P2 & V2 & _ & G2 & _).
  set (r1 := turned (last_micros s) (ms ++ [i])) in *. set (r2 := turned (last_micros s) ((ms ++ [i]) ++ [j])) in *.
  assert (D : r2 == r1 + speed j * dt (micros i) (micros j)).
  { unfold r2. rewrite turned_app, rev_unit. cbn [turned]. fold r1. lra. }
  assert (S0 : 0 <= speed j * dt (micros i) (micros j)).
  { destruct SW as [FA _]. apply Forall_app in FA. destruct FA as [_ FJ]. inversion FJ as [|? ? [S1 _] _]; subst.
    apply Qmult_le_0_compat; [exact S1|]. unfold dt. apply Qle_shift_div_l; [reflexivity|]. rewrite Qmult_0_l. change 0 with (inject_Z 0). rewrite <- Zle_Qle.
    pose proof (Z.mod_pos_bound (micros j - micros i) (2 ^ 32) eq_refl). cbv zeta. destruct (_ <=? _)%Z; lia. }
  exists v1, v2, (part (plan_of s) k1 r1), (part (plan_of s) k2 r2). repeat (split; [assumption|]).
  eapply Qle_trans; [apply (part_lip k1 (plan_of s) k2 r1 r2 w AP)|]; auto.
  - repeat split; assumption.
  - lra.
  - assert (X : r2 - r1 == speed j * dt (micros i) (micros j)) by lra. rewrite X. apply Qle_refl.
Qed.
Example C127_smooth_ex : apart (plan_of ex_on) /\ 45 <= wid (A ex_on) /\ 45 <= wid (B ex_on).
Proof. unfold apart. repeat split; vm_compute; (reflexivity || discriminate). Qed.

(** With wider transitions the volumes jump, here by a fifth of the swing's within a hundredth of a degree. *)
Definition wide_c : config := Cfg 450 75 20 200 200 160 160 3 (fun x => x).
Theorem C127_overlap_refuted : exists s i j s' e1 e2 v1 v2, swings wide_c s [i; j] /\ is_on s = true /\ plan_of s = Plan 30 200 200 160 160 /\
  pl (A s) = Some 3%nat /\ pl (B s) = Some 4%nat /\
  run wide_c 5 s (map Move [i; j]) = Some (s', [e1; e2]) /\ speed j * dt (micros i) (micros j) == 1 # 100 /\
  loud wide_c i == 3 /\ loud wide_c j == 3 /\ volume_of 3 e1 = Some v1 /\ volume_of 3 e2 = Some v2 /\ v1 == 3 /\ v2 <= 3 * (8 # 10).
Proof.
  exists (Sw (D (Some 3%nat) 30 200 160) (D (Some 4%nat) 0 200 160) 0 true 0 ON), (ex_move 1000 130000), (ex_move 1000 130010).
  eexists. eexists. eexists. eexists. eexists. split.
  { split; [|left; reflexivity]. repeat constructor; vm_compute; discriminate. }
  repeat (split; [vm_compute; reflexivity|]). vm_compute. discriminate.
Qed.

(** C127.  The loop that looks for the next transition ends, whatever happens, if the two separations are
    positive together. *)
Theorem C127_ends : forall c os, 0 < l2h c + h2l c -> exists n, forall fuel, (n <= fuel)%nat -> run c fuel sw0 (Act :: os) <> None.
Proof.
  intros c os H. destruct (run_ends c os (Activate c sw0) H) as (n & x & R); [reflexivity|].
  exists n. intros fuel L. cbn [run step]. rewrite (run_mono c n fuel os _ x L R). destruct x. discriminate.
Qed.
Example C127_ends_ex : 0 < l2h ex_c + h2l ex_c.
Proof. reflexivity. Qed.
(** If they are both zero in the configuration file, the first swing past both transitions never ends. *)
Definition zero_c : config := Cfg 450 75 20 45 160 0 0 3 (fun x => x).
Theorem C127_hang_refuted : forall fuel, run zero_c fuel sw0 [Act; On (ex_pick 5000 1 false); Move (ex_move 0 6000000); Move (ex_move 400 6500000)] = None.
Proof.
  intros fuel. cbn [run step]. set (s := Activate zero_c sw0).
  set (q := SB_On zero_c s _). assert (Q : q = (Sw (D (Some 3%nat) (inject_Z 400 / 1000 * 50 + 10) 45 0) (D (Some 4%nat) (inject_Z 400 / 1000 * 50 + 10 + 0) 160 0) 5000 true 0 OFF, snd q)) by reflexivity.
  rewrite Q. clear Q. set (e := snd q). clearbody e. clear q s.
  set (q := SB_Motion zero_c fuel _ (ex_move 0 6000000)).
  assert (Q : q = Some (Sw (D (Some 3%nat) (inject_Z 400 / 1000 * 50 + 10) 45 0) (D (Some 4%nat) (inject_Z 400 / 1000 * 50 + 10 + 0) 160 0) 5000 true 6000000 OFF, [Hum 1])) by reflexivity.
  rewrite Q. clear Q q. unfold SB_Motion. cbn [st A B pl is_on last_random last_micros].
  replace (lt (speed (ex_move 400 6500000)) (thr zero_c)) with false by reflexivity. unfold case_on.
  replace (Qle_bool (thr zero_c * (9 # 10)) (speed (ex_move 400 6500000))) with true by reflexivity. unfold swinging.
  rewrite turn_hang; [reflexivity| | | |]; vm_compute; (reflexivity || discriminate).
Qed.

(** * C128 *)
(** C128.  Every motion sets the hum volume, once and last.  Outside a swing it is full and the swing
    sounds are set to nothing but silence.  A swing begins at the threshold and lasts down to nine tenths
    of it. *)
Theorem C128_hum : forall c fuel os i s es e, 0 <= thr c -> 0 < sens c -> run c fuel sw0 (os ++ [Move i]) = Some (s, es ++ [e]) ->
  (forall x, 0 <= x <= 1 -> 0 <= pow c x <= 1) -> 0 <= duck c <= 100 -> 0 <= speed i ->
  exists h, hums e = [h] /\ (exists e0, e = e0 ++ [Hum h]) /\ 0 <= h <= 1 /\
    if in_swing c false (os ++ [Move i]) then h == 1 - pow c (strength c i) * duck c / 100
    else h = 1 /\ Forall no_volume e.
Proof.
  intros c fuel os i s es e T SE E PW [D0 D1] S0. rewrite run_app in E. destruct (run c fuel sw0 os) as [[s1 x1]|] eqn:R1; [|discriminate].
  cbn [run step] in E. destruct (SB_Motion c fuel s1 i) as [[s2 e2]|] eqn:M; [|discriminate]. injection E as <- E.
  apply app_inj_tail in E. destruct E as [_ <-]. destruct (run_good c fuel os sw0 s1 x1 false false T (good0 c) R1) as [G1 G2].
  rewrite in_swing_app. cbn [in_swing]. set (g := in_swing c false os) in *.
  apply motion_moved in M; [|exact T|rewrite G1; destruct g; discriminate]. rewrite G1 in M.
  replace (isON (if g then ON else OFF)) with g in M by (destruct g; reflexivity). destruct M as [_ _ (e0 & -> & H0) MV _ _ _ _ _ _ _].
  exists (hum_for c (goes_on c g i) i). split; [rewrite hums_app, H0; reflexivity|]. split; [eauto|]. unfold hum_for in *.
  destruct (goes_on c g i).
  - rewrite (strength_fmin c i SE). split; [|reflexivity].
    assert (ST : 0 <= strength c i <= 1).
    { unfold strength. destruct (Qle_bool (sens c) (speed i)) eqn:Q; [lra|].
      assert (N : speed i < sens c) by (apply Qnot_le_lt; rewrite <- Qle_bool_iff; congruence).
      split; [apply Qle_shift_div_l; lra|apply Qle_shift_div_r; lra]. }
    destruct (PW _ ST) as [P0 P1]. set (x := pow c (strength c i)) in *. clearbody x.
    assert (X0 : 0 <= x * duck c / 100) by (apply Qle_shift_div_l; [reflexivity|]; rewrite Qmult_0_l; now apply Qmult_le_0_compat).
    assert (X1 : x * duck c / 100 <= 1).
    { apply Qle_shift_div_r; [reflexivity|]. apply Qle_trans with (1 * 100); [|lra]. apply Qle_trans with (1 * duck c).
      - rewrite !(Qmult_comm _ (duck c)). destruct (Qlt_le_dec 0 (duck c)) as [K|K]; [now apply Qmult_le_l|]. assert (Z : duck c == 0) by lra. rewrite Z. lra.
      - lra. }
    lra.
  - split; [lra|]. split; [reflexivity|]. now apply MV.
Qed.
Definition ex_run : list op := [Act; On (ex_pick 5000 1 false); Move (ex_move 15 6000000); Move (ex_move 25 6100000); Move (ex_move 19 6200000); Move (ex_move 17 6300000); Move (ex_move 19 6400000)].
Example C128_hum_ex : (forall x, 0 <= x <= 1 -> 0 <= pow ex_c x <= 1) /\ 0 <= duck ex_c <= 100 /\
  map (fun n => in_swing ex_c false (firstn n ex_run)) [3; 4; 5; 6; 7]%nat = [false; true; true; false; false] /\
  match run ex_c 5 sw0 ex_run with Some (_, es) => map (fun e => map Qred (hums e)) (skipn 2 es) | None => [] end = [[1]; [23 # 24]; [581 # 600]; [1]; [1]].
Proof. split; [auto|]. split; [split; vm_compute; discriminate|]. split; reflexivity. Qed.

(** C128.  From the moment the main blade is turned off until it is turned on again, no swing sound is
    started and none is given a volume but zero. *)
Theorem C128_off : forall c fuel os o s es e, 0 <= thr c -> run c fuel sw0 (os ++ [o]) = Some (s, es ++ [e]) ->
  powered false (os ++ [o]) = false -> Forall silent e.
Proof.
  intros c fuel os o s es e T E PO. rewrite run_app in E. destruct (run c fuel sw0 os) as [[s1 x1]|] eqn:R1; [|discriminate].
  cbn [run] in E. destruct (step c fuel s1 o) as [[s2 e2]|] eqn:M; [|discriminate]. injection E as <- E.
  apply app_inj_tail in E. destruct E as [_ <-]. destruct (run_good c fuel os sw0 s1 x1 false false T (good0 c) R1) as [G1 G2].
  rewrite powered_app in PO. destruct o as [| |i|[]|i]; cbn [step powered] in *.
  - injection M as <- <-. constructor.
  - injection M as <- <-. constructor.
  - discriminate.
  - injection M as <- <-. apply Forall_app. unfold off. destruct (pl (A s1)), (pl (B s1)); split; repeat constructor.
  - injection M as <- <-. constructor.
  - apply motion_moved in M; [|exact T|rewrite G1; destruct (in_swing c false os); discriminate]. destruct M as [_ _ _ _ MO _ _ _ _ _ _]. apply MO. congruence.
Qed.
Example C128_off_ex : powered false (ex_run ++ [Off true; Move (ex_move 100 6500000); Move (ex_move 1 6600000)]) = false /\
  match run ex_c 5 sw0 (ex_run ++ [Off true; Move (ex_move 100 6500000); Move (ex_move 1 6600000)]) with Some (_, es) => skipn 8 es | None => [] end
  = [[Hum (1 - 100 / 450 * 75 / 100)]; [Vol 3 0; Vol 4 0; Hum 1]].
Proof. split; vm_compute; reflexivity. Qed.

(** C128.  Swing sounds come in pairs: a pick starts the low and the high sound with one and the same
    number, each silent; none without the hum, nor with the blade off. *)
Theorem C128_pairs : forall c fuel os o s es e, 0 <= thr c -> run c fuel sw0 (os ++ [o]) = Some (s, es ++ [e]) -> plays e <> [] ->
  exists i a b, pick_of o = Some i /\ humming i = true /\ powered false (os ++ [o]) = true /\
    (plays e = [(a, Low, number i)] \/ plays e = [(b, High, number i)] \/ plays e = [(a, Low, number i); (b, High, number i)]) /\
    forall p w n, In (Play p w n) e -> exists e1 e2, e = e1 ++ Vol p 0 :: Play p w n :: e2.
Proof.
  intros c fuel os o s es e T E PL. rewrite run_app in E. destruct (run c fuel sw0 os) as [[s1 x1]|] eqn:R1; [|discriminate].
  cbn [run] in E. destruct (step c fuel s1 o) as [[s2 e2]|] eqn:M; [|discriminate]. injection E as <- E.
  apply app_inj_tail in E. destruct E as [_ <-]. destruct (run_good c fuel os sw0 s1 x1 false false T (good0 c) R1) as [G1 G2].
  rewrite powered_app. destruct o as [| |i|[]|i]; cbn [step powered pick_of] in *; try (injection M as <- <-; now elim PL).
  - injection M as M. unfold SB_On in M. destruct (pick_picked c (Sw (A s1) (B s1) (last_random s1) true (last_micros s1) (st s1)) i) as [_ _ _ _ _ _ P7 P8 _ _ P11 _].
    rewrite M in *. cbn [fst snd] in *. destruct P7 as (a & b & [Z|P7]); [congruence|]. destruct (P11 PL) as (_ & H & _).
    exists i, a, b. split; [reflexivity|]. split; [exact H|]. split; [reflexivity|]. split; [exact P7|exact P8].
  - injection M as <- <-. elim PL. rewrite plays_app. unfold off. destruct (pl (A s1)), (pl (B s1)); reflexivity.
  - apply motion_moved in M; [|exact T|rewrite G1; destruct (in_swing c false os); discriminate]. destruct M as [_ _ _ _ _ P7 P8 _ _ P11 _].
    destruct P7 as (a & b & [Z|P7]); [congruence|]. destruct (P11 PL) as (ON1 & H & _).
    exists (picking i), a, b. split; [reflexivity|]. split; [exact H|]. split; [congruence|]. split; [exact P7|exact P8].
Qed.
Example C128_pairs_ex : match run ex_c 5 sw0 ex_run with Some (_, es) => map plays es | None => [] end =
  [[]; [(3%nat, Low, 1%Z); (4%nat, High, 1%Z)]; []; []; []; [(3%nat, Low, 2%Z); (4%nat, High, 2%Z)]; []].
Proof. reflexivity. Qed.

(** C128.  Once a pair plays, the next is started a second later or more. *)
Lemma rate_step c fuel s o s' e g pw : 0 <= thr c -> good c g pw s -> some (pl (A s)) = true -> some (pl (B s)) = true -> o <> Deact ->
  step c fuel s o = Some (s', e) ->
  some (pl (A s')) = true /\ some (pl (B s')) = true /\
  (plays e = [] -> last_random s' = last_random s) /\
  (plays e <> [] -> exists i, pick_of o = Some i /\ (1000 <= (millis i - last_random s) mod 2 ^ 32)%Z).
Proof.
  intros T [G1 G2] PA PB ND M. destruct o as [| |i|[]|i]; cbn [step pick_of] in *; try congruence.
  - injection M as <- <-. cbn. repeat split; auto. intros F; now elim F.
  - injection M as M. unfold SB_On in M. destruct (pick_picked c (Sw (A s) (B s) (last_random s) true (last_micros s) (st s)) i) as [_ _ _ _ _ _ _ _ P9 _ P11 P12].
    rewrite M in *. cbn [fst snd A B last_random] in *. destruct (P9 PA PB). repeat split; auto. intros PL. destruct (P11 PL) as (_ & _ & _ & X). exists i. auto.
  - injection M as <- <-. cbn [A B last_random]. repeat split; auto. intros F. elim F. rewrite plays_app. unfold off. destruct (pl (A s)), (pl (B s)); reflexivity.
  - injection M as <- <-. repeat split; auto. intros F; now elim F.
  - apply motion_moved in M; [|exact T|rewrite G1; destruct g; discriminate]. destruct M as [_ _ _ _ _ _ _ P9 _ P11 P12].
    destruct (P9 PA PB). repeat split; auto. intros PL. destruct (P11 PL) as (_ & _ & _ & X). exists (picking i). auto.
Qed.
Lemma rate_run c fuel os : forall s s' es g pw, 0 <= thr c -> good c g pw s -> some (pl (A s)) = true -> some (pl (B s)) = true ->
  Forall (fun o => o <> Deact) os -> run c fuel s os = Some (s', es) -> Forall (fun e => plays e = []) es ->
  some (pl (A s')) = true /\ some (pl (B s')) = true /\ last_random s' = last_random s.
Proof.
  induction os as [|o os IH]; intros s s' es g pw T G PA PB ND E F; [injection E as <- <-; auto|].
  cbn [run] in E. destruct (step c fuel s o) as [[s1 e]|] eqn:M; [|discriminate]. destruct (run c fuel s1 os) as [[s2 es']|] eqn:R; [|discriminate].
  injection E as <- <-. inversion ND as [|? ? ND1 ND2]; subst. inversion F as [|? ? F1 F2]; subst.
  destruct (rate_step _ _ _ _ _ _ _ _ T G PA PB ND1 M) as (PA1 & PB1 & L & _).
  destruct (IH _ _ _ _ _ T (step_good _ _ _ _ _ _ _ _ T G M) PA1 PB1 ND2 R F2) as (PA2 & PB2 & L2).
  rewrite L2. auto.
Qed.
Lemma app_split {X} (a a' b b' : list X) : a ++ b = a' ++ b' -> length a = length a' -> a = a' /\ b = b'.
Proof.
  revert a'. induction a as [|x a IH]; intros [|y a'] E L; try discriminate; [auto|]. cbn in *. injection E as -> E.
  destruct (IH a' E ltac:(lia)). split; congruence.
Qed.
Theorem C128_rate : forall c fuel os o1 mid o2 s xs e1 ms e2, 0 <= thr c ->
  run c fuel sw0 (os ++ o1 :: mid ++ [o2]) = Some (s, xs ++ e1 :: ms ++ [e2]) -> length xs = length os ->
  length (plays e1) = 2%nat -> Forall (fun e => plays e = []) ms -> plays e2 <> [] -> Forall (fun o => o <> Deact) (mid ++ [o2]) ->
  exists i1 i2, pick_of o1 = Some i1 /\ pick_of o2 = Some i2 /\ (1000 <= (millis i2 - millis i1) mod 2 ^ 32)%Z.
Proof.
  intros c fuel os o1 md o2 s xs e1 ms e2 T E LX PL1 PM PL2 ND.
  rewrite run_app in E. destruct (run c fuel sw0 os) as [[s1 x1]|] eqn:R1; [|discriminate].
  change (o1 :: md ++ [o2]) with ([o1] ++ md ++ [o2]) in E. cbn [app run] in E.
  destruct (step c fuel s1 o1) as [[s2 f1]|] eqn:M1; [|discriminate]. rewrite run_app in E.
  destruct (run c fuel s2 md) as [[s3 x3]|] eqn:R3; [|discriminate]. cbn [run] in E.
  destruct (step c fuel s3 o2) as [[s4 f2]|] eqn:M2; [|discriminate]. injection E as <- E.
  apply app_split in E; [|rewrite (run_len _ _ _ _ _ _ R1); auto]. destruct E as [_ E]. injection E as <- E.
  apply app_inj_tail in E. destruct E as [<- <-].
  pose proof (run_good c fuel os sw0 s1 x1 false false T (good0 c) R1) as G1.
  pose proof (step_good _ _ _ _ _ _ _ _ T G1 M1) as G2. destruct G1 as [G1a G1b].
  assert (X : exists i1, pick_of o1 = Some i1 /\ last_random s2 = millis i1 /\ some (pl (A s2)) = true /\ some (pl (B s2)) = true).
  { assert (PN : plays f1 <> []) by (intros Z; rewrite Z in PL1; discriminate).
    destruct o1 as [| |i|[]|i]; cbn [step pick_of] in *; try (injection M1 as <- <-; now elim PN).
    - injection M1 as M. unfold SB_On in M. destruct (pick_picked c (Sw (A s1) (B s1) (last_random s1) true (last_micros s1) (st s1)) i) as [_ _ _ _ _ _ _ _ _ P10 P11 _].
      rewrite M in *. cbn [fst snd] in *. destruct (P11 PN) as (_ & _ & L & _). destruct (P10 PL1). exists i. auto.
    - exfalso. injection M1 as <- <-. apply PN. rewrite plays_app. unfold off. destruct (pl (A s1)), (pl (B s1)); reflexivity.
    - apply motion_moved in M1; [|exact T|rewrite G1a; destruct (in_swing c false os); discriminate]. destruct M1 as [_ _ _ _ _ _ _ _ P10 P11 _].
      destruct (P11 PN) as (_ & _ & L & _). destruct (P10 PL1). exists (picking i). auto. }
  destruct X as (i1 & PK & LR & PA & PB). apply Forall_app in ND. destruct ND as [NM NO]. inversion NO as [|? ? NO1 _]; subst.
  destruct (rate_run _ _ _ _ _ _ _ _ T G2 PA PB NM R3 PM) as (PA3 & PB3 & L3).
  pose proof (run_good _ _ _ _ _ _ _ _ T G2 R3) as G3.
  destruct (rate_step _ _ _ _ _ _ _ _ T G3 PA3 PB3 NO1 M2) as (_ & _ & _ & Y). destruct (Y PL2) as (i2 & PK2 & D).
  exists i1, i2. split; [exact PK|]. split; [exact PK2|]. rewrite <- LR, <- L3. exact D.
Qed.
Example C128_rate_ex : exists s es, run ex_c 5 sw0 (firstn 6 ex_run) = Some (s, es) /\ map (fun e => length (plays e)) es = [0; 2; 0; 0; 0; 2]%nat.
Proof. eexists. eexists. split; vm_compute; reflexivity. Qed.

(** At the end of a swing the sounds are not left to fade: they are stopped in the same call that sets
    their volume to zero, whatever it was. *)
Theorem C128_cut_refuted : exists e1 e2 s, run ex_c 5 ex_on [Move (ex_move 450 6100000); Move (ex_move 1 6200000)] = Some (s, [e1; e2]) /\
  (exists v w, volume_of 3 e1 = Some v /\ volume_of 4 e1 = Some w /\ v + w == 3) /\
  firstn 4 e2 = [Vol 3 0; Vol 4 0; Stop 3; Stop 4].
Proof.
  eexists. eexists. eexists. split; [vm_compute; reflexivity|]. split; [|reflexivity].
  eexists. eexists. split; [vm_compute; reflexivity|]. split; [vm_compute; reflexivity|]. vm_compute. reflexivity.
Qed.
(** The separations belong to the two players, not to the sounds: after a pick that swaps them and
    another, the transition to the low sound is followed by the distance set for high to low. *)
Definition sep_c : config := Cfg 450 75 20 45 160 100 260 3 (fun x => x).
Theorem C128_separation_refuted : exists s es e, run sep_c 5 sw0 [Act; On (ex_pick 5000 1 true); On (ex_pick 7000 2 false)] = Some (s, es ++ [e]) /\
  pl (A s) = Some 4%nat /\ plays e = [(4%nat, Low, 2%Z); (3%nat, High, 2%Z)] /\ gx (plan_of s) = h2l sep_c /\ l2h sep_c <> h2l sep_c.
Proof. eexists. eexists [[]; _]. eexists. split; [vm_compute; reflexivity|]. repeat (split; [reflexivity|]). discriminate. Qed.
Print Assumptions C127_angle.
Print Assumptions C127_smooth.
Print Assumptions C127_overlap_refuted.
Print Assumptions C127_ends.
Print Assumptions C127_hang_refuted.
Print Assumptions C128_hum.
Print Assumptions C128_off.
Print Assumptions C128_pairs.
Print Assumptions C128_rate.
Print Assumptions C128_cut_refuted.
Print Assumptions C128_separation_refuted.
