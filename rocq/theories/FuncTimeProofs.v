From Coq Require Import ZArith List Bool Lia ZifyBool ZifyNat.
From Verif Require Import Machine ArithModel ArithSpec ArithProofs FuncModel FuncSpec FuncProofs.
Import ListNotations.
Open Scope Z_scope.

(** Counting functions *)
Lemma inc_run mx B h : 0 < mx -> 0 <= B -> mx + B <= 2147483647 ->
  Forall (fun i => 0 <= snd i <= B) h ->
  forall v, 0 <= v < mx ->
  run inc_step (Some v) (map (fun i => (fst i, snd i, mx)) h) = Some ((v + pulsed h) mod mx).
Proof.
  intros Hm HB HS H. induction H as [|[p i] h Hi H IH]; intros v Hv; cbn [run map pulsed].
  - rewrite Z.add_0_r, Z.mod_small; auto.
  - cbn [inc_step bind fst snd] in *. destruct p.
    + rewrite chk_some by lia. cbn [bind]. replace (mx =? 0) with false by lia.
      rewrite Z.rem_mod_nonneg by lia.
      pose proof (Z.mod_pos_bound (v + i) mx Hm). rewrite chk_some by lia.
      rewrite IH by auto. rewrite Z.add_mod_idemp_l by lia. do 2 f_equal. lia.
    + rewrite IH by auto. do 2 f_equal.
Qed.

Lemma pcount_cons b h : pcount (b :: h) = (if b then 1 else 0) + pcount h.
Proof.
  unfold pcount. destruct b; cbn [count_occ].
  - destruct (bool_dec true true); [lia|congruence].
  - destruct (bool_dec false true); [congruence|lia].
Qed.
Lemma pcount_nonneg h : 0 <= pcount h.
Proof. unfold pcount; lia. Qed.
Definition rp mx inc (i : bool * bool) : bool * bool * Z * Z := (fst i, snd i, mx, inc).
Lemma incr_none mx inc h : 0 <= mx -> 0 <= inc -> mx + inc <= 2147483647 ->
  Forall (fun i => fst i = false) h -> forall k, 0 <= k ->
  run incr_step (Some (Z.min mx (inc * k))) (map (rp mx inc) h) =
  Some (Z.min mx (inc * (k + pcount (map snd h)))).
Proof.
  intros Hm Hi HS H. induction H as [|[r p] h Hr H IH]; intros k Hk; cbn [run map].
  - unfold pcount. cbn. do 2 f_equal. lia.
  - cbn [fst snd rp incr_step bind] in *. subst r. rewrite pcount_cons. destruct p.
    + rewrite chk_some by nia. cbn [bind].
      replace (Z.min (Z.min mx (inc * k) + inc) mx) with (Z.min mx (inc * (k + 1))) by nia.
      rewrite IH by lia. do 3 f_equal. lia.
    + rewrite IH by lia. do 3 f_equal.
Qed.
Lemma incr_bounded mx inc h : 0 <= mx -> 0 <= inc -> mx + inc <= 2147483647 ->
  forall v, 0 <= v <= mx -> exists w, 0 <= w <= mx /\
  run incr_step (Some v) (map (rp mx inc) h) = Some w.
Proof.
  intros Hm Hi HS. induction h as [|[r p] h IH]; intros v Hv; cbn [run map].
  - eauto.
  - cbn [rp fst snd incr_step bind]. destruct p.
    + rewrite chk_some by (destruct r; lia). cbn [bind]. apply IH. destruct r; lia.
    + apply IH. destruct r; lia.
Qed.
Lemma incr_since mx inc h1 p h2 : 0 <= mx -> 0 <= inc -> mx + inc <= 2147483647 ->
  Forall (fun i => fst i = false) h2 ->
  run incr_step (Some 0) (map (rp mx inc) (h1 ++ (true, p) :: h2)) =
  Some (Z.min mx (inc * pcount (p :: map snd h2))).
Proof.
  intros Hm Hi HS H. rewrite map_app, run_app.
  destruct (incr_bounded mx inc h1 Hm Hi HS 0 ltac:(lia)) as (w & Hw & ->).
  cbn [map run rp fst snd incr_step bind]. rewrite pcount_cons.
  destruct p.
  - rewrite chk_some by lia. cbn [bind].
    replace (Z.min (0 + inc) mx) with (Z.min mx (inc * 1)) by lia.
    rewrite (incr_none mx inc h2 Hm Hi HS H 1) by lia. reflexivity.
  - replace 0 with (Z.min mx (inc * 0)) at 1 by lia.
    rewrite (incr_none mx inc h2 Hm Hi HS H 0) by lia. reflexivity.
Qed.

(** Threshold pulse *)
Lemma run_outs_app {S I O} (step : S -> I -> S * O) s a b :
  run_outs step s (a ++ b) = run_outs step s a ++ run_outs step (run_state step s a) b.
Proof.
  revert s; induction a as [|i a IH]; intros; cbn; auto.
  destruct (step s i); cbn. now rewrite IH.
Qed.
Lemma run_state_app {S I O} (step : S -> I -> S * O) s a b :
  run_state step s (a ++ b) = run_state step (run_state step s a) b.
Proof. revert s; induction a; intros; cbn; auto. Qed.
Lemma run_outs_len {S I O} (step : S -> I -> S * O) s a : length (run_outs step s a) = length a.
Proof. revert s; induction a; intros; cbn; auto. destruct (step s a); cbn. now rewrite IHa. Qed.
Lemma nth_snoc {A} (l : list A) x i y : nth_error (l ++ [x]) i = Some y ->
  (nth_error l i = Some y /\ (i < length l)%nat) \/ (i = length l /\ y = x).
Proof.
  intros. destruct (Nat.lt_ge_cases i (length l)) as [L|L].
  - rewrite nth_error_app1 in H by auto. auto.
  - rewrite nth_error_app2 in H by auto.
    destruct (i - length l)%nat as [|k] eqn:E; cbn in H.
    + inversion H. right; split; auto; lia.
    + destruct k; discriminate.
Qed.

Lemma skipn_nth {A} (l : list A) a m : nth_error (skipn a l) m = nth_error l (a + m).
Proof. revert l; induction a; intros; cbn; auto. destruct l; auto. destruct m; reflexivity. Qed.

Definition open_since (low : Z) (fs os : list Z) : Prop :=
  exists j, nth_error os j = Some 32768 /\
  forall k g, (j < k)%nat -> nth_error fs k = Some g -> ~ g < low.

Lemma thr_inv thr h fs : -2147483648 <= thr * h <= 2147483647 ->
  let low := Z.quot (thr * h) 100 in
  let inp := map (fun f => (f, thr, h)) fs in
  exists os, run_outs thr_step false inp = map Some os /\ fires_once thr low fs os /\
  (run_state thr_step false inp = true <-> open_since low fs os).
Proof.
  intros Hb low. cbv zeta. induction fs as [|f fs IH] using rev_ind.
  - exists []. cbn. repeat split; try (intros []; discriminate).
    + destruct i; discriminate.
    + destruct i; discriminate.
    + destruct i; discriminate.
    + discriminate.
    + intros [j [H _]]. destruct j; discriminate.
  - destruct IH as (os & E & [L F] & ST). rewrite map_app. cbn [map].
    rewrite run_outs_app, run_state_app, E. cbn [run_outs run_state].
    set (st := run_state thr_step false (map (fun f => (f, thr, h)) fs)) in *.
    assert (STEP : thr_step st (f, thr, h) =
      if st then ((if f <? low then false else true), Some 0)
      else if f >=? thr then (true, Some 32768) else (false, Some 0)).
    { unfold thr_step. rewrite chk_some by auto. reflexivity. }
    rewrite STEP.
    set (o := if st then 0 else if f >=? thr then 32768 else 0).
    exists (os ++ [o]).
    assert (O : (let '(s', o0) := if st then ((if f <? low then false else true), Some 0)
      else if f >=? thr then (true, Some 32768) else (false, Some 0) in o0 :: []) = [Some o]).
    { subst o. destruct st; [reflexivity|]. destruct (f >=? thr); reflexivity. }
    rewrite O. clear O. rewrite map_app. split; [reflexivity|].
    (* firing of the new frame *)
    assert (NEW : o = 32768 <-> thr <= f /\ ~ open_since low fs os).
    { subst o. destruct st.
      - split; [discriminate|]. intros [_ N]. exfalso; apply N. tauto.
      - rewrite Z.geb_leb. destruct (Z.leb_spec thr f).
        + split; [|auto]. intros _. split; auto. intros N. apply ST in N. discriminate.
        + split; [discriminate|]. lia. }
    split.
    + split; [rewrite !app_length; cbn; lia|].
      intros i g o' Hg Ho.
      apply nth_snoc in Hg. apply nth_snoc in Ho.
      destruct Hg as [[Hg Lg]|[Hg ->]], Ho as [[Ho Lo]|[Ho ->]]; try lia.
      * destruct (F i g o' Hg Ho) as [A B]. split; auto. rewrite B.
        split; intros [T H]; split; auto; intros j Hj Hn.
        -- apply nth_snoc in Hn. destruct Hn as [[Hn _]|[Hn _]]; [|lia].
           destruct (H j Hj Hn) as (k & g' & K & G & W). exists k, g'. split; auto. split; auto.
           rewrite nth_error_app1 by lia; auto.
        -- destruct (H j Hj) as (k & g' & K & G & W).
           { rewrite nth_error_app1 by lia; auto. }
           exists k, g'. rewrite nth_error_app1 in G by lia. auto.
      * subst i. split.
        { subst o. destruct st; auto. destruct (f >=? thr); auto. }
        rewrite NEW. split; intros [T H]; split; auto.
        -- intros j Hj Hn. apply nth_snoc in Hn. destruct Hn as [[Hn _]|[Hn _]]; [|lia].
           (* decide: some frame after j below low *)
           destruct (existsb (fun g => g <? low) (skipn (S j) fs)) eqn:X.
           ++ apply existsb_exists in X. destruct X as (g & G & W).
              apply In_nth_error in G. destruct G as (k & G).
              exists (S j + k)%nat, g.
              assert (G' : nth_error fs (S j + k) = Some g) by (rewrite <- skipn_nth; exact G).
              assert (S j + k < length fs)%nat by (apply nth_error_Some; congruence).
              split; [lia|]. split; [|lia]. rewrite nth_error_app1 by auto. auto.
           ++ exfalso. apply H. exists j. split; auto. intros k g Hk Hg W.
              assert (X' : existsb (fun g => g <? low) (skipn (S j) fs) = true).
              { apply existsb_exists. exists g. split; [|lia].
                replace k with (S j + (k - S j))%nat in Hg by lia.
                rewrite <- skipn_nth in Hg. eapply nth_error_In; eauto. }
              congruence.
        -- intros [j [Hn Hk]]. assert (j < length os)%nat by (apply nth_error_Some; congruence).
           destruct (H j ltac:(lia)) as (k & g & K & G & W).
           { rewrite nth_error_app1 by lia; auto. }
           rewrite nth_error_app1 in G by lia. eapply Hk; [|exact G|exact W]. lia.
    + (* state *)
      assert (S1 : fst (if st then ((if f <? low then false else true), Some 0)
        else if f >=? thr then (true, Some 32768) else (false, Some 0)) = true <->
        (st = true /\ ~ f < low) \/ o = 32768).
      { subst o. destruct st; cbn.
        - destruct (Z.ltb_spec f low); split; intros; try discriminate; try lia; auto.
        - destruct (f >=? thr); cbn; split; intros; auto; try discriminate.
          destruct H as [[? _]|?]; discriminate. }
      rewrite S1. clear S1. split.
      * intros [[A B]|A].
        -- apply ST in A. destruct A as [j [Hn Hk]].
           assert (j < length os)%nat by (apply nth_error_Some; congruence).
           exists j. split; [rewrite nth_error_app1 by auto; auto|].
           intros k g K G. apply nth_snoc in G. destruct G as [[G _]|[_ ->]]; eauto.
        -- exists (length fs). split.
           ++ rewrite nth_error_app2 by lia. rewrite <- L, Nat.sub_diag. cbn. congruence.
           ++ intros k g K G. apply nth_snoc in G. lia.
      * intros [j [Hn Hk]]. apply nth_snoc in Hn. destruct Hn as [[Hn Lj]|[_ Hn]]; [|auto].
        left. split.
        -- apply ST. exists j. split; auto. intros k g K G. apply (Hk k); auto.
           assert (k < length fs)%nat by (apply nth_error_Some; congruence).
           rewrite nth_error_app1 by auto. auto.
        -- apply (Hk (length fs)); [lia|]. rewrite nth_error_app2 by lia.
           rewrite Nat.sub_diag. reflexivity.
Qed.

(** Slow change *)
Lemma slow_delta_ok el speed : 0 <= el -> 0 <= speed <= 2147483647 ->
  0 <= slow_delta el speed <= 2147483647 /\
  1000000 * slow_delta el speed <= speed * el /\
  (el <= 1000000 -> slow_delta el speed = speed * el / 1000000).
Proof.
  intros. unfold slow_delta. rewrite (Z.mod_small speed) by lia.
  set (d := if el >? 1000000 then 1 else el).
  assert (0 <= d <= 1000000 /\ d <= el /\ (el <= 1000000 -> d = el)) by
    (subst d; destruct (Z.gtb_spec el 1000000); lia).
  rewrite Z.mod_small by nia.
  pose proof (Z.mul_div_le (d * speed) 1000000 ltac:(lia)).
  assert (0 <= d * speed / 1000000) by (apply Z.div_pos; nia).
  split; [nia|]. split; [nia|].
  intros. f_equal. nia.
Qed.

Lemma elapsed_u32 t t0 : t0 <= t -> 0 <= u32 (u32 t - u32 t0) <= t - t0.
Proof.
  intros. rewrite u32_sub_u32. unfold u32.
  split; [apply Z.mod_pos_bound; lia|apply Z.mod_le; lia].
Qed.

Lemma ch_step_ok v t0 t target speed : small v -> small target -> 0 <= speed <= 2147483647 ->
  let delta := slow_delta (u32 (u32 t - u32 t0)) speed in
  ch_step (Chs v (u32 t0)) (t, target, speed) = Some (Chs
    (if delta >? Z.abs (v - target) then target else if v <? target then v + delta else v - delta)
    (u32 t)).
Proof.
  unfold small. intros Hv Ht Hs. cbv zeta. unfold ch_step. cbn [ch_value ch_last].
  rewrite !chk_some by lia. cbn [bind]. rewrite chk_some by lia. cbn [bind].
  set (delta := slow_delta _ _).
  assert (0 <= delta) by (apply (slow_delta_ok _ speed); [apply u32_range|lia]).
  destruct (Z.gtb_spec delta (Z.abs (v - target))); auto.
  destruct (Z.ltb_spec v target); rewrite to_int_small by lia; reflexivity.
Qed.
Lemma ch_toward v t0 t target speed s' : small v -> small target -> 0 <= speed <= 2147483647 ->
  t0 <= t -> ch_step (Chs v (u32 t0)) (t, target, speed) = Some s' ->
  ch_last s' = u32 t /\
  (v <= target -> v <= ch_value s' <= target) /\
  (target <= v -> target <= ch_value s' <= v) /\
  1000000 * Z.abs (ch_value s' - v) <= speed * (t - t0).
Proof.
  intros Hv Ht Hs HT E. rewrite ch_step_ok in E by auto. inversion E; subst; clear E.
  cbn [ch_value ch_last].
  pose proof (elapsed_u32 t t0 HT) as EL.
  destruct (slow_delta_ok (u32 (u32 t - u32 t0)) speed ltac:(lia) Hs) as (A & B & _).
  set (delta := slow_delta _ _) in *. split; auto.
  destruct (Z.gtb_spec delta (Z.abs (v - target))); [nia|].
  destruct (Z.ltb_spec v target); nia.
Qed.

Lemma ch_run speed h : 0 <= speed <= 2147483647 -> Forall (fun i => small (snd i)) h ->
  forall v t0, small v -> mono_from t0 h ->
  exists w, run ch_steps (Some (Chs v (u32 t0))) (map (fun i => (fst i, snd i, speed)) h) =
    Some (Chs w (u32 (last (map fst h) t0))) /\ small w /\
  1000000 * Z.abs (w - v) <= speed * (last (map fst h) t0 - t0) /\ t0 <= last (map fst h) t0.
Proof.
  intros Hs H. induction H as [|[t tg] h Htg H IH]; intros v t0 Hv M.
  - exists v. cbn. split; auto. split; auto. rewrite !Z.sub_diag, Z.mul_0_r. cbn. lia.
  - cbn [mono_from map fst snd run] in *. destruct M as [M0 M].
    cbn [ch_steps bind].
    destruct (ch_step (Chs v (u32 t0)) (t, tg, speed)) as [s'|] eqn:E.
    2:{ rewrite ch_step_ok in E by auto. discriminate. }
    pose proof (ch_toward v t0 t tg speed s' Hv Htg Hs M0 E) as (L & A & B & C).
    destruct s' as [v' l']. cbn [ch_value ch_last] in *. subst l'.
    assert (small v') by (unfold small in *; lia).
    destruct (IH v' t H0 M) as (w & R & W & D & Q). exists w.
    assert (LT : last (t :: map fst h) t0 = last (map fst h) t).
    { destruct (map fst h) as [|x l]; [reflexivity|]. cbn [last]. clear.
      revert x; induction l; intros; cbn in *; auto. }
    rewrite LT. split; auto. split; auto. split; [nia|lia].
Qed.

Lemma ch_arrive_step v t0 t target speed g k s' : small v -> small target ->
  0 <= speed <= 2147483647 ->
  t0 + g <= t <= t0 + 1000000 -> 0 <= g -> 0 <= k -> 1000000 * k <= speed * g ->
  ch_step (Chs v (u32 t0)) (t, target, speed) = Some s' ->
  Z.abs (ch_value s' - target) <= Z.max 0 (Z.abs (v - target) - k).
Proof.
  intros Hv Ht Hs HT Hg Hk K E. rewrite ch_step_ok in E by auto. inversion E; subst; clear E.
  cbn [ch_value ch_last].
  assert (EL : u32 (u32 t - u32 t0) = t - t0) by (rewrite u32_sub_u32; apply u32_small; lia).
  rewrite EL.
  destruct (slow_delta_ok (t - t0) speed ltac:(lia) Hs) as (A & B & C).
  specialize (C ltac:(lia)). 
  assert (k <= slow_delta (t - t0) speed) by (rewrite C; apply Z.div_le_lower_bound; nia).
  set (delta := slow_delta _ _) in *.
  destruct (Z.gtb_spec delta (Z.abs (v - target))); [lia|].
  destruct (Z.ltb_spec v target); lia.
Qed.
Lemma ch_arrives speed target g k ts : small target -> 0 <= speed <= 2147483647 -> 0 <= g ->
  0 <= k -> 1000000 * k <= speed * g ->
  forall v t0, small v -> gaps g 1000000 t0 ts ->
  exists w l, run ch_steps (Some (Chs v (u32 t0))) (map (fun t => (t, target, speed)) ts) =
    Some (Chs w l) /\ Z.abs (w - target) <= Z.max 0 (Z.abs (v - target) - k * Z.of_nat (length ts)).
Proof.
  intros Ht Hs Hg Hk K. induction ts as [|t ts IH]; intros v t0 Hv G.
  - cbn. exists v, (u32 t0). split; auto. lia.
  - cbn [gaps map run] in *. destruct G as [G0 G]. cbn [ch_steps bind].
    destruct (ch_step (Chs v (u32 t0)) (t, target, speed)) as [s'|] eqn:E.
    2:{ rewrite ch_step_ok in E by auto. discriminate. }
    pose proof (ch_arrive_step v t0 t target speed g k s' Hv Ht Hs G0 Hg Hk K E) as D.
    pose proof (ch_toward v t0 t target speed s' Hv Ht Hs ltac:(lia) E) as (L & A & B & C).
    destruct s' as [v' l']. cbn [ch_value ch_last] in *. subst l'.
    assert (small v') by (unfold small in *; lia).
    destruct (IH v' t H G) as (w & l & R & W). exists w, l. split; auto.
    cbn [length]. nia.
Qed.
Lemma ch_stalls speed target g ts : small target -> 0 <= speed <= 2147483647 ->
  speed * g < 1000000 -> 0 <= g <= 1000000 ->
  forall v t0, small v -> gaps 0 g t0 ts ->
  exists l, run ch_steps (Some (Chs v (u32 t0))) (map (fun t => (t, target, speed)) ts) =
    Some (Chs v l).
Proof.
  intros Ht Hs K Hg. induction ts as [|t ts IH]; intros v t0 Hv G.
  - cbn. eauto.
  - cbn [gaps map run] in *. destruct G as [G0 G]. cbn [ch_steps bind].
    rewrite ch_step_ok by auto.
    assert (EL : u32 (u32 t - u32 t0) = t - t0) by (rewrite u32_sub_u32; apply u32_small; lia).
    rewrite EL.
    destruct (slow_delta_ok (t - t0) speed ltac:(lia) Hs) as (A & B & C).
    rewrite C by lia.
    assert (D0 : speed * (t - t0) / 1000000 = 0) by (apply Z.div_small; nia).
    rewrite D0. destruct (Z.gtb_spec 0 (Z.abs (v - target))); [lia|].
    rewrite Z.add_0_r, Z.sub_0_r. destruct (v <? target); apply IH; auto.
Qed.

(** Hold peak.  frames: (time, value) *)
Definition hpi (hold speed : Z) (i : Z * Z) : Z * Z * Z * Z := (fst i, snd i, hold, speed).
Lemma hp_step_ok v t0 p t cur hold speed : small v -> small cur -> 0 <= speed <= 1073741823 ->
  0 <= hold < 4294967296 -> t0 <= t -> p <= t ->
  let s' := hp_step (Hps v (u32 t0) (u32 (p / 1000))) (hpi hold speed (t, cur)) in
  hp_last s' = u32 t /\ small (hp_value s') /\ cur <= hp_value s' <= Z.max v cur /\
  1000000 * (v - hp_value s') <= speed * (t - t0) /\
  (t / 1000 - p / 1000 <= hold -> v <= hp_value s') /\
  (hp_peak s' = u32 (p / 1000) /\ hp_value s' <= v \/
   hp_peak s' = u32 (t / 1000) /\ hp_value s' = cur).
Proof.
  unfold small. intros Hv Hc Hs Hh HT HP. cbv zeta. unfold hp_step, hpi. cbn [fst snd].
  cbn [hp_value hp_last hp_peak].
  pose proof (elapsed_u32 t t0 HT) as EL.
  destruct (slow_delta_ok (u32 (u32 t - u32 t0)) speed ltac:(lia) ltac:(lia)) as (A & B & _).
  assert (DS : slow_delta (u32 (u32 t - u32 t0)) speed <= 1073741823).
  { unfold slow_delta. rewrite (Z.mod_small speed) by lia.
    set (el := u32 (u32 t - u32 t0)) in *.
    set (d := if el >? 1000000 then 1 else el).
    assert (0 <= d <= 1000000) by (subst d; destruct (Z.gtb_spec el 1000000); lia).
    rewrite Z.mod_small by nia. apply Z.div_le_upper_bound; nia. }
  set (delta := slow_delta _ _) in *.
  rewrite to_int_small by lia. rewrite (u32_small hold) by lia.
  assert (P1000 : p / 1000 <= t / 1000) by (apply Z.div_le_mono; lia).
  pose proof (elapsed_u32 (t / 1000) (p / 1000) P1000) as EM.
  set (v1 := if u32 (u32 (t / 1000) - u32 (p / 1000)) >? hold then v - delta else v).
  assert (V1 : v - delta <= v1 <= v /\ (t / 1000 - p / 1000 <= hold -> v1 = v)).
  { subst v1. destruct (Z.gtb_spec (u32 (u32 (t / 1000) - u32 (p / 1000))) hold); lia. }
  clearbody v1. destruct (Z.gtb_spec cur v1); cbn [hp_value hp_last hp_peak]; nia.
Qed.

Definition hp_from v t0 p : hps := Hps v (u32 t0) (u32 (p / 1000)).
Lemma hp_run hold speed h : 0 <= speed <= 1073741823 -> 0 <= hold < 4294967296 ->
  Forall (fun i => small (snd i)) h ->
  forall v t0 p, small v -> p <= t0 -> mono_from t0 h ->
  exists w p', run hp_step (hp_from v t0 p) (map (hpi hold speed) h) =
    hp_from w (last (map fst h) t0) p' /\ small w /\ p <= p' <= last (map fst h) t0 /\
    t0 <= last (map fst h) t0 /\
    1000000 * (v - w) <= speed * (last (map fst h) t0 - t0) /\
    (w <= Z.max v (fold_right Z.max v (map snd h))) /\
    (h <> [] -> snd (last h (0, 0)) <= w) /\
    (last (map fst h) t0 / 1000 - p / 1000 <= hold -> v <= w).
Proof.
  intros Hs Hh H. induction H as [|[t c] h Hc H IH]; intros v t0 p Hv HP M.
  - exists v, p. cbn. split; auto. split; auto. rewrite !Z.sub_diag, Z.mul_0_r.
    repeat split; try lia. congruence.
  - cbn [mono_from map run] in *. destruct M as [M0 M]. cbn [snd] in Hc.
    pose proof (hp_step_ok v t0 p t c hold speed Hv Hc Hs Hh M0 ltac:(lia)) as
      (L & SV & BD & SP & HO & PK). cbv zeta in *.
    unfold hp_from at 1. set (s' := hp_step _ _) in *.
    destruct s' as [v' l' k']. cbn [hp_value hp_last hp_peak] in *. subst l'.
    assert (exists p1, k' = u32 (p1 / 1000) /\ p <= p1 <= t /\ (p1 = p \/ p1 = t /\ v' = c)) as
      (p1 & -> & HP1 & HP2).
    { destruct PK as [[-> _]|[-> ?]]; [exists p|exists t]; split; auto; split; auto; lia. }
    destruct (IH v' t p1 SV ltac:(lia) M) as (w & p' & R & W & P' & T & S' & MX & LST & HOLD).
    exists w, p'.
    assert (LT : last (t :: map fst h) t0 = last (map fst h) t).
    { destruct (map fst h) as [|x l]; [reflexivity|]. cbn [last]. clear.
      revert x; induction l; intros; cbn in *; auto. }
    cbn [fst map]. change (map fst ((t, c) :: h)) with (t :: map fst h).
    rewrite LT. split; [exact R|]. split; auto. split; [lia|]. split; [lia|]. split; [lia|].
    split; [|split].
    + cbn [snd map fold_right]. 
      assert (FM : forall a b l, a <= b -> fold_right Z.max a l <= fold_right Z.max b l).
      { clear. intros a b l Hab. induction l; cbn; lia. }
      assert (FM2 : forall a l, a <= fold_right Z.max a l).
      { clear. intros a l. induction l; cbn; lia. }
      assert (FM3 : forall a c l, fold_right Z.max (Z.max a c) l = Z.max c (fold_right Z.max a l)).
      { clear. intros a c l. induction l; cbn; lia. }
      pose proof (FM v' (Z.max v c) (map snd h) ltac:(lia)) as F1. rewrite FM3 in F1.
      pose proof (FM2 v (map snd h)). lia.
    + intros _. destruct h as [|q h'].
      * cbn in R |- *. inversion R. subst. lia.
      * change (last ((t, c) :: q :: h') (0, 0)) with (last (q :: h') (0, 0)). apply LST. discriminate.
    + intros HH.
      assert (TL : t / 1000 <= last (map fst h) t / 1000) by (apply Z.div_le_mono; lia).
      assert (PP : p / 1000 <= p1 / 1000) by (apply Z.div_le_mono; lia).
      specialize (HO ltac:(lia)). specialize (HOLD ltac:(lia)). lia.
Qed.

(** Trigger *)
Definition ms_ok (x : Z) : Prop := 0 <= x <= 3294967.
Definition durs_ok (d : trd) : Prop :=
  ms_ok (td_delay d) /\ ms_ok (td_in d) /\ ms_ok (td_sustain d) /\ ms_ok (td_out d).
Definition t_len (d : trd) (k : Z) : Z := tr_millis d k * 1000.
Definition t_off (d : trd) (k : Z) : Z :=
  (if 0 <? k then 1000 * td_delay d else 0) + (if 1 <? k then 1000 * td_in d else 0) +
  (if 2 <? k then 1000 * td_sustain d else 0) + (if 3 <? k then 1000 * td_out d else 0).
Definition t_env (d : trd) : Z -> Z -> Prop :=
  envelope (1000 * td_delay d) (1000 * td_in d) (1000 * td_sustain d) (1000 * td_out d).
Definition t_inv (d : trd) (t0 t : Z) (s : trs) : Prop :=
  0 <= ts_state s <= 4 /\ ts_start s = u32 (t0 + t_off d (ts_state s)) /\
  t_off d (ts_state s) <= t - t0 /\
  (ts_state s < 4 -> t - t0 < t_off d (ts_state s) + t_len d (ts_state s)) /\
  t_env d (t - t0) (ts_value s).

Lemma len_ok d k : durs_ok d -> 0 <= k <= 3 -> 0 <= t_len d k <= 3294967000.
Proof.
  intros (A & B & C & D) K. unfold t_len, tr_millis, ms_ok in *.
  destruct (Z.eqb_spec k 0); [rewrite u32_small; lia|].
  destruct (Z.eqb_spec k 1); [rewrite u32_small; lia|].
  destruct (Z.eqb_spec k 2); [rewrite u32_small; lia|].
  destruct (Z.eqb_spec k 3); [rewrite u32_small; lia|]. lia.
Qed.
Lemma off_next d k : durs_ok d -> 0 <= k <= 3 -> t_off d (k + 1) = t_off d k + t_len d k.
Proof.
  intros (A & B & C & D) K. unfold t_len, tr_millis, ms_ok, t_off in *.
  assert (k = 0 \/ k = 1 \/ k = 2 \/ k = 3) as [->|[->|[->| ->]]] by lia; cbn [Z.eqb Z.ltb Z.compare Pos.compare Pos.compare_cont Z.add Pos.add Pos.eqb Pos.succ];
  rewrite u32_small; lia.
Qed.
Lemma off_pos d k : durs_ok d -> 0 <= t_off d k.
Proof.
  intros (A & B & C & D). unfold t_off, ms_ok in *.
  destruct (0 <? k), (1 <? k), (2 <? k), (3 <? k); lia.
Qed.
Lemma loop_ok d t0 t value : durs_ok d -> forall n k fuel tt,
  Z.of_nat n = 4 - k -> 0 <= k -> (S n <= fuel)%nat ->
  tt = t - t0 - t_off d k -> 0 <= tt -> tt < (if k <? 4 then t_len d k else 0) + 1000000000 ->
  exists s, tr_loop fuel d value k (u32 (t0 + t_off d k)) tt = Some s /\ t_inv d t0 t s.
Proof.
  intros OK. induction n as [|n IH]; intros k fuel tt Hn Hk Hf Ht H0 H1; destruct fuel as [|fuel]; try lia.
  - assert (k = 4) by lia. subst k. cbn [tr_loop].
    change (tr_millis d 4) with 1000000. change (u32 (1000000 * 1000)) with 1000000000.
    change (4 <? 4) with false in H1. cbv iota in H1.
    destruct (Z.ltb_spec tt 1000000000); [|lia]. cbn [Z.eqb Pos.eqb].
    eexists; split; [reflexivity|]. unfold t_inv. cbn [ts_state ts_start ts_value].
    split; [lia|]. split; [auto|]. split; [lia|]. split; [lia|].
    unfold t_env. apply env_after. unfold t_off in *. cbn in *. lia.
  - assert (K : 0 <= k <= 3) by lia.
    pose proof (len_ok d k OK K) as LK. pose proof (off_next d k OK K) as ON.
    assert (ML : u32 (tr_millis d k * 1000) = t_len d k) by (unfold t_len in *; apply u32_small; lia).
    cbn [tr_loop]. rewrite ML.
    replace (k <? 4) with true in H1 by lia. cbv iota in H1.
    destruct (Z.ltb_spec tt (t_len d k)) as [L|L].
    + assert (INV : forall v, t_env d (t - t0) v -> t_inv d t0 t (Trs v k (u32 (t0 + t_off d k)))).
      { intros v Hv. unfold t_inv. cbn [ts_state ts_start ts_value].
        split; [lia|]. split; auto. split; [lia|]. split; [lia|]. auto. }
      destruct OK as (O1 & O2 & O3 & O4). unfold ms_ok in *.
      assert (k = 0 \/ k = 1 \/ k = 2 \/ k = 3) as [->|[->|[->| ->]]] by lia;
        cbn [Z.eqb Pos.eqb]; (eexists; split; [reflexivity|apply INV]); unfold t_env;
        unfold t_off, t_len, tr_millis in *;
        cbn [Z.eqb Z.ltb Z.compare Pos.compare Pos.compare_cont Pos.eqb] in *;
        rewrite u32_small in * by lia.
      * apply env_before. lia.
      * set (m := td_in d * 1000) in *.
        pose proof (Z.div_mod (tt * 32768) m ltac:(lia)) as D.
        pose proof (Z.mod_pos_bound (tt * 32768) m ltac:(lia)) as B.
        apply env_rise; [lia|].
        replace (1000 * td_in d) with m by lia.
        replace (t - t0 - 1000 * td_delay d) with tt by lia. nia.
      * apply env_full. lia.
      * set (m := td_out d * 1000) in *.
        pose proof (Z.div_mod (tt * 32768 + m - 1) m ltac:(lia)) as D.
        pose proof (Z.mod_pos_bound (tt * 32768 + m - 1) m ltac:(lia)) as B.
        apply env_fall; [lia|].
        replace (1000 * td_out d) with m by lia.
        set (q := (tt * 32768 + m - 1) / m) in *.
        replace (1000 * td_delay d + 1000 * td_in d + 1000 * td_sustain d + m - (t - t0)) with
          (m - tt) by lia. nia.
    + assert (NEXT : exists s, tr_loop fuel d value ((k + 1) mod 256)
        (u32 (u32 (t0 + t_off d k) + t_len d k)) (u32 (tt - t_len d k)) = Some s /\ t_inv d t0 t s).
      { rewrite (Z.mod_small (k + 1)) by lia.
        replace (u32 (u32 (t0 + t_off d k) + t_len d k)) with (u32 (t0 + t_off d (k + 1))).
        2:{ rewrite ON. unfold u32. rewrite Z.add_mod_idemp_l by lia. f_equal. lia. }
        rewrite (u32_small (tt - t_len d k)) by lia.
        apply IH; try lia. destruct (Z.ltb_spec (k + 1) 4); [|lia].
        pose proof (len_ok d (k + 1) OK ltac:(lia)). lia. }
      exact NEXT.
Qed.
Lemma trig_start d s t0 : durs_ok d -> exists s', tr_step d s (t0, true) = Some s' /\ t_inv d t0 t0 s'.
Proof.
  intros OK. unfold tr_step. cbn [ts_state ts_start ts_value].
  change (0 =? 4) with false. cbv iota.
  replace (u32 (u32 t0 - u32 t0)) with 0 by (rewrite Z.sub_diag; reflexivity).
  assert (O0 : t_off d 0 = 0) by reflexivity.
  pose proof (loop_ok d t0 t0 (ts_value s) OK 4 0 600 0) as L.
  rewrite O0, Z.add_0_r in L. apply L; try lia.
  pose proof (len_ok d 0 OK ltac:(lia)). cbn [Z.ltb Z.compare]. lia.
Qed.
Lemma trig_next d s t0 t t' : durs_ok d -> t_inv d t0 t s -> t <= t' < t + 1000000000 ->
  exists s', tr_step d s (t', false) = Some s' /\ t_inv d t0 t' s'.
Proof.
  intros OK (A & B & C & D & E) HT. unfold tr_step. cbv beta iota zeta.
  destruct (Z.eqb_spec (ts_state s) 4) as [S4|S4].
  - eexists; split; [reflexivity|]. unfold t_inv. cbn [ts_state ts_start ts_value].
    rewrite S4 in *. split; [lia|]. split; auto. split; [lia|]. split; [lia|].
    apply env_after. change (t_off d 4) with (1000 * td_delay d + 1000 * td_in d + 1000 * td_sustain d + 1000 * td_out d) in C. lia.
  - specialize (D ltac:(lia)).
    assert (EQ : u32 (u32 t' - ts_start s) = t' - t0 - t_off d (ts_state s)).
    { rewrite B, u32_sub_u32. rewrite u32_small; [lia|].
      pose proof (len_ok d (ts_state s) OK ltac:(lia)). lia. }
    rewrite EQ. rewrite B.
    apply (loop_ok d t0 t' (ts_value s) OK (Z.to_nat (4 - ts_state s))); try lia.
    destruct (Z.ltb_spec (ts_state s) 4); lia.
Qed.
Lemma trig_run d t0 ts : durs_ok d -> forall t s, t_inv d t0 t s -> paced 999999999 t ts ->
  exists s', run (tr_steps d) (Some s) (map (fun t => (t, false)) ts) = Some s' /\
             t_inv d t0 (last ts t) s'.
Proof.
  intros OK. induction ts as [|t' ts IH]; intros t s I P.
  - cbn. eauto.
  - inversion P as [|? ? ? P1 P2]; subst. cbn [map run]. cbn [tr_steps bind].
    destruct (trig_next d s t0 t t' OK I ltac:(lia)) as (s' & E & I').
    rewrite E. destruct (IH t' s' I' P2) as (s2 & R & I2). exists s2. split; auto.
    replace (last (t' :: ts) t) with (last ts t'); auto.
    destruct ts as [|x l]; [reflexivity|]. cbn [last]. clear.
    revert x; induction l; intros; cbn in *; auto.
Qed.

(** Blinking *)
Lemma blink_run pm promille s0 ts : 0 < pm <= 2147483 ->
  forall k t, s0 + k * (1000 * pm) < t <= s0 + (k + 1) * (1000 * pm) \/ 
              (t = s0 + k * (1000 * pm)) ->
  paced (1000 * pm - 1) t ts -> Forall (fun x => s0 < x) ts -> 0 <= k ->
  (t = s0 + k * (1000 * pm) -> k = 0) ->
  forall i T o, nth_error ts i = Some T ->
  nth_error (run_outs blink_step (u32 (s0 + k * (1000 * pm))) (map (fun t => (t, pm, promille)) ts)) i = Some o ->
  exists j p, 0 < p <= 1000 * pm /\ T = s0 + j * (1000 * pm) + p /\
    o = (if p / pm <=? promille then 0 else 32768).
Proof.
  intros Hpm. induction ts as [|t' ts IH]; intros k t Hk P F K0 KZ i T o Hi Ho.
  { destruct i; discriminate. }
  inversion P as [|? ? ? P1 P2]; subst. inversion F as [|? ? F1 F2]; subst.
  set (PP := 1000 * pm) in *.
  cbn [map run_outs] in Ho.
  assert (STEP : exists k', (k' = k \/ k' = k + 1) /\
     s0 + k' * PP < t' <= s0 + (k' + 1) * PP /\
     blink_step (u32 (s0 + k * PP)) (t', pm, promille) =
     (u32 (s0 + k' * PP), if (t' - (s0 + k' * PP)) / pm <=? promille then 0 else 32768)).
  { assert (LT : s0 + k * PP < t').
    { destruct Hk as [Hk|Hk]; [lia|]. specialize (KZ Hk). subst k. lia. }
    unfold blink_step. rewrite (u32_small pm) by lia. 
    destruct (Z.leb_spec pm 0); [lia|].
    replace (u32 (u32 t' - u32 (s0 + k * PP))) with (t' - (s0 + k * PP)).
    2:{ rewrite u32_sub_u32, u32_small; lia. }
    rewrite (u32_small (pm * 1000)), (u32_small (pm * 2000)) by lia.
    replace (pm * 1000) with PP by lia. replace (pm * 2000) with (2 * PP) by lia.
    destruct (Z.gtb_spec (t' - (s0 + k * PP)) PP) as [G|G].
    - destruct (Z.ltb_spec (t' - (s0 + k * PP)) (2 * PP)) as [G2|G2]; [|lia].
      exists (k + 1). split; auto. split; [lia|].
      assert (E : u32 (u32 (s0 + k * PP) + PP) = u32 (s0 + (k + 1) * PP)).
      { unfold u32. rewrite Z.add_mod_idemp_l by lia. f_equal. lia. }
      rewrite E. f_equal.
      replace (u32 (u32 t' - u32 (s0 + (k + 1) * PP))) with (t' - (s0 + (k + 1) * PP)).
      2:{ rewrite u32_sub_u32, u32_small; lia. }
      rewrite to_int_small; [reflexivity|]. split.
      + assert (0 <= (t' - (s0 + (k + 1) * PP)) / pm) by (apply Z.div_pos; lia). lia.
      + apply Z.div_lt_upper_bound; lia.
    - exists k. split; auto. split; [lia|].
      f_equal.
      replace (u32 (u32 t' - u32 (s0 + k * PP))) with (t' - (s0 + k * PP)).
      2:{ rewrite u32_sub_u32, u32_small; lia. }
      rewrite to_int_small; [reflexivity|]. split.
      + assert (0 <= (t' - (s0 + k * PP)) / pm) by (apply Z.div_pos; lia). lia.
      + apply Z.div_lt_upper_bound; lia. }
  destruct STEP as (k' & K' & R & E). rewrite E in Ho.
  destruct i as [|i]; cbn [nth_error] in *.
  - inversion Hi; inversion Ho; subst. exists k', (T - (s0 + k' * PP)).
    split; [lia|]. split; [lia|]. reflexivity.
  - eapply (IH k' t'); eauto; lia.
Qed.

(** Strobe: one cycle is [off] dark milliseconds, then [on] lit ones. *)
Definition strobe_at (s0 off on k : Z) (st : bool) : Z :=
  s0 + k * (off + on) + (if st then off else 0).
Lemma strobe_run freq on s0 ts : 0 < freq <= 1000 -> 0 < on <= 1000000 ->
  let off := 1000 / freq in
  forall k st t, strobe_at s0 off on k st <= t <= strobe_at s0 off on k st + (if st then on else off) ->
  paced (Z.min on off) t ts -> Forall (fun x => s0 < x) ts ->
  (t = strobe_at s0 off on k st -> k = 0 /\ st = false) ->
  forall i T o, nth_error ts i = Some T ->
  nth_error (run_outs strobe_step (st, u32 (strobe_at s0 off on k st)) (map (fun t => (t, freq, on)) ts)) i = Some o ->
  exists j p, 0 < p <= off + on /\ T = s0 + j * (off + on) + p /\
    o = (if p <=? off then 0 else 32768).
Proof.
  intros Hf Ho off.
  assert (OFF : 1 <= off <= 1000) by
    (subst off; split; [apply Z.div_le_lower_bound|apply Z.div_le_upper_bound]; lia).
  induction ts as [|t' ts IH]; intros k st t Hk P F KZ i T o Hi Hoo.
  { destruct i; discriminate. }
  inversion P as [|? ? ? P1 P2]; subst. inversion F as [|? ? F1 F2]; subst.
  cbn [map run_outs] in Hoo.
  assert (STEP : exists k' st',
     strobe_at s0 off on k' st' < t' <= strobe_at s0 off on k' st' + (if st' then on else off) /\
     strobe_step (st, u32 (strobe_at s0 off on k st)) (t', freq, on) =
     ((st', u32 (strobe_at s0 off on k' st')), if st' then 32768 else 0)).
  { assert (LT : strobe_at s0 off on k st < t').
    { destruct (Z.eq_dec t (strobe_at s0 off on k st)) as [Q|Q]; [|lia].
      destruct (KZ Q); subst k st. unfold strobe_at in *. lia. }
    unfold strobe_step. rewrite (u32_small on), (u32_small freq) by lia.
    destruct (Z.leb_spec freq 0); [lia|]. fold off.
    set (a := strobe_at s0 off on k st) in *.
    replace (u32 (u32 t' - u32 a)) with (t' - a).
    2:{ rewrite u32_sub_u32, u32_small; destruct st; lia. }
    set (timeout := if st then on else off).
    destruct (Z.gtb_spec (t' - a) timeout) as [G|G].
    - exists (if st then k + 1 else k), (negb st).
      assert (E : u32 (u32 a + timeout) = u32 (strobe_at s0 off on (if st then k + 1 else k) (negb st))).
      { unfold u32. rewrite Z.add_mod_idemp_l by lia. f_equal. subst a timeout.
        unfold strobe_at. destruct st; cbn [negb]; lia. }
      rewrite E.
      assert (AT : strobe_at s0 off on (if st then k + 1 else k) (negb st) = a + timeout).
      { subst a timeout. unfold strobe_at. destruct st; cbn [negb]; lia. }
      rewrite AT in *.
      replace (u32 (u32 t' - u32 (a + timeout))) with (t' - (a + timeout)).
      2:{ rewrite u32_sub_u32, u32_small; subst timeout; destruct st; lia. }
      rewrite (u32_small (on + off)) by lia.
      destruct (Z.gtb_spec (t' - (a + timeout)) (on + off)) as [G2|G2].
      { exfalso. subst timeout. destruct st; lia. }
      split; [|destruct st; reflexivity].
      subst timeout. destruct st; cbn [negb]; lia.
    - exists k, st. split; [|destruct st; reflexivity]. fold a. subst timeout. lia. }
  destruct STEP as (k' & st' & R & E). rewrite E in Hoo.
  destruct i as [|i]; cbn [nth_error] in *.
  - inversion Hi; inversion Hoo; subst. unfold strobe_at in R.
    exists k', (T - (s0 + k' * (off + on))).
    destruct st'.
    + split; [lia|]. split; [lia|]. destruct (Z.leb_spec (T - (s0 + k' * (off + on))) off); [lia|auto].
    + split; [lia|]. split; [lia|]. destruct (Z.leb_spec (T - (s0 + k' * (off + on))) off); [auto|lia].
  - eapply (IH k' st' t'); eauto; lia.
Qed.

(** Sequence *)
Lemma flat_nth {A B} (f : A -> list B) n l i x : (0 < n)%nat ->
  (forall a, length (f a) = n) -> nth_error l (i / n) = Some x ->
  nth_error (flat_map f l) i = nth_error (f x) (i mod n).
Proof.
  intros Hn Hf. revert i; induction l as [|a l IH]; intros i Hi; cbn [flat_map].
  - destruct (i / n)%nat; discriminate.
  - destruct (Nat.lt_ge_cases i n) as [L|L].
    + rewrite Nat.div_small in Hi by auto. cbn in Hi. inversion Hi; subst.
      rewrite nth_error_app1 by (rewrite Hf; auto). now rewrite Nat.mod_small.
    + assert (i / n = S ((i - n) / n))%nat as E.
      { replace i with ((i - n) + 1 * n)%nat at 1 by lia. rewrite Nat.div_add by lia. lia. }
      rewrite E in Hi. cbn in Hi. rewrite nth_error_app2 by (rewrite Hf; lia). rewrite Hf.
      rewrite IH by auto.
      replace (i mod n)%nat with ((i - n) mod n)%nat; auto.
      replace i with ((i - n) + 1 * n)%nat at 2 by lia. rewrite Nat.mod_add by lia. reflexivity.
Qed.
Lemma word_bits_nth w k : (k < 16)%nat ->
  nth_error (word_bits w) k = Some (Z.testbit w (15 - Z.of_nat k)).
Proof.
  intros. unfold word_bits. rewrite nth_error_map. 
  rewrite (nth_error_nth' (seq 0 16) 0%nat) by (rewrite seq_length; auto).
  rewrite seq_nth by auto. reflexivity.
Qed.
Lemma lnot_low4 b : Z.land (Z.lnot b) 15 = 15 - b mod 16.
Proof.
  change 15 with (Z.ones 4) at 1. rewrite Z.land_ones by lia. change (2 ^ 4) with 16.
  unfold Z.lnot. pose proof (Z.div_mod b 16 ltac:(lia)). pose proof (Z.mod_pos_bound b 16 ltac:(lia)).
  symmetry. apply (Z.mod_unique_pos _ _ (- (b / 16) - 1)); lia.
Qed.
Lemma land1_testbit x k : 0 <= k -> Z.land (Z.shiftr x k) 1 = if Z.testbit x k then 1 else 0.
Proof.
  intros. change 1 with (Z.ones 1) at 1. rewrite Z.land_ones by lia. change (2 ^ 1) with 2.
  rewrite <- Z.bit0_mod, Z.shiftr_spec by lia. cbn [Z.add]. destruct (Z.testbit x k); reflexivity.
Qed.
Lemma seq_ok mpb bits ws t : 0 < mpb -> 0 < bits -> ws <> [] ->
  exists b, nth_error (all_bits ws)
      (Z.to_nat ((u32 t / mpb) mod Z.min bits (16 * Z.of_nat (length ws)))) = Some b /\
    seq_value mpb bits ws t = Some (if b then 32768 else 0).
Proof.
  intros Hm Hb Hw. unfold seq_value.
  assert (0 < length ws)%nat by (destruct ws; [congruence|cbn; lia]).
  rewrite (Z.mul_comm 16). set (n := Z.min bits (Z.of_nat (length ws) * 16)).
  replace ((mpb <=? 0) || (n <=? 0)) with false by lia.
  set (bit := (u32 t / mpb) mod n).
  pose proof (Z.mod_pos_bound (u32 t / mpb) n ltac:(lia)) as B. fold bit in B.
  rewrite Z.shiftr_div_pow2 by lia. change (2 ^ 4) with 16.
  assert (D : 0 <= bit / 16 < Z.of_nat (length ws)) by
    (split; [apply Z.div_pos; lia|apply Z.div_lt_upper_bound; lia]).
  destruct (nth_error ws (Z.to_nat (bit / 16))) as [w|] eqn:E.
  2:{ apply nth_error_None in E. lia. }
  exists (Z.testbit w (15 - bit mod 16)). split.
  - unfold all_bits.
    assert (DN : (Z.to_nat bit / 16)%nat = Z.to_nat (bit / 16)).
    { apply Nat2Z.inj. rewrite div_Zdiv by lia. rewrite !Z2Nat.id by lia. reflexivity. }
    rewrite (flat_nth word_bits 16 ws (Z.to_nat bit) w); try lia.
    + pose proof (Z.mod_pos_bound bit 16 ltac:(lia)).
      assert (MN : (Z.to_nat bit mod 16)%nat = Z.to_nat (bit mod 16)).
      { apply Nat2Z.inj. rewrite mod_Zmod by lia. rewrite !Z2Nat.id by lia. reflexivity. }
      rewrite MN, word_bits_nth by lia. rewrite Z2Nat.id by lia. reflexivity.
    + intros; unfold word_bits; rewrite map_length, seq_length; reflexivity.
    + rewrite DN. exact E.
  - rewrite lnot_low4. pose proof (Z.mod_pos_bound bit 16 ltac:(lia)).
    rewrite land1_testbit by lia. destruct (Z.testbit w (15 - bit mod 16)); reflexivity.
Qed.

(** Selection *)
Lemma sel_up_ok fuel f n : 0 < n -> - f <= Z.of_nat fuel ->
  0 <= sel_up fuel f n /\ sel_up fuel f n mod n = f mod n.
Proof.
  intros Hn. revert f; induction fuel as [|fuel IH]; intros f Hf; cbn [sel_up].
  - split; auto; lia.
  - destruct (Z.ltb_spec f 0).
    + destruct (IH (f + n * 256)) as [A B]; [lia|]. split; auto. rewrite B.
      rewrite (Z.mul_comm n). apply Z.mod_add. lia.
    + split; auto.
Qed.
Lemma select_ok f values : values <> [] ->
  fn_select f values = nth_error values (Z.to_nat (f mod Z.of_nat (length values))).
Proof.
  intros. unfold fn_select. assert (0 < length values)%nat by (destruct values; [congruence|cbn; lia]).
  replace (Z.of_nat (length values) =? 0) with false by lia.
  destruct (sel_up_ok (Z.to_nat (- f)) f (Z.of_nat (length values))) as [_ B]; try lia.
  now rewrite B.
Qed.
Lemma sel_get_ok fuel : forall values n, (length values <= fuel)%nat ->
  0 <= n < Z.of_nat (length values) -> nth_error values (Z.to_nat n) = Some (sel_get fuel values n).
Proof.
  induction fuel as [|fuel IH]; intros values n Hl Hn; [lia|].
  cbn [sel_get]. destruct values as [|v1 [|v2 vs]]; [cbn in Hn; lia| |].
  - cbn in Hn. assert (n = 0) by lia. subst. reflexivity.
  - set (l := v1 :: v2 :: vs) in *. set (h := (length l / 2)%nat).
    assert (2 <= length l)%nat by (subst l; cbn; lia).
    assert (H2 : (1 <= h < length l)%nat).
    { subst h. split; [apply Nat.div_le_lower_bound; lia|apply Nat.div_lt; lia]. }
    destruct (Z.ltb_spec n (Z.of_nat h)).
    + rewrite <- IH.
      * rewrite <- (firstn_skipn h l) at 1. rewrite nth_error_app1; auto.
        rewrite firstn_length. lia.
      * rewrite firstn_length. lia.
      * rewrite firstn_length. lia.
    + rewrite <- IH.
      * rewrite skipn_nth. f_equal. lia.
      * rewrite skipn_length. lia.
      * rewrite skipn_length. lia.
Qed.
Lemma selectx_ok f values : values <> [] -> 0 <= f < 4294967296 ->
  fn_selectx f values = nth_error values (Z.to_nat (f mod Z.of_nat (length values))).
Proof.
  intros. unfold fn_selectx. assert (0 < length values)%nat by (destruct values; [congruence|cbn; lia]).
  replace (Z.of_nat (length values) =? 0) with false by lia.
  rewrite u32_small by lia.
  pose proof (Z.mod_pos_bound f (Z.of_nat (length values)) ltac:(lia)).
  rewrite (sel_get_ok (length values)) by lia. reflexivity.
Qed.
