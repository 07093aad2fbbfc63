(** Proofs for SwingModel.v. *)
From Coq Require Import ZArith QArith Qabs List Bool Arith Lia ZifyBool Lqa Qround.
From Verif Require Import SwingModel SwingSpec.
Import ListNotations.
Local Open Scope Q_scope.

Lemma lt_spec x y : lt x y = true <-> x < y.
Proof.
  unfold lt. rewrite negb_true_iff. split; intros H.
  - apply Qnot_le_lt. intros L. apply Qle_bool_iff in L. congruence.
  - apply not_true_iff_false. rewrite Qle_bool_iff. lra.
Qed.
Lemma lt_false x y : lt x y = false <-> y <= x.
Proof. rewrite <- not_true_iff_false, lt_spec. split; lra. Qed.
Lemma half x : x / 2 == x * (1 # 2).
Proof. reflexivity. Qed.

(** * The loop follows the plan *)
Definition plan2 (a b : data) : plan := Plan (mid a) (wid a) (wid b) (sep a) (sep b).
Lemma ends_S p k : ends p (S k) = ends (rest p) k.
Proof. reflexivity. Qed.

Lemma turn_plan fuel : forall a b a' b', turn fuel a b = Some (a', b') ->
  exists k, (forall j, (j < k)%nat -> ends (plan2 a b) j < 0) /\ 0 <= end_ a' /\ k = k /\
    mid a' = m (nth_plan (plan2 a b) k) /\ wid a' = wx (nth_plan (plan2 a b) k) /\
    (pl a', pl b') = (if Nat.even k then (pl a, pl b) else (pl b, pl a)) /\
    sep a' = gx (nth_plan (plan2 a b) k) /\ wid b' = wy (nth_plan (plan2 a b) k) /\ sep b' = gy (nth_plan (plan2 a b) k).
Proof.
  induction fuel as [|n IH]; intros a b a' b' E; cbn [turn] in E; destruct (lt (end_ a) 0) eqn:L; try discriminate.
  - injection E as <- <-. exists 0%nat. apply lt_false in L. cbn. repeat split; auto. intros j J. lia.
  - apply IH in E. destruct E as (k & F & G & _ & M & W & P & S1 & W2 & S2). exists (S k).
    assert (R : plan2 (D (pl b) (mid a + sep a) (wid b) (sep b)) a = rest (plan2 a b)) by reflexivity.
    rewrite R in *. split; [|split; [exact G|split; [reflexivity|]]].
    + intros [|j] J; [apply lt_spec in L; exact L|]. rewrite ends_S. apply F. lia.
    + cbn [nth_plan]. split; [exact M|]. split; [exact W|]. split; [|auto].
      rewrite P. cbn [pl]. rewrite Nat.even_succ, <- Nat.negb_even. destruct (Nat.even k); reflexivity.
  - injection E as <- <-. exists 0%nat. apply lt_false in L. cbn. repeat split; auto. intros j J. lia.
Qed.

(** Plans that are the same up to having turned [r] degrees. *)
Definition ahead (p q : plan) (r : Q) : Prop := m q == m p - r /\ wx q = wx p /\ wy q = wy p /\ gx q = gx p /\ gy q = gy p.
Lemma ahead_rest p q r : ahead p q r -> ahead (rest p) (rest q) r.
Proof. intros (A & B & C & D & E). repeat split; cbn; auto. rewrite A, D. lra. Qed.
Lemma ahead_nth k : forall p q r, ahead p q r -> ahead (nth_plan p k) (nth_plan q k) r.
Proof. induction k as [|k IH]; intros p q r H; [exact H|]. apply IH, ahead_rest, H. Qed.
Lemma ahead_ends p q r k : ahead p q r -> ends q k == ends p k - r.
Proof. intros H. destruct (ahead_nth k p q r H) as (A & B & _). unfold ends. rewrite A, B. lra. Qed.
Lemma nth_plan_add p j k : nth_plan p (j + k) = nth_plan (nth_plan p j) k.
Proof. revert p. induction j as [|j IH]; intros p; [reflexivity|]. apply IH. Qed.
Lemma ends_add p j k : ends p (j + k) = ends (nth_plan p j) k.
Proof. unfold ends. now rewrite nth_plan_add. Qed.

Lemma done_mixab p k r a : passing p r k -> mid a == m (nth_plan p k) - r -> wid a = wx (nth_plan p k) -> mixab a == done p k r.
Proof.
  intros [_ P] M W. unfold mixab, done, begin_, starts, ends in *. rewrite W. set (w := wx (nth_plan p k)) in *. set (c := m (nth_plan p k)) in *.
  clearbody w c. pose proof (half w) as HW. set (h := w / 2) in *. clearbody h.
  destruct (Qle_bool r (c - h)) eqn:E.
  - apply Qle_bool_iff in E. replace (lt (mid a - h) 0) with false; [reflexivity|]. symmetry. apply lt_false. lra.
  - assert (N : c - h < r) by (apply Qnot_le_lt; rewrite <- Qle_bool_iff; congruence).
    replace (lt (mid a - h) 0) with true by (symmetry; apply lt_spec; lra).
    assert (W0 : 0 < w) by lra.
    assert (X : - (mid a - h) / w == (r - (c - h)) / w) by (rewrite M; apply Qdiv_comp; [lra|reflexivity]).
    set (x := - (mid a - h) / w) in *. assert (X1 : x <= 1) by (rewrite X; apply Qle_shift_div_r; lra).
    assert (X0 : 0 <= x) by (rewrite X; apply Qle_shift_div_l; lra).
    unfold clamp. replace (lt x 0) with false by (symmetry; apply lt_false; exact X0).
    replace (lt 1 x) with false by (symmetry; apply lt_false; exact X1). exact X.
Qed.
Lemma done_range p k r : passing p r k -> 0 <= done p k r <= 1.
Proof.
  intros [_ P]. unfold done, starts, ends in *. set (w := wx (nth_plan p k)) in *. set (c := m (nth_plan p k)) in *.
  clearbody w c. pose proof (half w) as HW. set (h := w / 2) in *. clearbody h.
  destruct (Qle_bool r (c - h)) eqn:E; [lra|].
  assert (N : c - h < r) by (apply Qnot_le_lt; rewrite <- Qle_bool_iff; congruence).
  split; [apply Qle_shift_div_l; lra|apply Qle_shift_div_r; lra].
Qed.

(** * One swing *)
(** The state after [r] degrees of the plan, the transition [k] to come. *)
Record follows (p : plan) (px py : option nat) (r : Q) (k : nat) (s : sw) : Prop := {
  f_ahead : ahead (nth_plan p k) (plan_of s) r;
  f_passed : forall j, (j < k)%nat -> ends p j < r;
  f_players : (pl (A s), pl (B s)) = if Nat.even k then (px, py) else (py, px) }.

Lemma swinging_follows c fuel s i d s' e p px py r k : follows p px py r k s -> 0 <= speed i -> (0 <= d)%Z ->
  swinging c fuel s i d = Some (s', e) ->
  exists k', follows p px py (r + speed i * (inject_Z d / 1000000)) k' s' /\ passing p (r + speed i * (inject_Z d / 1000000)) k' /\
    st s' = ON /\ is_on s' = is_on s /\ last_micros s' = last_micros s /\
    exists mx, mx == done p k' (r + speed i * (inject_Z d / 1000000)) /\
    let x := ducked i (pow c (fmin 1 (speed i / sens c)) * maxvol c) in
    e = (if is_on s then set_volume (A s') (x * mx) ++ set_volume (B s') (x * (1 - mx)) else []) ++ [Hum (1 - pow c (fmin 1 (speed i / sens c)) * duck c / 100)].
Proof.
  intros [FA FP FL] SP D0 E. unfold swinging in E. set (q := - speed i * inject_Z d / 1000000) in E.
  destruct (turn fuel (rotate (A s) q) (B s)) as [[a b]|] eqn:T; [|discriminate]. injection E as <- <-.
  apply turn_plan in T. destruct T as (j & F & G & _ & M & W & P & S1 & W2 & S2).
  set (q' := speed i * (inject_Z d / 1000000)). assert (QQ : q == - q') by (unfold q, q'; field).
  assert (Q0 : 0 <= q').
  { unfold q'. apply Qmult_le_0_compat; [exact SP|]. apply Qle_shift_div_l; [reflexivity|]. rewrite Qmult_0_l. change 0 with (inject_Z 0). rewrite <- Zle_Qle. exact D0. }
  assert (AH : ahead (nth_plan p k) (plan2 (rotate (A s) q) (B s)) (r + q')).
  { destruct FA as (x & y & z & u & v). repeat split; cbn in *; auto. rewrite x, QQ. lra. }
  assert (AJ : ahead (nth_plan p (k + j)) (nth_plan (plan2 (rotate (A s) q) (B s)) j) (r + q')).
  { rewrite nth_plan_add. apply ahead_nth. exact AH. }
  assert (PS : passing p (r + q') (k + j)).
  { split.
    - intros n N. destruct (Nat.lt_ge_cases n k) as [L|L]; [specialize (FP n L); lra|].
      replace n with (k + (n - k))%nat by lia. rewrite ends_add. specialize (F (n - k)%nat ltac:(lia)).
      rewrite (ahead_ends _ _ _ _ AH) in F. lra.
    - unfold end_ in G. rewrite M, W in G. destruct AJ as (x & y & _). unfold ends. rewrite x, y in G. lra. }
  exists (k + j)%nat. split; [|split; [exact PS|split; [reflexivity|split; [reflexivity|split; [reflexivity|]]]]].
  - constructor.
    + destruct AJ as (x & y & z & u & v). repeat split; cbn; try congruence.
    + apply PS.
    + cbn [A B]. rewrite P. cbn [rotate pl]. rewrite Nat.even_add. destruct (Nat.even k), (Nat.even j); cbn; injection FL as -> ->; reflexivity.
  - exists (mixab a). split; [|reflexivity]. apply done_mixab; [exact PS| |].
    + rewrite M. destruct AJ as (x & _). exact x.
    + rewrite W. destruct AJ as (_ & y & _). exact y.
Qed.

Lemma delta_dt s i : inject_Z (delta s i) / 1000000 = dt (last_micros s) (micros i) /\ (0 <= delta s i)%Z.
Proof.
  unfold delta, dt. cbv zeta. set (d := ((micros i - last_micros s) mod 2 ^ 32)%Z).
  assert (0 <= d)%Z by (apply Z.mod_pos_bound; reflexivity).
  destruct (1000000 <? d)%Z eqn:E; [replace (d <=? 1000000)%Z with false by lia|replace (d <=? 1000000)%Z with true by lia]; split; auto; lia.
Qed.

(** A motion that continues the swing. *)
Lemma motion_follows c fuel s i s' e p px py r k : st s = ON -> follows p px py r k s -> 0 <= speed i -> thr c * (9 # 10) <= speed i ->
  SB_Motion c fuel s i = Some (s', e) ->
  exists k', let r' := r + speed i * dt (last_micros s) (micros i) in
    follows p px py r' k' s' /\ passing p r' k' /\
    st s' = ON /\ is_on s' = is_on s /\ last_micros s' = micros i /\
    exists mx, mx == done p k' r' /\
    let x := ducked i (pow c (fmin 1 (speed i / sens c)) * maxvol c) in
    exists ac, (ac = [] \/ ac = [Accent]) /\
    e = ac ++ (if is_on s then set_volume (A s') (x * mx) ++ set_volume (B s') (x * (1 - mx)) else []) ++ [Hum (1 - pow c (fmin 1 (speed i / sens c)) * duck c / 100)].
Proof.
  intros O F SP TH E. unfold SB_Motion in E. cbn [st] in E. rewrite O in E. unfold case_on in E.
  replace (Qle_bool (thr c * (9 # 10)) (speed i)) with true in E by (symmetry; now apply Qle_bool_iff).
  destruct (swinging c fuel _ i (delta s i)) as [[s1 e1]|] eqn:SW; [|discriminate]. injection E as <- <-.
  destruct (delta_dt s i) as [DT D0].
  assert (F' : follows p px py r k (Sw (A s) (B s) (last_random s) (is_on s) (micros i) ON)) by (destruct F; constructor; assumption).
  apply (swinging_follows _ _ _ _ _ _ _ p px py r k F' SP D0) in SW.
  destruct SW as (k' & F1 & PS & S1 & O1 & L1 & mx & MX & E1). rewrite DT in *. exists k'. cbv zeta.
  split; [exact F1|]. split; [exact PS|]. split; [exact S1|]. split; [exact O1|]. split; [exact L1|]. exists mx. split; [exact MX|].
  eexists. split; [|rewrite E1; reflexivity]. destruct (_ && _); auto.
Qed.

Lemma run_app c fuel a : forall s b, run c fuel s (a ++ b) =
  match run c fuel s a with None => None | Some (s1, x) => match run c fuel s1 b with None => None | Some (s2, y) => Some (s2, x ++ y) end end.
Proof.
  induction a as [|o a IH]; intros s b; cbn.
  - destruct (run c fuel s b) as [[]|]; reflexivity.
  - destruct (step c fuel s o) as [[s1 e]|]; [|reflexivity]. rewrite IH. destruct (run c fuel s1 a) as [[s2 x]|]; [|reflexivity].
    destruct (run c fuel s2 b) as [[]|]; reflexivity.
Qed.

Lemma swing_follows c fuel p px py ms : forall s r k s' es, st s = ON -> follows p px py r k s ->
  Forall (fun i => 0 <= speed i /\ thr c * (9 # 10) <= speed i) ms -> run c fuel s (map Move ms) = Some (s', es) ->
  exists k' r', r' == r + turned (last_micros s) ms /\ follows p px py r' k' s' /\ st s' = ON /\ is_on s' = is_on s /\
    (last_micros s' = match rev ms with [] => last_micros s | i :: _ => micros i end).
Proof.
  induction ms as [|i ms IH]; intros s r k s' es O F FA E.
  - injection E as <- <-. exists k, r. cbn. repeat split; auto; try apply F. lra.
  - cbn [map run step] in E. destruct (SB_Motion c fuel s i) as [[s1 e]|] eqn:M; [|discriminate].
    inversion FA as [|? ? [S1 S2] FA']; subst.
    destruct (motion_follows _ _ _ _ _ _ p px py r k O F S1 S2 M) as (k1 & F1 & _ & O1 & I1 & L1 & _).
    destruct (run c fuel s1 (map Move ms)) as [[s2 es']|] eqn:R; [|discriminate]. injection E as <- <-.
    destruct (IH _ _ _ _ _ O1 F1 FA' R) as (k2 & r2 & R2 & F2 & O2 & I2 & L2). exists k2, r2. cbn [turned].
    rewrite L1 in R2. split; [rewrite R2; lra|]. split; [exact F2|]. split; [exact O2|]. split; [congruence|].
    rewrite L2, L1. change (rev (i :: ms)) with (rev ms ++ [i]). destruct (rev ms); reflexivity.
Qed.

Lemma follows0 s : follows (plan_of s) (pl (A s)) (pl (B s)) 0 0 s.
Proof. constructor; [repeat split; cbn; lra|intros j J; lia|reflexivity]. Qed.
Lemma follows_ext p px py r r' k s : r == r' -> follows p px py r k s -> follows p px py r' k s.
Proof.
  intros E [FA FP FL]. constructor; [|intros j J; rewrite <- E; auto|exact FL].
  destruct FA as (a & b). split; [rewrite a, E; reflexivity|exact b].
Qed.
Lemma passing_ext p r r' k : r == r' -> passing p r k -> passing p r' k.
Proof. intros E [a b]. split; [intros j J; rewrite <- E; auto|rewrite <- E; exact b]. Qed.
Lemma done_ext p k r r' : r == r' -> done p k r == done p k r'.
Proof.
  intros E. unfold done. rewrite (Qleb_comp _ _ E _ _ (Qeq_refl (starts p k))). destruct (Qle_bool r' (starts p k)); [reflexivity|].
  now rewrite E.
Qed.

(** * Smoothness *)
Lemma apart_rest p : apart p -> apart (rest p).
Proof. intros (A & B & C & D). unfold apart, rest; cbn. split; [exact B|split; [exact A|split; lra]]. Qed.
Lemma ends_next p : apart p -> ends p 0 + wy p <= ends p 1 /\ ends p 0 <= starts p 1.
Proof.
  intros (A & B & C & D). unfold ends, starts; cbn. pose proof (half (wx p)). pose proof (half (wy p)).
  set (hx := wx p / 2) in *. set (hy := wy p / 2) in *. clearbody hx hy. lra.
Qed.
Lemma done_S p k r : done p (S k) r = done (rest p) k r.
Proof. reflexivity. Qed.
Lemma passing_S p k r : passing p r (S k) -> passing (rest p) r k /\ ends p 0 < r.
Proof. intros [a b]. split; [split; [intros j J; apply (a (S j)); lia|exact b]|apply a; lia]. Qed.

(** Past the end of the first transition, the part of the first sound is one less at most the way since
    then over the smallest width; and likewise for the sign. *)
Definition w_min (p : plan) (w : Q) : Prop := 0 < w /\ w <= wx p /\ w <= wy p.
Lemma w_min_rest p w : w_min p w -> w_min (rest p) w.
Proof. unfold w_min; cbn; tauto. Qed.

Lemma div_le a b w : 0 < w -> a <= b -> a / w <= b / w.
Proof. intros W L. unfold Qdiv. apply Qmult_le_compat_r; [exact L|]. apply Qinv_le_0_compat. lra. Qed.
Lemma div_same w : 0 < w -> w / w == 1.
Proof. intros H. field. lra. Qed.
Lemma div_plus a b w : (a + b) / w == a / w + b / w.
Proof. unfold Qdiv. ring. Qed.
Lemma div_minus a b w : (a - b) / w == a / w - b / w.
Proof. unfold Qdiv. ring. Qed.

Lemma part_from_end k : forall p w r, apart p -> w_min p w -> passing p r (S k) ->
  1 - (r - ends p 0) / w <= part p (S k) r /\ part p (S k) r <= 1.
Proof.
  induction k as [|k IH]; intros p w r AP (W0 & WX & WY) PS.
  - destruct (ends_next p AP) as [E1 E2]. pose proof (done_range _ _ _ PS) as [DA DB]. destruct PS as [PA PB].
    specialize (PA 0%nat ltac:(lia)). unfold part. cbn [Nat.even]. split; [|lra].
    assert (G : done p 1 r <= (r - ends p 0) / w); [|lra].
    unfold done in *. destruct (Qle_bool r (starts p 1)) eqn:E.
    + apply Qle_shift_div_l; [exact W0|lra].
    + assert (N : starts p 1 < r) by (apply Qnot_le_lt; rewrite <- Qle_bool_iff; congruence).
      change (wx (nth_plan p 1)) with (wy p) in *.
      apply Qle_trans with ((r - starts p 1) / w); [|apply div_le; [exact W0|lra]].
      apply Qle_shift_div_l; [exact W0|]. apply Qle_trans with ((r - starts p 1) / wy p * wy p).
      * destruct (Qlt_le_dec 0 ((r - starts p 1) / wy p)) as [P0|P0].
        -- apply Qmult_le_l; [exact P0|exact WY].
        -- assert (Z0 : (r - starts p 1) / wy p == 0) by lra. rewrite Z0. lra.
      * assert (Y : (r - starts p 1) / wy p * wy p == r - starts p 1) by (field; lra). lra.
  - (* two ends passed: the way since the first end is at least a width, so only the range matters *)
    destruct (ends_next p AP) as [E1 E2]. pose proof (done_range _ _ _ PS) as [DA DB]. destruct (passing_S _ _ _ PS) as [PS' PA].
    destruct (passing_S _ _ _ PS') as [_ PB]. change (ends (rest p) 0) with (ends p 1) in PB.
    assert (G : 1 <= (r - ends p 0) / w) by (apply Qle_shift_div_l; [exact W0|lra]).
    unfold part. destruct (Nat.even (S (S k))); lra.
Qed.

Lemma done_lip p k r r' w : apart p -> w_min (nth_plan p k) w -> r <= r' -> passing p r k -> passing p r' k ->
  0 <= done p k r' - done p k r <= (r' - r) / w.
Proof.
  intros AP (W0 & WX & _) L PS PS'. unfold done. set (b := starts p k). set (v := wx (nth_plan p k)) in *. clearbody b v.
  assert (V0 : 0 < v) by lra.
  assert (G : forall x, 0 <= x -> x / v <= x / w).
  { intros x X. apply Qle_shift_div_l; [exact W0|]. apply Qle_trans with (x / v * v).
    - assert (X0 : 0 <= x / v) by (apply Qle_shift_div_l; lra). destruct (Qlt_le_dec 0 (x / v)) as [P0|P0].
      + apply Qmult_le_l; assumption.
      + assert (Z0 : x / v == 0) by lra. rewrite Z0. lra.
    - assert (Y : x / v * v == x) by (field; lra). lra. }
  destruct (Qle_bool r b) eqn:E, (Qle_bool r' b) eqn:E'; try (apply Qle_bool_iff in E); try (apply Qle_bool_iff in E').
  - split; [lra|]. ring_simplify (0 - 0). apply Qle_shift_div_l; lra.
  - assert (N : b < r') by (apply Qnot_le_lt; rewrite <- Qle_bool_iff; congruence).
    assert (X0 : 0 <= (r' - b) / v) by (apply Qle_shift_div_l; lra).
    specialize (G (r' - b) ltac:(lra)). pose proof (div_le (r' - b) (r' - r) w W0 ltac:(lra)). lra.
  - assert (N : b < r) by (apply Qnot_le_lt; rewrite <- Qle_bool_iff; congruence). lra.
  - assert (N : b < r) by (apply Qnot_le_lt; rewrite <- Qle_bool_iff; congruence).
    assert (Y : (r' - b) / v - (r - b) / v == (r' - r) / v) by (unfold Qdiv; ring).
    specialize (G (r' - r) ltac:(lra)). assert (X0 : 0 <= (r' - r) / v) by (apply Qle_shift_div_l; lra). lra.
Qed.

Lemma apart_nth k : forall p, apart p -> apart (nth_plan p k).
Proof. induction k as [|k IH]; intros p H; [exact H|]. apply IH, apart_rest, H. Qed.
Lemma w_min_nth k : forall p w, w_min p w -> w_min (nth_plan p k) w.
Proof. induction k as [|k IH]; intros p w H; [exact H|]. apply IH, w_min_rest, H. Qed.

Lemma part_rest p k r : part p (S k) r == 1 - part (rest p) k r.
Proof. unfold part. rewrite Nat.even_succ, <- Nat.negb_even, done_S. destruct (Nat.even k); cbn; ring. Qed.
Lemma part_range p k r : passing p r k -> 0 <= part p k r <= 1.
Proof. intros H. pose proof (done_range p k r H). unfold part. destruct (Nat.even k); lra. Qed.

Lemma part_lip k : forall p k' r r' w, apart p -> w_min p w -> r <= r' -> passing p r k -> passing p r' k' ->
  Qabs (part p k' r' - part p k r) <= (r' - r) / w.
Proof.
  induction k as [|k IH]; intros p k' r r' w AP WM L PS PS'.
  - destruct k' as [|k'].
    + unfold part. cbn [Nat.even]. destruct (done_lip p 0 r r' w AP WM L PS PS') as [A B]. rewrite Qabs_pos; assumption.
    + pose proof (part_from_end k' p w r' AP WM PS') as [A B]. pose proof (done_range _ _ _ PS) as [C D].
      assert (E : passing p (ends p 0) 0) by (split; [intros j J; lia|apply Qle_refl]).
      assert (LE : r <= ends p 0) by apply PS.
      destruct (done_lip p 0 r (ends p 0) w AP WM LE PS E) as [F G].
      assert (FULL : done p 0 (ends p 0) == 1).
      { unfold done, starts, ends. cbn [nth_plan]. destruct AP as (X & _). set (v := wx p) in *. pose proof (half v). set (h := v / 2) in *. clearbody h v.
        destruct (Qle_bool (m p + h) (m p - h)) eqn:Q; [apply Qle_bool_iff in Q; lra|].
        setoid_replace (m p + h - (m p - h)) with v by lra. apply div_same, X. }
      destruct PS' as [PA _]. specialize (PA 0%nat ltac:(lia)).
      assert (U : part p 0 r = done p 0 r) by reflexivity. rewrite U.
      pose proof (div_minus (r' - ends p 0) 0 w). pose proof (div_plus (r' - ends p 0) (ends p 0 - r) w) as DP.
      assert (DD : (r' - ends p 0 + (ends p 0 - r)) / w == (r' - r) / w) by (apply Qdiv_comp; [lra|reflexivity]).
      assert (N1 : 0 <= (r' - ends p 0) / w) by (destruct WM; apply Qle_shift_div_l; lra).
      assert (N2 : 0 <= (ends p 0 - r) / w) by (destruct WM; apply Qle_shift_div_l; lra).
      apply Qabs_Qle_condition. lra.
  - destruct k' as [|k'].
    + exfalso. destruct PS as [PA _], PS' as [_ PB]. specialize (PA 0%nat ltac:(lia)). lra.
    + rewrite !part_rest. destruct (passing_S _ _ _ PS) as [PS1 _]. destruct (passing_S _ _ _ PS') as [PS1' _].
      specialize (IH (rest p) k' r r' w (apart_rest p AP) (w_min_rest p w WM) L PS1 PS1').
      setoid_replace (1 - part (rest p) k' r' - (1 - part (rest p) k r)) with (- (part (rest p) k' r' - part (rest p) k r)) by ring.
      rewrite Qabs_opp. exact IH.
Qed.

(** * The loop ends *)
Lemma turn_mono n : forall n' a b x, turn n a b = Some x -> (n <= n')%nat -> turn n' a b = Some x.
Proof.
  induction n as [|n IH]; intros [|n'] a b x E L; cbn [turn] in *; destruct (lt (end_ a) 0); try discriminate; auto; try lia.
  apply IH; [exact E|lia].
Qed.
Lemma turn_ends_upto k : forall a b, 0 < sep a + sep b -> - end_ a <= inject_Z (Z.of_nat k) * (sep a + sep b) -> exists n x, turn n a b = Some x.
Proof.
  induction k as [|k IH]; intros a b S H.
  - exists 0%nat, (a, b). cbn [turn]. replace (lt (end_ a) 0) with false; [reflexivity|]. symmetry. apply lt_false. change (inject_Z (Z.of_nat 0)) with 0 in H. lra.
  - destruct (lt (end_ a) 0) eqn:E; [|exists 0%nat, (a, b); cbn [turn]; now rewrite E].
    set (a1 := D (pl b) (mid a + sep a) (wid b) (sep b)).
    destruct (lt (end_ a1) 0) eqn:E1; [|exists 1%nat, (a1, a); cbn [turn]; rewrite E; fold a1; now rewrite E1].
    set (a2 := D (pl a) (mid a1 + sep a1) (wid a) (sep a)).
    destruct (IH a2 a1) as (n & x & T).
    + cbn. exact S.
    + rewrite Nat2Z.inj_succ in H. unfold Z.succ in H. rewrite inject_Z_plus in H. unfold end_ in *. cbn [a1 a2 mid wid sep] in *. change (inject_Z 1) with 1 in H.
      pose proof (half (wid a)). set (h := wid a / 2) in *. clearbody h. ring_simplify in H. ring_simplify. lra.
    + exists (2 + n)%nat, x. cbn [Nat.add]. cbn [turn]. rewrite E. fold a1. rewrite E1. fold a2. exact T.
Qed.
Lemma turn_ends a b : 0 < sep a + sep b -> exists n x, turn n a b = Some x.
Proof.
  intros S. set (q := - end_ a / (sep a + sep b)). apply (turn_ends_upto (Z.to_nat (Qceiling q)) a b S).
  assert (X : - end_ a == q * (sep a + sep b)) by (unfold q; field; lra). rewrite X.
  rewrite !(Qmult_comm _ (sep a + sep b)). apply Qmult_le_l; [exact S|].
  apply Qle_trans with (inject_Z (Qceiling q)); [apply Qle_ceiling|]. rewrite <- Zle_Qle. lia.
Qed.
Lemma turn_hang fuel : forall a b, sep a <= 0 -> sep b <= 0 -> end_ a < 0 -> mid a + sep a + wid b / 2 < 0 -> turn fuel a b = None.
Proof.
  induction fuel as [|n IH]; intros a b S1 S2 E1 E2; cbn [turn]; replace (lt (end_ a) 0) with true by (symmetry; now apply lt_spec); [reflexivity|].
  apply IH; cbn; auto. unfold end_ in E1. lra.
Qed.
Lemma turn_sep n : forall a b a' b', turn n a b = Some (a', b') -> sep a' + sep b' == sep a + sep b.
Proof.
  induction n as [|n IH]; intros a b a' b' E; cbn [turn] in E; destruct (lt (end_ a) 0); try discriminate; try (injection E as <- <-; reflexivity).
  apply IH in E. cbn in E. rewrite E. ring.
Qed.
Lemma swinging_mono c n n' s i d x : (n <= n')%nat -> swinging c n s i d = Some x -> swinging c n' s i d = Some x.
Proof.
  intros L. unfold swinging. destruct (turn n _ (B s)) as [[a b]|] eqn:T; [|discriminate].
  now rewrite (turn_mono n n' _ _ _ T L).
Qed.
Lemma case_on_mono c n n' s i d x : (n <= n')%nat -> case_on c n s i d = Some x -> case_on c n' s i d = Some x.
Proof.
  intros L. unfold case_on. destruct (Qle_bool _ _); [|auto]. destruct (swinging c n s i d) as [y|] eqn:E; [|discriminate].
  now rewrite (swinging_mono c n n' s i d y L E).
Qed.
Lemma step_mono c n n' s o x : (n <= n')%nat -> step c n s o = Some x -> step c n' s o = Some x.
Proof.
  intros L. destruct o; auto. cbn [step]. unfold SB_Motion. cbn [st].
  destruct (st s); auto.
  - destruct (match pl _ with Some _ => _ | None => _ end) as [s1 e1]. destruct (lt (speed i) (thr c)); [auto|].
    destruct (case_on c n _ i _) as [y|] eqn:E; [|discriminate]. now rewrite (case_on_mono c n n' _ _ _ y L E).
  - now apply case_on_mono.
Qed.
Lemma run_mono c n n' os : forall s x, (n <= n')%nat -> run c n s os = Some x -> run c n' s os = Some x.
Proof.
  induction os as [|o os IH]; intros s x L; [auto|]. cbn [run]. destruct (step c n s o) as [[s1 e]|] eqn:E; [|discriminate].
  rewrite (step_mono c n n' s o _ L E). destruct (run c n s1 os) as [y|] eqn:R; [|discriminate]. now rewrite (IH s1 y L R).
Qed.
Definition seps (s : sw) : Q := sep (A s) + sep (B s).
Lemma pick_sep c s i : seps (fst (PickRandomSwing c s i)) == seps s.
Proof.
  unfold PickRandomSwing, seps. destruct (negb (is_on s)); [reflexivity|]. destruct (negb (humming i)); [reflexivity|].
  destruct (_ && _)%bool; [reflexivity|]. unfold play. destruct (match pl (A s) with Some p => Some p | None => _ end), (match pl (B s) with Some p => Some p | None => _ end), (swap i); cbn; ring.
Qed.
Lemma swinging_sep c n s i d s' e : swinging c n s i d = Some (s', e) -> seps s' == seps s.
Proof. unfold swinging. destruct (turn n _ (B s)) as [[a b]|] eqn:T; [|discriminate]. intros [= <- <-]. unfold seps. cbn. apply turn_sep in T. exact T. Qed.
Lemma case_on_sep c n s i d s' e : case_on c n s i d = Some (s', e) -> seps s' == seps s.
Proof.
  unfold case_on. destruct (Qle_bool _ _).
  - destruct (swinging c n s i d) as [[s1 e1]|] eqn:E; [|discriminate]. intros [= <- <-]. now apply swinging_sep in E.
  - unfold ending. pose proof (pick_sep c (Sw (A s) (B s) (last_random s) (is_on s) (last_micros s) OUT) (picking i)) as P.
    destruct (PickRandomSwing c _ _) as [s1 e1]. cbn [fst] in P. intros [= <- <-]. exact P.
Qed.
Lemma case_on_ends c s i d : 0 < seps s -> exists n x, case_on c n s i d = Some x.
Proof.
  intros S. unfold case_on. destruct (Qle_bool _ _).
  - unfold swinging. destruct (turn_ends (rotate (A s) (- speed i * inject_Z d / 1000000)) (B s) S) as (n & [a b] & T).
    exists n. rewrite T. eauto.
  - exists 0%nat. destruct (ending c s i). eauto.
Qed.
Lemma step_ends c s o : o <> Act -> 0 < seps s -> exists n s' e, step c n s o = Some (s', e) /\ seps s' == seps s.
Proof.
  intros NA S. destruct o as [| |i|b|i]; [congruence| | | |]; cbn [step].
  - exists 0%nat. eexists. eexists. split; [reflexivity|]. reflexivity.
  - exists 0%nat. pose proof (pick_sep c (Sw (A s) (B s) (last_random s) true (last_micros s) (st s)) i) as P. unfold SB_On.
    destruct (PickRandomSwing c _ _) as [s1 e1]. exists s1, e1. split; [reflexivity|exact P].
  - exists 0%nat. destruct b; cbn; eexists; eexists; split; reflexivity.
  - unfold SB_Motion. cbn [st]. set (s0 := Sw (A s) (B s) (last_random s) (is_on s) (micros i) (st s)). destruct (st s) eqn:ST.
    + set (q := match pl (A s0) with Some _ => _ | None => _ end).
      assert (P : seps (fst q) == seps s) by (unfold q; destruct (pl (A s0)), (pl (B s0)); try reflexivity; exact (pick_sep c s0 (picking i))).
      destruct q as [s1 e1]. cbn [fst] in P. destruct (lt (speed i) (thr c)); [exists 0%nat, s1; eexists; split; [reflexivity|exact P]|].
      assert (P1 : 0 < seps (Sw (A s1) (B s1) (last_random s1) (is_on s1) (last_micros s1) ON)) by (change (0 < seps s1); rewrite P; exact S).
      destruct (case_on_ends c _ i (delta s i) P1) as (n & [s2 e2] & E). exists n, s2. rewrite E. eexists. split; [reflexivity|].
      apply case_on_sep in E. rewrite E. exact P.
    + destruct (case_on_ends c s0 i (delta s i) S) as (n & [s2 e2] & E). exists n, s2, e2. split; [exact E|]. apply case_on_sep in E. exact E.
    + pose proof (pick_sep c s0 (picking i)) as P. destruct (PickRandomSwing c s0 (picking i)) as [s1 e1]. exists 0%nat. eexists. eexists. split; [reflexivity|exact P].
Qed.
Lemma run_ends c os : forall s, 0 < l2h c + h2l c -> seps s == l2h c + h2l c -> exists n x, run c n s os = Some x.
Proof.
  induction os as [|o os IH]; intros s S E; [exists 0%nat; cbn; eauto|].
  assert (X : exists n s' e, step c n s o = Some (s', e) /\ seps s' == l2h c + h2l c).
  { destruct o as [| |i|b|i]; [exists 0%nat; eexists; eexists; split; [reflexivity|reflexivity]| | | |];
    (match goal with |- exists n s' e, step c n s ?o = _ /\ _ => destruct (step_ends c s o ltac:(discriminate) ltac:(rewrite E; exact S)) as (n & s' & e & A1 & B1) end);
    exists n, s', e; (split; [exact A1|now rewrite B1]). }
  destruct X as (n & s' & e & A1 & B1). destruct (IH s' S B1) as (n2 & [s2 es] & R).
  exists (Nat.max n n2). cbn [run]. rewrite (step_mono c n (Nat.max n n2) s o _ ltac:(lia) A1), (run_mono c n2 (Nat.max n n2) os s' _ ltac:(lia) R). eauto.
Qed.

(** * Picking *)
Definition isON (s : state) : bool := match s with ON => true | _ => false end.
Lemma set_volume_ev d v : v = 0 -> Forall silent (set_volume d v).
Proof. intros ->. unfold set_volume. destruct (pl d); repeat constructor. Qed.
Lemma silent_nv x : silent x -> no_volume x.
Proof. destruct x; cbn; auto. Qed.
Lemma hums_app a b : hums (a ++ b) = hums a ++ hums b.
Proof. apply flat_map_app. Qed.
Lemma plays_app a b : plays (a ++ b) = plays a ++ plays b.
Proof. apply flat_map_app. Qed.
Lemma hums_set d v : hums (set_volume d v) = [].
Proof. unfold set_volume. now destruct (pl d). Qed.
Lemma plays_set d v : plays (set_volume d v) = [].
Proof. unfold set_volume. now destruct (pl d). Qed.

(** What a pick does. *)
Definition started (e : list event) : Prop :=
  forall p w n, In (Play p w n) e -> exists e1 e2, e = e1 ++ Vol p 0 :: Play p w n :: e2.
Definition pair (n : Z) (l : list (nat * which * Z)) : Prop :=
  exists a b, l = [] \/ l = [(a, Low, n)] \/ l = [(b, High, n)] \/ l = [(a, Low, n); (b, High, n)].
Lemma started_app e f : started e -> started f -> started (e ++ f).
Proof.
  intros S1 S2 p w n I. apply in_app_or in I. destruct I as [I|I].
  - destruct (S1 p w n I) as (a & b & ->). exists a, (b ++ f). rewrite <- app_assoc. reflexivity.
  - destruct (S2 p w n I) as (a & b & ->). exists (e ++ a), b. rewrite <- app_assoc. reflexivity.
Qed.
Lemma started_none e : plays e = [] -> started e.
Proof.
  intros P p w n I. exfalso. induction e as [|x e IH]; [elim I|]. destruct I as [->|I]; [discriminate P|].
  apply IH; [|exact I]. destruct x; try exact P. discriminate P.
Qed.
Definition some (o : option nat) : bool := match o with Some _ => true | None => false end.
Record picked (c : config) (s : sw) (i : pick) (s' : sw) (e : list event) : Prop := {
  p_on : is_on s' = is_on s; p_st : st s' = st s; p_mic : last_micros s' = last_micros s;
  p_off : is_on s = false -> e = [];
  p_hum : hums e = []; p_vol : Forall no_volume e; p_pair : pair (number i) (plays e); p_started : started e;
  p_keep : some (pl (A s)) = true -> some (pl (B s)) = true -> some (pl (A s')) = true /\ some (pl (B s')) = true;
  p_both : length (plays e) = 2%nat -> some (pl (A s')) = true /\ some (pl (B s')) = true;
  p_play : plays e <> [] -> is_on s = true /\ humming i = true /\ last_random s' = millis i /\
           (some (pl (A s)) = true -> (1000 <= (millis i - last_random s) mod 2 ^ 32)%Z);
  p_none : some (pl (A s)) = true -> plays e = [] -> last_random s' = last_random s }.
Lemma pick_picked c s i : picked c s i (fst (PickRandomSwing c s i)) (snd (PickRandomSwing c s i)).
Proof.
  unfold PickRandomSwing.
  assert (NO : picked c s i s []).
  { constructor; auto; try (intros; exfalso; auto; fail).
    - exists 0%nat, 0%nat. auto.
    - apply started_none. reflexivity.
    - discriminate. }
  destruct (is_on s) eqn:O; cbn [negb]; [|exact NO]. destruct (humming i) eqn:H; cbn [negb]; [|exact NO].
  fold (some (pl (A s))). destruct (some (pl (A s)) && _)%bool eqn:T; [exact NO|].
  assert (TT : some (pl (A s)) = true -> (1000 <= (millis i - last_random s) mod 2 ^ 32)%Z).
  { intros X. rewrite X in T. cbn [andb] in T. lia. }
  clear NO T. unfold play, stop, some in *.
  set (q := match pl (A s) with Some p => Some p | None => free1 i end).
  set (r := match pl (B s) with Some p => Some p | None => _ end).
  assert (Q1 : some (pl (A s)) = true -> q = pl (A s)) by (unfold q; destruct (pl (A s)); [auto|discriminate]).
  assert (R1 : some (pl (B s)) = true -> r = pl (B s)) by (unfold r; destruct (pl (B s)); [auto|discriminate]).
  assert (QN : q = None -> pl (A s) = None) by (unfold q; destruct (pl (A s)); [discriminate|auto]).
  assert (RN : r = None -> pl (B s) = None) by (unfold r; destruct (pl (B s)); [discriminate|auto]).
  clearbody q r.
  destruct q as [p|], r as [p'|]; try rewrite (QN eq_refl); try rewrite (RN eq_refl); clear Q1 R1;
    destruct (pl (A s)) as [x|] eqn:EA, (pl (B s)) as [y|] eqn:EB, (swap i); cbn [fst snd];
    constructor; cbn; auto; try discriminate; try congruence; try (intros; tauto);
    try (exists p, p'; tauto); try (exists p, p; tauto); try (exists p', p'; tauto); try (exists 0%nat, 0%nat; tauto);
    try (repeat constructor; fail);
    try (apply started_none; reflexivity);
    try (intros a b n0 I; repeat (destruct I as [I|I]; [try discriminate; injection I as <- <- <-|]); try (elim I)).
  all: try (match goal with |- exists e1 e2, ?l = e1 ++ Vol ?a 0 :: Play ?a ?w ?n :: e2 =>
    first [exists []; eexists; reflexivity | eexists [_]; eexists; reflexivity | eexists [_; _]; eexists; reflexivity
          | eexists [_; _; _]; eexists; reflexivity | eexists [_; _; _; _]; eexists; reflexivity] end).
  all: intros; rewrite ?EA in *; cbn [some] in *; try discriminate; repeat split; auto; try (specialize (QN eq_refl); congruence).
Qed.

(** * A motion *)
Definition hum_for (c : config) (g : bool) (i : motion) : Q :=
  if g then 1 - pow c (fmin 1 (speed i / sens c)) * duck c / 100 else 1.
Record moved (c : config) (s : sw) (i : motion) (s' : sw) (e : list event) (g : bool) : Prop := {
  m_st : st s' = if g then ON else OFF;
  m_on : is_on s' = is_on s;
  m_hum : exists e0, e = e0 ++ [Hum (hum_for c g i)] /\ hums e0 = [];
  m_vol : g = false -> Forall no_volume e;
  m_off : is_on s = false -> Forall silent e;
  m_pair : pair (number (picking i)) (plays e);
  m_started : started e;
  m_keep : some (pl (A s)) = true -> some (pl (B s)) = true -> some (pl (A s')) = true /\ some (pl (B s')) = true;
  m_both : length (plays e) = 2%nat -> some (pl (A s')) = true /\ some (pl (B s')) = true;
  m_play : plays e <> [] -> is_on s = true /\ humming (picking i) = true /\ last_random s' = millis (picking i) /\
           (some (pl (A s)) = true -> (1000 <= (millis (picking i) - last_random s) mod 2 ^ 32)%Z);
  m_none : some (pl (A s)) = true -> some (pl (B s)) = true -> plays e = [] -> last_random s' = last_random s }.

Lemma pair_nil n : pair n [].
Proof. exists 0%nat, 0%nat. auto. Qed.
Lemma forall_snoc {A} (P : A -> Prop) l x : Forall P l -> P x -> Forall P (l ++ [x]).
Proof. intros. apply Forall_app. auto. Qed.

Lemma swinging_moved c fuel s i d s' e : swinging c fuel s i d = Some (s', e) ->
  st s' = ON /\ is_on s' = is_on s /\ last_random s' = last_random s /\ plays e = [] /\
  (exists e0, e = e0 ++ [Hum (hum_for c true i)] /\ hums e0 = []) /\ (is_on s = false -> Forall silent e) /\
  (some (pl (A s)) = true -> some (pl (B s)) = true -> some (pl (A s')) = true /\ some (pl (B s')) = true).
Proof.
  unfold swinging. destruct (turn fuel _ (B s)) as [[a b]|] eqn:T; [|discriminate]. intros [= <- <-].
  apply turn_plan in T. destruct T as (k & _ & _ & _ & _ & _ & P & _). cbn [rotate pl] in P.
  split; [reflexivity|]. split; [reflexivity|]. split; [reflexivity|]. split.
  { destruct (is_on s); rewrite ?plays_app, ?plays_set; reflexivity. }
  split.
  { eexists. split; [reflexivity|]. destruct (is_on s); rewrite ?hums_app, ?hums_set; reflexivity. }
  split.
  { intros ->. repeat constructor. }
  intros H1 H2. cbn [A B]. destruct (Nat.even k); injection P as -> ->; auto.
Qed.

Definition acc (s : sw) (i : motion) : list event := if accent i && (playing (A s) i || playing (B s) i) then [Accent] else [].
Lemma acc_ok s i : plays (acc s i) = [] /\ hums (acc s i) = [] /\ Forall silent (acc s i).
Proof. unfold acc. destruct (_ && _); repeat constructor. Qed.

Lemma case_on_moved c fuel s i d s' e : st s = ON -> case_on c fuel s i d = Some (s', e) ->
  moved c s i s' e (Qle_bool (thr c * (9 # 10)) (speed i)).
Proof.
  intros ST. unfold case_on. fold (acc s i). destruct (acc_ok s i) as (AP & AH & AS).
  assert (AV : Forall no_volume (acc s i)) by (eapply Forall_impl; [|exact AS]; apply silent_nv).
  destruct (Qle_bool _ _).
  - destruct (swinging c fuel s i d) as [[s1 e1]|] eqn:E; [|discriminate]. intros [= <- <-].
    apply swinging_moved in E. destruct E as (A1 & A2 & A3 & A4 & (e0 & -> & A5) & A6 & A7).
    assert (PL : plays (acc s i ++ e0 ++ [Hum (hum_for c true i)]) = []) by (rewrite plays_app, AP, A4; reflexivity).
    constructor; auto.
    + exists (acc s i ++ e0). rewrite <- app_assoc. split; [reflexivity|]. rewrite hums_app, AH, A5. reflexivity.
    + discriminate.
    + intros O. apply Forall_app. auto.
    + rewrite PL. apply pair_nil.
    + apply started_none, PL.
    + rewrite PL. discriminate.
    + intros F. now elim F.
  - unfold ending. set (s0 := Sw (A s) (B s) (last_random s) (is_on s) (last_micros s) OUT).
    destruct (pick_picked c s0 (picking i)) as [P1 P2 P3 P4 P5 P6 P7 P8 P9 P10 P11 P12].
    destruct (PickRandomSwing c s0 (picking i)) as [s1 e1]. cbn [fst snd] in *. intros [= <- <-].
    set (z := set_volume (A s) 0 ++ set_volume (B s) 0).
    assert (ZS : Forall silent z) by (apply Forall_app; split; apply set_volume_ev; reflexivity).
    assert (ZV : Forall no_volume z) by (eapply Forall_impl; [|exact ZS]; apply silent_nv).
    assert (PL : plays (acc s i ++ z ++ e1 ++ [Hum 1]) = plays e1) by (unfold z; rewrite !plays_app, AP, !plays_set; cbn; apply app_nil_r).
    constructor; cbn [A B is_on st last_random]; auto.
    + exists (acc s i ++ z ++ e1). rewrite <- !app_assoc. split; [reflexivity|]. unfold z. rewrite !hums_app, AH, P5, !hums_set. reflexivity.
    + intros _. apply Forall_app. split; [exact AV|]. apply Forall_app. split; [exact ZV|]. apply forall_snoc; [exact P6|exact I].
    + intros O. rewrite (P4 O). apply Forall_app. split; [exact AS|]. apply Forall_app. split; [exact ZS|]. repeat constructor.
    + rewrite PL. exact P7.
    + apply started_app; [now apply started_none|]. apply started_app; [apply started_none; unfold z; rewrite plays_app, !plays_set; reflexivity|].
      apply started_app; [exact P8|]. apply started_none. reflexivity.
    + rewrite PL. exact P10.
    + rewrite PL. exact P11.
    + intros H1 H2. rewrite PL. intros H3. exact (P12 H1 H3).
Qed.

Lemma motion_moved c fuel s i s' e : 0 <= thr c -> st s <> OUT -> SB_Motion c fuel s i = Some (s', e) ->
  moved c s i s' e (goes_on c (isON (st s)) i).
Proof.
  intros T N. unfold SB_Motion. cbn [st]. set (s0 := Sw (A s) (B s) (last_random s) (is_on s) (micros i) (st s)).
  destruct (st s) eqn:ST; [| |congruence]; cbn [isON goes_on].
  - set (q := match pl (A s0) with Some _ => _ | None => _ end).
    assert (P : (picked c s0 (picking i) (fst q) (snd q)) /\ (some (pl (A s)) = true -> some (pl (B s)) = true -> q = (s0, []))).
    { unfold q. pose proof (pick_picked c s0 (picking i)) as K. cbn [A B s0] in *. destruct (pl (A s)) eqn:EA, (pl (B s)) eqn:EB; (split; [|try discriminate; auto]); try exact K.
      constructor; cbn; auto; try discriminate; try apply pair_nil; try (apply started_none; reflexivity); try (intros F; now elim F). }
    clearbody q. destruct q as [s1 e1]. cbn [fst snd] in P. destruct P as [[P1 P2 P3 P4 P5 P6 P7 P8 P9 P10 P11 P12] PQ].
    destruct (lt (speed i) (thr c)) eqn:L.
    + apply lt_spec in L. replace (Qle_bool (thr c) (speed i)) with false by (symmetry; apply not_true_iff_false; rewrite Qle_bool_iff; lra).
      intros [= <- <-]. assert (PL : plays (e1 ++ [Hum 1]) = plays e1) by (rewrite plays_app; cbn; apply app_nil_r).
      constructor; auto.
      * exists e1. auto.
      * intros _. apply forall_snoc; [exact P6|exact I].
      * intros O. rewrite (P4 O). repeat constructor.
      * rewrite PL. exact P7.
      * apply started_app; [exact P8|apply started_none; reflexivity].
      * rewrite PL. exact P10.
      * rewrite PL. exact P11.
      * intros H1 H2. rewrite PL. intros H3. exact (P12 H1 H3).
    + apply lt_false in L. replace (Qle_bool (thr c) (speed i)) with true by (symmetry; now apply Qle_bool_iff).
      set (s2 := Sw (A s1) (B s1) (last_random s1) (is_on s1) (last_micros s1) ON).
      destruct (case_on c fuel s2 i (delta s i)) as [[s3 e3]|] eqn:E; [|discriminate]. intros [= <- <-].
      assert (G : thr c * (9 # 10) <= speed i) by lra. apply Qle_bool_iff in G.
      unfold case_on in E. fold (acc s2 i) in E. rewrite G in E. destruct (swinging c fuel s2 i (delta s i)) as [[s4 e4]|] eqn:SW; [|discriminate]. injection E as <- <-.
      destruct (acc_ok s2 i) as (AP & AH & AS).
      apply swinging_moved in SW. destruct SW as (A1 & A2 & A3 & A4 & (e0 & -> & A5) & A6 & A7).
      assert (PL : plays (e1 ++ acc s2 i ++ e0 ++ [Hum (hum_for c true i)]) = plays e1) by (rewrite !plays_app in *; rewrite AP, A4; cbn; apply app_nil_r).
      cbn [A B s2 s0 is_on last_random] in *. constructor; cbn [A B]; auto.
      * congruence.
      * exists (e1 ++ acc s2 i ++ e0). rewrite <- !app_assoc. split; [reflexivity|]. rewrite !hums_app, P5, AH, A5. reflexivity.
      * discriminate.
      * intros O. rewrite (P4 O). cbn [app]. apply Forall_app. split; [exact AS|]. apply A6. congruence.
      * rewrite PL. exact P7.
      * apply started_app; [exact P8|]. apply started_app; [now apply started_none|now apply started_none].
      * intros H1 H2. destruct (P9 H1 H2). auto.
      * rewrite PL. intros H. destruct (P10 H). auto.
      * rewrite PL. intros H. rewrite A3. exact (P11 H).
      * intros H1 H2. rewrite PL. intros H3. rewrite A3. exact (P12 H1 H3).
  - intros E. apply case_on_moved in E; [|reflexivity]. destruct E. constructor; auto.
Qed.

(** * Histories *)
Definition good (c : config) (sws pow : bool) (s : sw) : Prop := st s = (if sws then ON else OFF) /\ is_on s = pow.
Lemma step_good c fuel s o s' e g pw : 0 <= thr c -> good c g pw s -> step c fuel s o = Some (s', e) ->
  good c (in_swing c g [o]) (powered pw [o]) s'.
Proof.
  intros T [S P] E. assert (N : st s <> OUT) by (rewrite S; destruct g; discriminate).
  destruct o as [| |i|[]|i]; cbn [step in_swing powered] in *.
  - injection E as <- <-. split; assumption.
  - injection E as <- <-. split; assumption.
  - injection E as E1. unfold SB_On in E1. destruct (pick_picked c (Sw (A s) (B s) (last_random s) true (last_micros s) (st s)) i) as [P1 P2 _ _ _ _ _ _ _ _ _ _].
    rewrite E1 in P1, P2. cbn in P1, P2. split; [now rewrite P2|exact P1].
  - injection E as <- <-. split; [exact S|reflexivity].
  - injection E as <- <-. split; assumption.
  - apply motion_moved in E; auto. destruct E as [M1 M2 _ _ _ _ _ _ _ _ _]. rewrite S in M1.
    replace (isON (if g then ON else OFF)) with g in M1 by (destruct g; reflexivity). split; [exact M1|congruence].
Qed.
Lemma in_swing_app c g a b : in_swing c g (a ++ b) = in_swing c (in_swing c g a) b.
Proof. revert g. induction a as [|[] a IH]; intros g; cbn; auto. Qed.
Lemma powered_app g a b : powered g (a ++ b) = powered (powered g a) b.
Proof. revert g. induction a as [|[| | |[]|] a IH]; intros g; cbn; auto. Qed.
Lemma run_good c fuel os : forall s s' es g pw, 0 <= thr c -> good c g pw s -> run c fuel s os = Some (s', es) ->
  good c (in_swing c g os) (powered pw os) s'.
Proof.
  induction os as [|o os IH]; intros s s' es g pw T G E; [injection E as <- <-; exact G|].
  cbn [run] in E. destruct (step c fuel s o) as [[s1 e]|] eqn:S1; [|discriminate].
  destruct (run c fuel s1 os) as [[s2 es']|] eqn:R; [|discriminate]. injection E as <- <-.
  pose proof (step_good _ _ _ _ _ _ _ _ T G S1) as G1. specialize (IH _ _ _ _ _ T G1 R).
  change (o :: os) with ([o] ++ os). rewrite in_swing_app, powered_app. exact IH.
Qed.
Lemma good0 c : good c false false sw0.
Proof. split; reflexivity. Qed.

Lemma strength_fmin c i : 0 < sens c -> fmin 1 (speed i / sens c) = strength c i.
Proof.
  intros S. unfold fmin, strength. destruct (Qle_bool (sens c) (speed i)) eqn:E.
  - apply Qle_bool_iff in E. replace (lt (speed i / sens c) 1) with false; [reflexivity|]. symmetry. apply lt_false. apply Qle_shift_div_l; lra.
  - assert (N : speed i < sens c) by (apply Qnot_le_lt; rewrite <- Qle_bool_iff; congruence).
    replace (lt (speed i / sens c) 1) with true; [reflexivity|]. symmetry. apply lt_spec. apply Qlt_shift_div_r; lra.
Qed.
Definition on_st (s : sw) : sw := Sw (A s) (B s) (last_random s) (is_on s) (last_micros s) ON.
Lemma motion_begin c fuel s i px py : st s = OFF -> pl (A s) = Some px -> pl (B s) = Some py -> thr c <= speed i ->
  SB_Motion c fuel s i = SB_Motion c fuel (on_st s) i.
Proof.
  intros S PX PY T. unfold SB_Motion. cbn [st on_st]. rewrite S. cbn [A B]. rewrite PX, PY.
  replace (lt (speed i) (thr c)) with false by (symmetry; now apply lt_false). cbn [last_random is_on last_micros A B on_st].
  change (delta (on_st s) i) with (delta s i). destruct (case_on c fuel _ i (delta s i)) as [[]|]; reflexivity.
Qed.
Lemma run_begin c fuel s ms px py : ms <> [] -> swings c s ms -> pl (A s) = Some px -> pl (B s) = Some py ->
  run c fuel s (map Move ms) = run c fuel (on_st s) (map Move ms).
Proof.
  intros N [_ [O|[O T]]] PX PY.
  - replace (on_st s) with s; [reflexivity|]. destruct s; cbn in O; subst. reflexivity.
  - destruct ms as [|i ms]; [congruence|]. cbn [map run step]. now rewrite (motion_begin c fuel s i px py).
Qed.
Lemma volume_of_hit p e w : volume_of p (Vol p w :: e) = match volume_of p e with Some x => Some x | None => Some w end.
Proof. cbn. destruct (volume_of p e); [reflexivity|]. now rewrite Nat.eqb_refl. Qed.

(** The volumes after a motion of the swing. *)
Lemma swing_volumes c fuel s i s1 e px py p r k : st s = ON -> is_on s = true -> px <> py -> 0 < sens c ->
  follows p (Some px) (Some py) r k s -> 0 <= speed i -> thr c * (9 # 10) <= speed i ->
  SB_Motion c fuel s i = Some (s1, e) ->
  exists k' v w, let r' := r + speed i * dt (last_micros s) (micros i) in
    follows p (Some px) (Some py) r' k' s1 /\ passing p r' k' /\ st s1 = ON /\ is_on s1 = true /\ last_micros s1 = micros i /\
    volume_of px e = Some v /\ volume_of py e = Some w /\
    v == loud c i * part p k' r' /\ w == loud c i * (1 - part p k' r').
Proof.
  intros ST O NE SE F S1 S2 M. destruct (motion_follows c fuel s i s1 e p _ _ r k ST F S1 S2 M) as (k' & F' & PS & ST' & O' & L' & mx & MX & ac & AC & E).
  rewrite O in *. rewrite (strength_fmin c i SE) in E. cbv zeta in *. fold (loud c i) in E. set (r' := r + speed i * dt (last_micros s) (micros i)) in *.
  exists k'. destruct F' as [FA FP FL]. pose proof FL as FL'. unfold set_volume in E. rewrite (surjective_pairing (if Nat.even k' then (Some px, Some py) else (Some py, Some px))) in FL'. injection FL' as PA PB.
  rewrite PA, PB in E. unfold part.
  assert (B1 : (px =? py)%nat = false) by (apply Nat.eqb_neq; exact NE).
  assert (B2 : (py =? px)%nat = false) by (apply Nat.eqb_neq; auto).
  destruct (Nat.even k') eqn:EV; cbn [fst snd app] in E; subst e.
  - exists (loud c i * mx), (loud c i * (1 - mx)). split; [constructor; auto; rewrite EV; exact FL|].
    split; [exact PS|]. split; [exact ST'|]. split; [exact O'|]. split; [exact L'|].
    split; [destruct AC as [->| ->]; cbn; rewrite ?B1, ?B2, ?Nat.eqb_refl; reflexivity|].
    split; [destruct AC as [->| ->]; cbn; rewrite ?B1, ?B2, ?Nat.eqb_refl; reflexivity|]. rewrite MX. split; reflexivity.
  - exists (loud c i * (1 - mx)), (loud c i * mx). split; [constructor; auto; rewrite EV; exact FL|].
    split; [exact PS|]. split; [exact ST'|]. split; [exact O'|]. split; [exact L'|].
    split; [destruct AC as [->| ->]; cbn; rewrite ?B1, ?B2, ?Nat.eqb_refl; reflexivity|].
    split; [destruct AC as [->| ->]; cbn; rewrite ?B1, ?B2, ?Nat.eqb_refl; reflexivity|]. rewrite MX. split; [reflexivity|ring].
Qed.
