(** Lemmas for AmpProps.v. *)
From Coq Require Import ZArith List Bool Lia ZifyBool ZifyNat.
From Verif Require Import Machine ArithModel AmpModel AmpSpec.
Import ListNotations.
Open Scope Z_scope.

(** What the loop functions change *)
Lemma AmpLoop_cases s : exists a', AmpLoop s = set_am s a' /\ last_enabled_ a' = last_enabled_ (am s) /\
  ( (on_ a' = on_ (am s) /\ pin a' = pin (am s) /\ (dac a' = dac (am s) \/ (on_ (am s) = false /\ dac a' = false)))
  \/ (AmpActive s = false /\ on_ a' = false /\ pin a' = false)).
Proof.
  assert (S0 : s = set_am s (am s)) by (destruct s; reflexivity).
  assert (O : exists a', amp_off s = set_am s a' /\ last_enabled_ a' = last_enabled_ (am s) /\
    ((on_ a' = on_ (am s) /\ pin a' = pin (am s) /\ dac a' = dac (am s)) \/ (AmpActive s = false /\ on_ a' = false /\ pin a' = false))).
  { unfold amp_off. destruct (AmpActive s) eqn:A.
    - eexists; split; [reflexivity|]. cbn. auto.
    - destruct (asleep _ _); eexists; (split; [reflexivity|]); cbn; auto. }
  assert (T : exists a', amp_top s = set_am s a' /\ last_enabled_ a' = last_enabled_ (am s) /\
    ((on_ a' = on_ (am s) /\ pin a' = pin (am s) /\ dac a' = dac (am s)) \/ (AmpActive s = false /\ on_ a' = false /\ pin a' = false))).
  { unfold amp_top. destruct (AmpActive s) eqn:A.
    - eexists; split; [reflexivity|]. cbn. auto.
    - destruct (asleep _ _).
      + eexists; split; [reflexivity|]. cbn. auto.
      + unfold amp_off. change (AmpActive (goto s A_sleep1 (u32 (millis s + 20)))) with (AmpActive s). rewrite A.
        destruct (asleep _ _); eexists; (split; [reflexivity|]); cbn; auto. }
  unfold AmpLoop. destruct (pc (am s)).
  - destruct T as (a' & -> & L & D). exists a'; split; [reflexivity|]; split; [exact L|]. tauto.
  - destruct (asleep _ _).
    + exists (am s). split; [exact S0|]. auto 6.
    + destruct O as (a' & -> & L & D). exists a'; split; [reflexivity|]; split; [exact L|]. tauto.
  - destruct (asleep _ _).
    + exists (am s). split; [exact S0|]. auto 6.
    + destruct (on_ (am s)) eqn:On.
      * destruct T as (a' & -> & L & D). exists a'; split; [reflexivity|]; split; [exact L|]. tauto.
      * eexists; split; [reflexivity|]. cbn. rewrite On. auto 7.
  - destruct (AmpActive s) eqn:A.
    + destruct T as (a' & -> & L & D). exists a'; split; [reflexivity|]; split; [exact L|]. tauto.
    + exists (am s). split; [exact S0|]. auto 6.
Qed.

Definition bsame (s : state) (b' : boost) : Prop :=
  blast_ b' = blast_ (bo s) /\
  ((bon_ b' = bon_ (bo s) /\ bpin b' = bpin (bo s)) \/ (BoosterActive s = false /\ bon_ b' = false /\ bpin b' = false)).
Lemma boost_for_cases n : forall s b, b = bo s -> exists b', boost_for n s = set_bo s b' /\ bsame s b'.
Proof.
  assert (O : forall s, exists b', boost_off s = set_bo s b' /\ bsame s b').
  { intros s. unfold boost_off. destruct (BoosterActive s) eqn:A; eexists; (split; [reflexivity|]);
      split; cbn; auto. }
  induction n as [|n IH]; intros s b E; cbn [boost_for]; [apply O|].
  destruct (BoosterActive s) eqn:A; [apply O|]. cbv zeta. destruct (asleep _ _).
  - eexists; split; [reflexivity|]. split; cbn; auto.
  - match goal with |- context [boost_for n ?x] => destruct (IH x _ eq_refl) as (b' & -> & B) end.
    exists b'. split; [reflexivity|]. exact B.
Qed.
Lemma BoosterLoop_cases s : exists b', BoosterLoop s = set_bo s b' /\ bsame s b'.
Proof.
  assert (S0 : s = set_bo s (bo s)) by (destruct s; reflexivity).
  assert (T : exists b', boost_top s = set_bo s b' /\ bsame s b').
  { unfold boost_top. destruct (BoosterActive s) eqn:A.
    - eexists; split; [reflexivity|]. split; cbn; auto.
    - match goal with |- context [boost_for 10 ?x] => destruct (boost_for_cases 10 x _ eq_refl) as (b' & -> & B) end.
      exists b'. split; [reflexivity|exact B]. }
  unfold BoosterLoop. destruct (bpc (bo s)); [exact T| |].
  - destruct (asleep _ _).
    + exists (bo s). split; [exact S0|]. split; auto.
    + cbv zeta. match goal with |- context [boost_for ?m ?x] => destruct (boost_for_cases m x _ eq_refl) as (b' & -> & B) end.
      exists b'. split; [reflexivity|exact B].
  - destruct (BoosterActive s) eqn:A; [exact T|].
    exists (bo s). split; [exact S0|]. split; auto.
Qed.
Lemma SDActive_cases s : exists c', snd (SDActive s) = set_sd s c' /\ mounted c' = mounted (sd s) /\
  (slast_ c' = slast_ (sd s) \/ slast_ c' = millis s) /\ last_mount_try_ c' = last_mount_try_ (sd s).
Proof.
  assert (S0 : s = set_sd s (sd s)) by (destruct s; reflexivity).
  unfold SDActive. destruct (AmpActive s || stream s); [eexists; (split; [reflexivity|]); cbn; auto|].
  destruct (lit s); [eexists; (split; [reflexivity|]); cbn; auto|].
  destruct (usb s); exists (sd s); (split; [exact S0|]); auto.
Qed.
Lemma delay0 s : delay s (Z.of_nat 0) = s.
Proof. destruct s. unfold delay. cbn. rewrite Z.add_0_r. reflexivity. Qed.
Lemma SDLoop_cases s can ok : exists c', SDLoop s can ok = set_sd s c' /\
  ((mounted (sd s) = true /\ fst (SDActive s) = false /\ mounted c' = false) \/
   ((mounted (sd s) = true -> mounted c' = true) /\ (slast_ c' = slast_ (sd s) \/ slast_ c' = millis s))).
Proof.
  unfold SDLoop. pose proof (SDActive_cases s) as (c & E & M & L & T). destruct (SDActive s) as [a s1]. cbn [fst snd] in *. subst s1.
  destruct (mounted (sd s)) eqn:Mo.
  - destruct a; eexists; (split; [reflexivity|]); cbn; [right; split; [congruence|auto]|left; auto].
  - destruct (a && _); [|eexists; (split; [reflexivity|]); right; split; [discriminate|auto]].
    destruct can; cbv zeta; [|eexists; (split; [reflexivity|]); right; split; [discriminate|auto]].
    unfold Mount. cbn [mounted sd set_sd]. rewrite M. rewrite delay0. eexists; split; [reflexivity|].
    right; split; [discriminate|cbn; auto].
Qed.

(** Time only grows *)
Lemma AmpEnable_clk s : clk s <= clk (AmpEnable s).
Proof. unfold AmpEnable, BoosterEnable. cbn. destruct (on_ (am s)); cbn; [lia|]. destruct (bon_ (bo s)); cbn; lia. Qed.
Lemma BoosterEnable_clk s : clk s <= clk (BoosterEnable s).
Proof. unfold BoosterEnable. destruct (bon_ (bo s)); cbn; lia. Qed.
Lemma Mount_clk s w ok : clk s <= clk (Mount s w ok).
Proof. unfold Mount. destruct (mounted (sd s)); cbn; lia. Qed.
Lemma step_clk s o : clk s <= clk (step s o).
Proof.
  destruct o; cbn [step]; try (cbn; lia); try apply AmpEnable_clk; try apply BoosterEnable_clk; try apply Mount_clk.
  - destruct (AmpLoop_cases s) as (a' & -> & _). cbn. lia.
  - destruct (BoosterLoop_cases s) as (a' & -> & _). cbn. lia.
  - destruct (SDLoop_cases s can ok) as (a' & -> & _). cbn. lia.
  - cbn. pose proof (AmpEnable_clk (Mount s w ok)). pose proof (Mount_clk s w ok). lia.
Qed.
Lemma run_clk ops : forall s, clk s <= clk (run step s ops).
Proof. induction ops as [|o ops IH]; intros s; cbn; [lia|]. pose proof (step_clk s o). pose proof (IH (step s o)). lia. Qed.
Lemma since_eq s T : 0 <= clk s - T < wrap -> since s (u32 T) = clk s - T.
Proof.
  intros H. unfold since, millis, u32. rewrite <- Zminus_mod. apply Z.mod_small. unfold wrap in H. lia.
Qed.
Lemma u32_small x : 0 <= x < wrap -> u32 x = x.
Proof. intros H. unfold u32. apply Z.mod_small. unfold wrap in H. lia. Qed.

(** Fields after enabling *)
Lemma AmpEnable_am s : let a := am (AmpEnable s) in
  on_ a = true /\ last_enabled_ a = millis s /\ dac a = true /\ pc a = pc (am s) /\ sleep_until_ a = sleep_until_ (am s) /\
  (pin a = if on_ (am s) then pin (am s) else true) /\ playing (AmpEnable s) = playing s.
Proof. unfold AmpEnable, BoosterEnable. cbn. destruct (on_ (am s)) eqn:E; cbn; [auto 10|]. destruct (bon_ (bo s)); cbn; auto 10. Qed.
Lemma BoosterEnable_am s : am (BoosterEnable s) = am s /\ playing (BoosterEnable s) = playing s.
Proof. unfold BoosterEnable. destruct (bon_ (bo s)); cbn; auto. Qed.
Lemma Mount_am s w ok : am (Mount s w ok) = am s /\ playing (Mount s w ok) = playing s /\ bo (Mount s w ok) = bo s.
Proof. unfold Mount. destruct (mounted (sd s)); cbn; auto. Qed.

(** A sound that plays has its amplifier *)
Definition inv (s : state) : Prop :=
  (on_ (am s) = true -> pin (am s) = true /\ dac (am s) = true) /\ (playing s = true -> on_ (am s) = true).
Lemma inv_step s o : inv s -> no_amp_off o -> inv (step s o).
Proof.
  intros [I1 I2] N. destruct o; cbn [step]; try (split; [exact I1|exact I2]).
  - destruct (AmpLoop_cases s) as (a' & -> & _ & C). split; cbn; intros H.
    + destruct C as [(A & B & [C|[C C']])|(A & B & C)].
      * rewrite A in H. destruct (I1 H). split; congruence.
      * congruence.
      * congruence.
    + destruct C as [(A & _)|(A & B & C)].
      * rewrite A. auto.
      * unfold AmpActive in A. rewrite H in A. discriminate.
  - destruct (BoosterLoop_cases s) as (a' & -> & _). split; cbn; auto.
  - destruct (SDLoop_cases s can ok) as (a' & -> & _). split; cbn; auto.
  - destruct (AmpEnable_am s) as (A & B & C & _ & _ & D & E). split.
    + intros _. split; auto. rewrite D. destruct (on_ (am s)) eqn:On; auto. apply I1; reflexivity.
    + auto.
  - destruct (AmpEnable_am (Mount s w ok)) as (A & B & C & _ & _ & D & E). split; cbn; [|auto].
    intros _. split; auto. rewrite D. destruct (Mount_am s w ok) as (-> & _). destruct (on_ (am s)) eqn:On; auto. apply I1; reflexivity.
  - split; cbn; [exact I1|discriminate].
  - destruct (BoosterEnable_am s) as [A B]. unfold inv. rewrite A, B. split; auto.
  - destruct (Mount_am s w ok) as (A & B & _). unfold inv. rewrite A, B. split; auto.
  - destruct (AmpEnable_am s) as (A & B & C & _ & _ & D & E). split.
    + intros _. split; auto. rewrite D. destruct (on_ (am s)) eqn:On; auto. apply I1; reflexivity.
    + auto.
  - exfalso. apply N. reflexivity.
  - destruct (BoosterEnable_am s) as [A B]. unfold inv. rewrite A, B. split; auto.
Qed.
Lemma inv_run ops : forall s, inv s -> Forall no_amp_off ops -> inv (run step s ops).
Proof.
  induction ops as [|o ops IH]; intros s I F; [exact I|]. inversion F; subst. cbn. apply IH; auto using inv_step.
Qed.
Lemma inv0 t : inv (state0 t).
Proof. split; discriminate. Qed.
Lemma powered t ops : Forall no_amp_off ops -> playing (after t ops) = true ->
  pin (am (after t ops)) = true /\ dac (am (after t ops)) = true.
Proof. intros F P. destruct (inv_run ops _ (inv0 t) F) as [A B]. auto. Qed.

(** It also has it for 30 ms after it was asked for *)
Definition fresh (t0 : Z) (s : state) : Prop :=
  on_ (am s) = true /\ exists T, t0 <= T <= clk s /\ last_enabled_ (am s) = u32 T.
Lemma AmpActive_fresh t0 s : fresh t0 s -> clk s < t0 + 30 -> AmpActive s = true.
Proof.
  intros (A & T & B & C) H. unfold AmpActive. rewrite C, since_eq by (unfold wrap; lia).
  destruct (playing s); cbn; [reflexivity|]. apply Z.ltb_lt. lia.
Qed.
Lemma fresh_enable t0 s : t0 <= clk s -> fresh t0 (AmpEnable s).
Proof.
  intros H. destruct (AmpEnable_am s) as (A & B & _). split; [exact A|]. exists (clk s).
  pose proof (AmpEnable_clk s). split; [lia|exact B].
Qed.
Lemma fresh_same t0 s s' : fresh t0 s -> am s' = am s -> clk s <= clk s' -> fresh t0 s'.
Proof. intros (A & T & B & C) E L. unfold fresh. rewrite E. split; [exact A|]. exists T. split; [lia|exact C]. Qed.
Lemma fresh_step t0 s o : fresh t0 s -> clk (step s o) < t0 + 30 -> fresh t0 (step s o).
Proof.
  intros F H. pose proof (step_clk s o) as M.
  destruct o; cbn [step] in *; try (eapply fresh_same; [exact F|reflexivity|exact M]).
  - pose proof (AmpActive_fresh t0 s F ltac:(lia)) as A. destruct F as (X & T & B & C).
    destruct (AmpLoop_cases s) as (a' & -> & L & [(D & _)|(D & _)]); [|congruence].
    split; cbn; [congruence|]. exists T. split; [cbn in M |- *; lia|congruence].
  - destruct (BoosterLoop_cases s) as (a' & E & _). rewrite E in *. eapply fresh_same; [exact F|reflexivity|exact M].
  - destruct (SDLoop_cases s can ok) as (a' & E & _). rewrite E in *. eapply fresh_same; [exact F|reflexivity|exact M].
  - apply fresh_enable. destruct F as (_ & T & B & _). lia.
  - apply (fresh_same t0 (AmpEnable (Mount s w ok))); [|reflexivity|cbn; lia]. apply fresh_enable.
    pose proof (Mount_clk s w ok). destruct F as (_ & T & B & _). lia.
  - eapply fresh_same; [exact F|apply BoosterEnable_am|exact M].
  - eapply fresh_same; [exact F|apply Mount_am|exact M].
  - apply fresh_enable. destruct F as (_ & T & B & _). lia.
  - destruct F as (X & T & B & C). split; [exact X|]. exists T. split; [cbn; lia|exact C].
  - eapply fresh_same; [exact F|apply BoosterEnable_am|exact M].
Qed.
Lemma fresh_run t0 ops : forall s, fresh t0 s -> clk (run step s ops) < t0 + 30 -> fresh t0 (run step s ops).
Proof.
  induction ops as [|o ops IH]; intros s F H; [exact F|]. cbn in *. apply IH; [|exact H].
  apply fresh_step; [exact F|]. pose proof (run_clk ops (step s o)). lia.
Qed.
Lemma fresh_enables s e : enables e = true -> fresh (clk s) (step s e).
Proof.
  destruct e; try discriminate; intros _; cbn [step]; try (apply fresh_enable; lia).
  eapply fresh_same; [apply fresh_enable|reflexivity|cbn; lia]. apply Mount_clk.
Qed.
Lemma ready t a e b : Forall no_amp_off (a ++ e :: b) -> enables e = true ->
  clk (after t (a ++ e :: b)) < clk (after t a) + 30 ->
  pin (am (after t (a ++ e :: b))) = true /\ dac (am (after t (a ++ e :: b))) = true.
Proof.
  intros F E H. destruct (inv_run _ _ (inv0 t) F) as [A _]. apply A. unfold after in *.
  rewrite run_app in *. cbn in *. apply (fresh_run (clk (run step (state0 t) a))); [|exact H].
  apply fresh_enables, E.
Qed.

(** The amplifier is switched off when it is no longer needed *)
(* the time of the last EnableAmplifier, if any *)
Definition enable_time (s : state) (o : op) : Z :=
  match o with Play w ok => clk (Mount s w ok) | _ => clk s end.
Lemma last_step s o : last_enabled_ (am (step s o)) = if enables o then u32 (enable_time s o) else last_enabled_ (am s).
Proof.
  destruct o; cbn [step enables enable_time]; try reflexivity; try apply AmpEnable_am.
  - destruct (AmpLoop_cases s) as (a' & -> & L & _). exact L.
  - destruct (BoosterLoop_cases s) as (a' & -> & _). reflexivity.
  - destruct (SDLoop_cases s can ok) as (a' & -> & _). reflexivity.
  - destruct (BoosterEnable_am s) as [-> _]. reflexivity.
  - destruct (Mount_am s w ok) as [-> _]. reflexivity.
  - destruct (BoosterEnable_am s) as [-> _]. reflexivity.
Qed.
Lemma last_run ops : forall s, Forall (fun o => enables o = false) ops ->
  last_enabled_ (am (run step s ops)) = last_enabled_ (am s).
Proof.
  induction ops as [|o ops IH]; intros s F; [reflexivity|]. inversion F; subst. cbn. rewrite IH by assumption.
  rewrite last_step. rewrite H1. reflexivity.
Qed.
(* bounds on what it remembers *)
Lemma u32_le x : 0 <= x -> 0 <= u32 x <= x.
Proof. intros H. unfold u32. split; [apply Z.mod_pos_bound; lia|apply Z.mod_le; lia]. Qed.

Lemma AmpLoop_sleep s : sleep_until_ (am (AmpLoop s)) = sleep_until_ (am s) \/ sleep_until_ (am (AmpLoop s)) = u32 (millis s + 20).
Proof.
  assert (O : forall u, let x := sleep_until_ (am (amp_off (goto s A_sleep1 u))) in x = u \/ x = u32 (millis s + 20)).
  { intros u. unfold amp_off. destruct (AmpActive _); [cbn; auto|]. destruct (asleep _ _); cbn; auto. }
  assert (O' : let x := sleep_until_ (am (amp_off s)) in x = sleep_until_ (am s) \/ x = u32 (millis s + 20)).
  { unfold amp_off. destruct (AmpActive _); [cbn; auto|]. destruct (asleep _ _); cbn; auto. }
  assert (T : let x := sleep_until_ (am (amp_top s)) in x = sleep_until_ (am s) \/ x = u32 (millis s + 20)).
  { unfold amp_top. destruct (AmpActive _); [cbn; auto|]. destruct (asleep _ _); [cbn; auto|].
    destruct (O (u32 (millis s + 20))); auto. }
  unfold AmpLoop. destruct (pc (am s)); [exact T| | |].
  - destruct (asleep _ _); auto.
  - destruct (asleep _ _); auto. destruct (on_ (am s)); auto.
  - destruct (AmpActive s); auto.
Qed.
(* bounds on what it remembers *)
Definition bounds (s : state) : Prop :=
  0 <= clk s /\ 0 <= last_enabled_ (am s) <= clk s /\ sleep_until_ (am s) <= clk s + 20.
(* operations that leave the amplifier's state alone, but for its pin *)
Lemma am_other s o : enables o = false -> o <> Amp_Loop ->
  last_enabled_ (am (step s o)) = last_enabled_ (am s) /\ on_ (am (step s o)) = on_ (am s) /\ dac (am (step s o)) = dac (am s) /\
  pc (am (step s o)) = pc (am s) /\ sleep_until_ (am (step s o)) = sleep_until_ (am s) /\
  (pin (am (step s o)) = pin (am s) \/ pin (am (step s o)) = false).
Proof.
  intros E N. destruct o; try discriminate; cbn [step]; try (cbn; auto 10; fail); try congruence.
  - destruct (BoosterLoop_cases s) as (a' & -> & _). cbn; auto 10.
  - destruct (SDLoop_cases s can ok) as (a' & -> & _). cbn; auto 10.
  - destruct (BoosterEnable_am s) as [-> _]. auto 10.
  - destruct (Mount_am s w ok) as [-> _]. auto 10.
  - destruct (BoosterEnable_am s) as [-> _]. auto 10.
Qed.
Lemma enables_am s o : enables o = true -> exists s', clk s <= clk s' <= clk (step s o) /\ am s' = am s /\ am (step s o) = am (AmpEnable s').
Proof.
  destruct o; try discriminate; intros _.
  - exists s. cbn [step]. pose proof (AmpEnable_clk s). repeat split; lia.
  - exists (Mount s w ok). pose proof (Mount_clk s w ok). pose proof (AmpEnable_clk (Mount s w ok)).
    split; [cbn; lia|]. split; [apply Mount_am|reflexivity].
  - exists s. cbn [step]. pose proof (AmpEnable_clk s). repeat split; lia.
Qed.
Lemma bounds_step s o : bounds s -> bounds (step s o).
Proof.
  intros (A & B & C). pose proof (step_clk s o) as M. unfold bounds. destruct (enables o) eqn:E.
  - destruct (enables_am s o E) as (s' & K & F & ->). destruct (AmpEnable_am s') as (_ & L & _ & _ & U & _).
    rewrite L, U, F. pose proof (u32_le (clk s') ltac:(lia)). unfold millis. lia.
  - assert (D : o = Amp_Loop \/ o <> Amp_Loop) by (destruct o; auto; right; discriminate). destruct D as [->|D].
    + pose proof (AmpLoop_sleep s) as SL. cbn [step] in *. destruct (AmpLoop_cases s) as (a' & E' & L & _). rewrite E' in *. cbn in *.
      rewrite L. pose proof (u32_le (clk s) ltac:(lia)). unfold millis in SL. pose proof (u32_le (u32 (clk s) + 20) ltac:(lia)). lia.
    + destruct (am_other s o E D) as (-> & _ & _ & _ & -> & _). lia.
Qed.
Lemma bounds_run ops : forall s, bounds s -> bounds (run step s ops).
Proof. induction ops as [|o ops IH]; intros s B; [exact B|]. cbn. apply IH, bounds_step, B. Qed.
Lemma bounds0 t : 0 <= t -> bounds (state0 t).
Proof. intros H. unfold bounds. cbn. pose proof (u32_le t H). lia. Qed.

(* the amplifier is never on when [on_] is false; in the last loop neither is the DAC *)
Definition inv2 (s : state) : Prop :=
  (on_ (am s) = false -> pin (am s) = false) /\ (pc (am s) = A_idle -> on_ (am s) = false -> dac (am s) = false).
Lemma AmpLoop_idle s : pc (am (AmpLoop s)) = A_idle ->
  (dac (am (AmpLoop s)) = false /\ on_ (am (AmpLoop s)) = false) \/ (AmpLoop s = s /\ AmpActive s = false).
Proof.
  assert (O : forall s, pc (am (amp_off s)) = A_idle -> dac (am (amp_off s)) = false /\ on_ (am (amp_off s)) = false).
  { intros s0. unfold amp_off. destruct (AmpActive _); [discriminate|]. destruct (asleep _ _); [discriminate|]. auto. }
  assert (T : pc (am (amp_top s)) = A_idle -> dac (am (amp_top s)) = false /\ on_ (am (amp_top s)) = false).
  { unfold amp_top. destruct (AmpActive _); [discriminate|]. destruct (asleep _ _); [discriminate|]. apply O. }
  unfold AmpLoop. destruct (pc (am s)) eqn:P; [auto| | |].
  - destruct (asleep _ _); [congruence|]. auto.
  - destruct (asleep _ _); [congruence|]. destruct (on_ (am s)) eqn:On; auto.
  - destruct (AmpActive s) eqn:A; auto.
Qed.
Lemma inv2_step s o : inv2 s -> inv2 (step s o).
Proof.
  intros (A & B). unfold inv2. destruct (enables o) eqn:E.
  - destruct (enables_am s o E) as (s' & _ & _ & ->). destruct (AmpEnable_am s') as (-> & _). split; discriminate.
  - assert (D : o = Amp_Loop \/ o <> Amp_Loop) by (destruct o; auto; right; discriminate). destruct D as [->|D].
    + cbn [step]. split.
      * destruct (AmpLoop_cases s) as (a' & -> & _ & [(X & Y & _)|(_ & X & Y)]); cbn; intros H; [|exact Y].
        rewrite Y. apply A. congruence.
      * intros P. destruct (AmpLoop_idle s P) as [[X _]|[X _]]; auto. rewrite X in *. auto.
    + destruct (am_other s o E D) as (_ & -> & -> & -> & _ & P). split; [|exact B]. intros H. destruct P as [->| ->]; auto.
Qed.
Lemma inv2_run ops : forall s, inv2 s -> inv2 (run step s ops).
Proof. induction ops as [|o ops IH]; intros s B; [exact B|]. cbn. apply IH, inv2_step, B. Qed.

(* never stuck, if the loop function comes soon enough *)
Lemma prompt_prefix l k n d t a b : prompt l k n d t (a ++ b) -> prompt l k n d t a.
Proof. intros P x e y c E. subst a. apply (P x e y (c ++ b)). rewrite <- !app_assoc. cbn. rewrite <- app_assoc. reflexivity. Qed.
Definition stuck (s : state) : Prop := pc (am s) = A_idle /\ on_ (am s) = true.
Lemma pending t ops : 0 <= t -> prompt Amp_Loop enables (fun s => playing s = true) 30 t ops -> stuck (after t ops) ->
  exists a e b, ops = a ++ e :: b /\ enables e = true /\ ~ In Amp_Loop b.
Proof.
  intros T0. induction ops as [|o ops IH] using rev_ind; intros P S; [destruct S; discriminate|].
  unfold after in S. rewrite run_snoc in S. destruct (enables o) eqn:E.
  { exists ops, o, []. auto. }
  assert (D : o = Amp_Loop \/ o <> Amp_Loop) by (destruct o; auto; right; discriminate). destruct D as [->|D].
  - cbn [step] in S. destruct S as [S1 S2]. destruct (AmpLoop_idle _ S1) as [[_ X]|[X Y]]; [congruence|].
    rewrite X in *. destruct (IH (prompt_prefix _ _ _ _ _ _ _ P) (conj S1 S2)) as (a & e & b & -> & Ee & N).
    exfalso. specialize (P a e b [Amp_Loop]). rewrite <- app_assoc in P. specialize (P eq_refl Ee N).
    destruct P as [P|P]; [unfold AmpActive in Y; unfold after in P; rewrite P in Y; discriminate|].
    assert (F : fresh (clk (after t a)) (run step (state0 t) (a ++ e :: b))).
    { unfold after in *. rewrite run_app in *. cbn in *. apply fresh_run; [|exact P]. apply fresh_enables, Ee. }
    rewrite (AmpActive_fresh _ _ F P) in Y. discriminate.
  - destruct (am_other (run step (state0 t) ops) o E D) as (_ & X & _ & Y & _). destruct S as [S1 S2]. rewrite X in S2. rewrite Y in S1.
    destruct (IH (prompt_prefix _ _ _ _ _ _ _ P) (conj S1 S2)) as (a & e & b & -> & Ee & N).
    exists a, e, (b ++ [o]). rewrite <- app_assoc. split; [reflexivity|]. split; [exact Ee|].
    intros H. apply in_app_or in H. destruct H as [H|[H|[]]]; auto.
Qed.

(* how many calls away from off *)
Definition rank (s : state) : nat :=
  match pc (am s), on_ (am s) with
  | A_playing, _ => 3 | A_sleep1, _ => 2 | A_sleep2, true => 3 | A_sleep2, false => 1 | A_idle, false => 0 | A_idle, true => 9
  end%nat.
Definition calm (s : state) : Prop := playing s = false /\ bounds s /\ last_enabled_ (am s) + 30 <= clk s.
Lemma calm_active s : calm s -> clk s + 20 < wrap -> AmpActive s = false /\ millis s = clk s.
Proof.
  intros (P & (B & C & D) & E) H. assert (M : millis s = clk s) by (apply u32_small; lia). split; [|exact M].
  unfold AmpActive. rewrite P. cbn. unfold since. rewrite M. rewrite u32_small by lia. apply Z.ltb_ge. lia.
Qed.
Lemma AmpLoop_rank s n : calm s -> clk s + 20 < wrap -> (rank s <= 3)%nat ->
  (rank (AmpLoop s) <= rank s)%nat /\
  ((rank s <= S n)%nat -> sleep_until_ (am s) <= clk s -> (rank (AmpLoop s) <= n)%nat) /\
  (rank (AmpLoop s) = rank s -> AmpLoop s = s).
Proof.
  intros C H R. destruct (calm_active s C H) as [A M].
  assert (AS : forall x, asleep s x = (clk s <? x)) by (intros x; unfold asleep; rewrite M; reflexivity).
  assert (U : u32 (millis s + 20) = clk s + 20). { rewrite M. apply u32_small. destruct C as (_ & (C & _) & _). lia. }
  assert (OFF : rank (amp_off s) = 1%nat).
  { unfold amp_off. rewrite A, U. unfold asleep at 1. change (millis _) with (millis s).
    rewrite M. replace (clk s <? clk s + 20) with true by (symmetry; apply Z.ltb_lt; lia). reflexivity. }
  assert (TOP : rank (amp_top s) = 2%nat).
  { unfold amp_top. rewrite A, U, AS. replace (clk s <? clk s + 20) with true by (symmetry; apply Z.ltb_lt; lia). reflexivity. }
  unfold AmpLoop. unfold rank in R |- *. destruct (pc (am s)) eqn:P.
  - fold (rank (amp_top s)). rewrite TOP. split; [lia|]. split; [lia|]. discriminate.
  - rewrite AS. destruct (clk s <? sleep_until_ (am s)) eqn:SL.
    + rewrite P. split; [lia|]. split; [intros; apply Z.ltb_lt in SL; lia|auto].
    + fold (rank (amp_off s)). rewrite OFF. split; [lia|]. split; [lia|discriminate].
  - rewrite AS. destruct (clk s <? sleep_until_ (am s)) eqn:SL.
    + rewrite P. split; [lia|]. split; [intros; apply Z.ltb_lt in SL; lia|auto].
    + destruct (on_ (am s)) eqn:On.
      * fold (rank (amp_top s)). rewrite TOP. split; [lia|]. split; [lia|discriminate].
      * cbn. rewrite On. split; [lia|]. split; [lia|discriminate].
  - rewrite A. destruct (on_ (am s)) eqn:On; [lia|]. rewrite P, ?On. split; [lia|]. split; [lia|auto].
Qed.
Lemma other_playing s o : enables o = false -> playing s = false -> playing (step s o) = false.
Proof.
  intros E P. destruct o; try discriminate; cbn [step]; try exact P.
  - destruct (AmpLoop_cases s) as (a' & -> & _). exact P.
  - destruct (BoosterLoop_cases s) as (a' & -> & _). exact P.
  - destruct (SDLoop_cases s can ok) as (a' & -> & _). exact P.
  - reflexivity.
  - destruct (BoosterEnable_am s) as [_ ->]. exact P.
  - destruct (Mount_am s w ok) as (_ & -> & _). exact P.
  - destruct (BoosterEnable_am s) as [_ ->]. exact P.
Qed.
Lemma calm_step s o : enables o = false -> calm s -> calm (step s o).
Proof.
  intros E (A & B & C). split; [apply other_playing; auto|]. split; [apply bounds_step, B|].
  rewrite last_step, E. pose proof (step_clk s o). lia.
Qed.
Lemma rank_step s o : enables o = false -> calm s -> clk s + 20 < wrap -> (rank s <= 3)%nat ->
  (rank (step s o) <= rank s)%nat /\ (rank (step s o) = rank s -> sleep_until_ (am (step s o)) = sleep_until_ (am s)).
Proof.
  intros E C H R. assert (D : o = Amp_Loop \/ o <> Amp_Loop) by (destruct o; auto; right; discriminate). destruct D as [->|D].
  - cbn [step]. destruct (AmpLoop_rank s 0 C H R) as (A & _ & B). split; [exact A|]. intros K. rewrite (B K). reflexivity.
  - unfold rank. destruct (am_other s o E D) as (_ & -> & _ & -> & -> & _). auto.
Qed.
Lemma rank_run ops : forall s, Forall (fun o => enables o = false) ops -> calm s -> clk (run step s ops) + 20 < wrap -> (rank s <= 3)%nat ->
  calm (run step s ops) /\ (rank (run step s ops) <= rank s)%nat /\
  (rank (run step s ops) = rank s -> sleep_until_ (am (run step s ops)) = sleep_until_ (am s)).
Proof.
  induction ops as [|o ops IH]; intros s F C H R; [auto|]. inversion F as [|? ? F1 F2]; subst. cbn [run] in *.
  pose proof (step_clk s o) as K1. pose proof (run_clk ops (step s o)) as K2.
  destruct (rank_step s o F1 C ltac:(lia) R) as [R1 R2].
  destruct (IH (step s o) F2 (calm_step s o F1 C) H ltac:(lia)) as (X & Y & Z).
  split; [exact X|]. split; [lia|]. intros E. rewrite Z by lia. apply R2. lia.
Qed.
Lemma rounds_rank n : forall s ops, Forall (fun o => enables o = false) ops -> calm s -> clk (run step s ops) + 20 < wrap ->
  (rank s <= 3)%nat -> (rank s <= n)%nat -> rounds Amp_Loop 20 n s ops -> rank (run step s ops) = 0%nat /\ calm (run step s ops).
Proof.
  induction n as [|n IH]; intros s ops F C H R N Q.
  - destruct (rank_run ops s F C H R) as (X & Y & _). split; [lia|exact X].
  - destruct Q as (b & c & -> & T & Q). apply Forall_app in F. destruct F as [F1 F2]. inversion F2 as [|? ? F3 F4]; subst.
    rewrite run_app in *. cbn [run] in *. set (s1 := run step s b) in *.
    pose proof (run_clk c (step s1 Amp_Loop)) as K1. pose proof (step_clk s1 Amp_Loop) as K2. cbn [step] in *.
    destruct (rank_run b s F1 C ltac:(fold s1; lia) R) as (C1 & R1 & S1). fold s1 in C1, R1, S1.
    destruct (AmpLoop_rank s1 n C1 ltac:(lia) ltac:(lia)) as (X & Y & _).
    replace (run step s (b ++ [Amp_Loop])) with (AmpLoop s1) in Q by (rewrite run_app; reflexivity).
    apply IH; auto; try lia.
    + apply (calm_step s1 Amp_Loop); auto.
    + assert (D : rank s1 = rank s \/ (rank s1 < rank s)%nat) by lia. destruct D as [D|D]; [|lia].
      apply Y; [lia|]. rewrite (S1 D). destruct C as (_ & (_ & _ & C) & _). lia.
Qed.
Lemma goes_off t a q b : 0 <= t -> prompt Amp_Loop enables (fun s => playing s = true) 30 t (a ++ q ++ b) -> Forall (fun o => enables o = false) (q ++ b) ->
  playing (after t a) = false -> clk (after t a) + 30 <= clk (after t (a ++ q)) ->
  rounds Amp_Loop 20 3 (after t (a ++ q)) b -> clk (after t (a ++ q ++ b)) + 20 < wrap ->
  pin (am (after t (a ++ q ++ b))) = false /\ dac (am (after t (a ++ q ++ b))) = false.
Proof.
  intros T0 P F PL K Q H.
  assert (B0 : bounds (after t a)) by (apply bounds_run, bounds0, T0).
  rewrite app_assoc in *. apply Forall_app in F. destruct F as [F1 F2].
  assert (C : calm (after t (a ++ q))).
  { split; [|split].
    - unfold after in *. rewrite run_app. generalize dependent (run step (state0 t) a). intros s PL _ _. revert s PL.
      clear - F1. induction q as [|o q IH]; intros s PL; [exact PL|]. inversion F1; subst. cbn. apply IH; auto. apply other_playing; auto.
    - apply bounds_run, bounds0, T0.
    - unfold after in *. rewrite run_app in *. rewrite last_run by exact F1. destruct B0 as (_ & B0 & _). lia. }
  assert (R : (rank (after t (a ++ q)) <= 3)%nat).
  { unfold rank. destruct (pc (am (after t (a ++ q)))) eqn:PC, (on_ (am (after t (a ++ q)))) eqn:On; try lia.
    exfalso. destruct (pending t (a ++ q) T0 (prompt_prefix _ _ _ _ _ _ _ P) (conj PC On)) as (x & e & y & E & Ee & N).
    rewrite E in P. rewrite <- app_assoc in P. cbn in P.
    destruct (P x e y b eq_refl Ee N) as [Z|Z]; rewrite <- E in Z.
    + destruct C as [C _]. congruence.
    + assert (L : clk (after t x) <= clk (after t a)).
      { assert (X : exists z, a = x ++ z).
        { clear - E Ee F1. revert x E. induction a as [|v a IH]; intros x E.
          - cbn in E. subst q. apply Forall_app in F1. destruct F1 as [_ F1]. inversion F1; congruence.
          - destruct x as [|w x]; [exists (v :: a); reflexivity|]. cbn in E. injection E as -> E.
            destruct (IH x E) as [z ->]. exists z. reflexivity. }
        destruct X as [z ->]. unfold after. rewrite run_app. apply run_clk. }
      lia. }
  unfold after in H |- *. rewrite run_app in H |- *.
  destruct (rounds_rank 3 _ b F2 C H R R Q) as [Z _]. unfold after in Z.
  set (s := run step (run step (state0 t) (a ++ q)) b) in *.
  assert (I2 : inv2 s). { apply inv2_run, inv2_run. split; auto. }
  destruct I2 as [I2 I3]. unfold rank in Z.
  destruct (pc (am s)) eqn:PC; [discriminate|discriminate| |]; destruct (on_ (am s)) eqn:On; try discriminate; auto.
Qed.

(** The booster *)
Definition binv (s : state) : Prop := bon_ (bo s) = bpin (bo s).
Lemma BoosterEnable_bo s : let b := bo (BoosterEnable s) in
  bon_ b = true /\ blast_ b = millis s /\ bpc b = bpc (bo s) /\ i_ b = i_ (bo s) /\ bsleep_until_ b = bsleep_until_ (bo s) /\
  (binv s -> bpin b = true).
Proof. unfold BoosterEnable, binv. destruct (bon_ (bo s)) eqn:E; cbn; auto 10. Qed.
Lemma AmpEnable_bo s : if on_ (am s) then bo (AmpEnable s) = bo s else
  exists s', clk s' = clk s /\ bo s' = bo s /\ bo (AmpEnable s) = bo (BoosterEnable s') /\ clk (AmpEnable s) >= clk (BoosterEnable s').
Proof.
  unfold AmpEnable. destruct (on_ (am s)) eqn:E; [reflexivity|].
  match goal with |- context [BoosterEnable ?x] => exists x end. cbn. repeat split; lia.
Qed.
(* an operation leaves the booster alone, is its loop, or enables it *)
Lemma bo_step s o : o <> BoosterOff -> o <> Booster_Loop ->
  bo (step s o) = bo s \/
  (asks_booster o = true /\ exists s', clk s <= clk s' <= clk (step s o) /\ bo s' = bo s /\ bo (step s o) = bo (BoosterEnable s')).
Proof.
  intros N1 N2. destruct o; try congruence; cbn [step]; try (left; reflexivity).
  - destruct (AmpLoop_cases s) as (a' & -> & _). left; reflexivity.
  - destruct (SDLoop_cases s can ok) as (a' & -> & _). left; reflexivity.
  - pose proof (AmpEnable_bo s) as A. destruct (on_ (am s)); [auto|]. right; split; [reflexivity|].
    destruct A as (s' & A & B & C & D). exists s'. pose proof (BoosterEnable_clk s'). pose proof (AmpEnable_clk s). repeat split; auto; lia.
  - pose proof (AmpEnable_bo (Mount s w ok)) as A. pose proof (Mount_clk s w ok). destruct (Mount_am s w ok) as (E & _ & F).
    destruct (on_ (am (Mount s w ok))); [left; cbn; congruence|]. right; split; [reflexivity|].
    destruct A as (s' & A & B & C & D). exists s'. pose proof (BoosterEnable_clk s').
    pose proof (AmpEnable_clk (Mount s w ok)). cbn [clk set_playing bo]. repeat split; auto; try lia. congruence.
  - right; split; [reflexivity|]. exists s. pose proof (BoosterEnable_clk s). repeat split; auto; lia.
  - destruct (Mount_am s w ok) as (_ & _ & ->). auto.
  - pose proof (AmpEnable_bo s) as A. destruct (on_ (am s)); [auto|]. right; split; [reflexivity|].
    destruct A as (s' & A & B & C & D). exists s'. pose proof (BoosterEnable_clk s'). pose proof (AmpEnable_clk s). repeat split; auto; lia.
  - right; split; [reflexivity|]. exists s. pose proof (BoosterEnable_clk s). repeat split; auto; lia.
Qed.
Lemma boosts_step s o : inv s -> boosts s o ->
  exists s', clk s <= clk s' <= clk (step s o) /\ bo s' = bo s /\ bo (step s o) = bo (BoosterEnable s').
Proof.
  intros I1 [->|[->|[E P]]].
  - exists s. pose proof (BoosterEnable_clk s). cbn [step]. repeat split; auto; lia.
  - exists s. pose proof (BoosterEnable_clk s). cbn [step]. repeat split; auto; lia.
  - assert (On : on_ (am s) = false). { destruct (on_ (am s)) eqn:On; auto. destruct I1 as [I1 _]. destruct (I1 On). congruence. }
    assert (X : forall s0, on_ (am s0) = false -> exists s', clk s0 <= clk s' <= clk (AmpEnable s0) /\ bo s' = bo s0 /\ bo (AmpEnable s0) = bo (BoosterEnable s')).
    { intros s0 O0. pose proof (AmpEnable_bo s0) as A. rewrite O0 in A. destruct A as (s' & A & B & C & D). exists s'.
      pose proof (BoosterEnable_clk s'). repeat split; auto; lia. }
    destruct o; try discriminate; cbn [step]; auto.
    destruct (Mount_am s w ok) as (E1 & _ & F1). destruct (X (Mount s w ok)) as (s' & A & B & C); [congruence|].
    exists s'. pose proof (Mount_clk s w ok). cbn [clk set_playing bo]. repeat split; auto; try lia; congruence.
Qed.
Lemma binv_step s o : binv s -> o <> BoosterOff -> binv (step s o).
Proof.
  intros I N. assert (D : o = Booster_Loop \/ o <> Booster_Loop) by (destruct o; auto; right; discriminate). destruct D as [->|D].
  - cbn [step]. destruct (BoosterLoop_cases s) as (b' & -> & _ & C). unfold binv in *. cbn. destruct C as [[A B]|(_ & A & B)]; congruence.
  - unfold binv. destruct (bo_step s o N D) as [->|(_ & s' & _ & E & ->)]; [exact I|].
    destruct (BoosterEnable_bo s') as (A & _ & _ & _ & _ & B). rewrite A, B; auto. unfold binv. rewrite E. exact I.
Qed.
Lemma binv_run ops : forall s, binv s -> Forall no_booster_off ops -> binv (run step s ops).
Proof. induction ops as [|o ops IH]; intros s I F; [exact I|]. inversion F; subst. cbn. apply IH; auto using binv_step. Qed.
Lemma binv0 t : binv (state0 t).
Proof. reflexivity. Qed.

Definition bfresh (t0 : Z) (s : state) : Prop :=
  bon_ (bo s) = true /\ exists T, t0 <= T <= clk s /\ blast_ (bo s) = u32 T.
Lemma bfresh_enable t0 s s' : t0 <= clk s' <= clk s -> bo s = bo (BoosterEnable s') -> bfresh t0 s.
Proof.
  intros L E. unfold bfresh. rewrite E. destruct (BoosterEnable_bo s') as (A & B & _). split; [exact A|].
  exists (clk s'). split; [lia|exact B].
Qed.
Lemma BoosterActive_fresh t0 s : bfresh t0 s -> wants_booster s \/ clk s < t0 + 10000 -> BoosterActive s = true.
Proof.
  intros (A & T & B & C) H. unfold BoosterActive, AmpActive, NeedsPower. destruct H as [[H|[H|[H|H]]]|H].
  - rewrite H. reflexivity.
  - rewrite H. cbn. rewrite orb_true_r. reflexivity.
  - rewrite H. rewrite !orb_true_r. reflexivity.
  - rewrite H. apply orb_true_r.
  - rewrite C. rewrite (since_eq s T) by (unfold wrap; lia).
    replace (clk s - T <? 10000) with true by (symmetry; apply Z.ltb_lt; lia). rewrite orb_true_r. reflexivity.
Qed.
Lemma bfresh_step t0 s o : bfresh t0 s -> o <> BoosterOff -> wants_booster s \/ clk s < t0 + 10000 -> bfresh t0 (step s o).
Proof.
  intros F N H. pose proof (step_clk s o) as M.
  assert (D : o = Booster_Loop \/ o <> Booster_Loop) by (destruct o; auto; right; discriminate). destruct D as [->|D].
  - pose proof (BoosterActive_fresh t0 s F H) as A. cbn [step] in *. destruct F as (X & T & B & C).
    destruct (BoosterLoop_cases s) as (b' & E & L & [[Y _]|[Y _]]); [|congruence]. rewrite E in *.
    split; cbn; [congruence|]. exists T. cbn in M. split; [lia|congruence].
  - destruct (bo_step s o N D) as [E|(_ & s' & L & _ & E)].
    + destruct F as (X & T & B & C). unfold bfresh. rewrite E. split; [exact X|]. exists T. split; [lia|exact C].
    + apply (bfresh_enable _ _ s'); [|exact E]. destruct F as (X & T & B & C). lia.
Qed.
Lemma bfresh_run t0 ops : forall s, bfresh t0 s -> Forall no_booster_off ops ->
  throughout (fun s => wants_booster s \/ clk s < t0 + 10000) s ops -> bfresh t0 (run step s ops).
Proof.
  induction ops as [|o ops IH]; intros s F N H; [exact F|]. inversion N; subst. cbn. apply IH; auto.
  - apply bfresh_step; auto. apply (H [] (o :: ops)). reflexivity.
  - intros a b E. apply (H (o :: a) b). cbn. congruence.
Qed.
Lemma boosted t a e b : Forall no_amp_off a -> Forall no_booster_off (a ++ e :: b) -> boosts (after t a) e ->
  throughout (fun s => wants_booster s \/ clk s < clk (after t a) + 10000) (after t (a ++ [e])) b ->
  bpin (bo (after t (a ++ e :: b))) = true.
Proof.
  intros F N B H. pose proof (binv_run _ _ (binv0 t) N) as I. unfold binv in I. fold (after t (a ++ e :: b)) in I. rewrite <- I. clear I.
  unfold after in *. rewrite run_app in *. cbn [run] in *.
  apply Forall_app in N. destruct N as [_ N]. inversion N; subst.
  destruct (boosts_step _ _ (inv_run a _ (inv0 t) F) B) as (s' & L & _ & E).
  apply (bfresh_run (clk (run step (state0 t) a)) b); auto.
  apply (bfresh_enable _ _ s'); [lia|exact E].
Qed.

(** The card *)
Lemma in_use_SD s : in_use s -> fst (SDActive s) = true.
Proof.
  unfold SDActive, AmpActive. intros [H|[H|H]]; rewrite H; cbn; auto.
  - rewrite orb_true_r. reflexivity.
  - destruct (_ || stream s); reflexivity.
Qed.
Lemma AmpEnable_sd s : sd (AmpEnable s) = sd s /\ lit (AmpEnable s) = lit s /\ stream (AmpEnable s) = stream s.
Proof. unfold AmpEnable, BoosterEnable. cbn. destruct (on_ (am s)); cbn; auto. destruct (bon_ (bo s)); cbn; auto. Qed.
Lemma BoosterEnable_sd s : sd (BoosterEnable s) = sd s.
Proof. unfold BoosterEnable. destruct (bon_ (bo s)); cbn; auto. Qed.
(* an operation leaves the card alone, is its loop, or mounts it *)
Lemma sd_step s o : (forall can ok, o <> SD_Loop can ok) ->
  sd (step s o) = sd s \/
  ((exists w ok, o = MountCard w ok \/ o = Play w ok) /\ slast_ (sd (step s o)) = millis s /\ (mounted (sd s) = true -> mounted (sd (step s o)) = true)).
Proof.
  intros N. assert (MO : forall w ok, slast_ (sd (Mount s w ok)) = millis s /\ (mounted (sd s) = true -> mounted (sd (Mount s w ok)) = true)).
  { intros w ok. unfold Mount. destruct (mounted (sd s)) eqn:M; cbn; auto. split; [reflexivity|discriminate]. }
  destruct o; try (exfalso; eapply N; reflexivity); cbn [step]; try (left; reflexivity).
  - destruct (AmpLoop_cases s) as (a' & -> & _). left; reflexivity.
  - destruct (BoosterLoop_cases s) as (a' & -> & _). left; reflexivity.
  - left. apply AmpEnable_sd.
  - right. cbn [set_playing sd]. destruct (AmpEnable_sd (Mount s w ok)) as [-> _]. split; eauto.
  - left. apply BoosterEnable_sd.
  - right. split; eauto.
  - left. apply AmpEnable_sd.
  - left. apply BoosterEnable_sd.
Qed.
Lemma is_sdloop o : (exists can ok, o = SD_Loop can ok) \/ (forall can ok, o <> SD_Loop can ok).
Proof. destruct o; try (right; intros; discriminate). left; eauto. Qed.
Definition sfresh (t0 : Z) (s : state) : Prop :=
  mounted (sd s) = true /\ exists T, t0 <= T <= clk s /\ slast_ (sd s) = u32 T.
Lemma SDActive_fresh t0 s : sfresh t0 s -> in_use s \/ (usb s = false /\ clk s < t0 + 1000) -> fst (SDActive s) = true.
Proof.
  intros (A & T & B & C) [H|[H K]]; [apply in_use_SD, H|]. unfold SDActive. rewrite H.
  destruct (AmpActive s || stream s); auto. destruct (lit s); auto. cbn. rewrite C, since_eq by (unfold wrap; lia).
  apply Z.ltb_lt. lia.
Qed.
Lemma sfresh_step t0 s o : sfresh t0 s -> in_use s \/ (usb s = false /\ clk s < t0 + 1000) -> sfresh t0 (step s o).
Proof.
  intros F H. pose proof (step_clk s o) as M. pose proof (SDActive_fresh _ _ F H) as A. destruct F as (X & T & B & C).
  destruct (is_sdloop o) as [(can & ok & ->)|N].
  - cbn [step] in *. destruct (SDLoop_cases s can ok) as (c' & E & D). rewrite E in *. cbn in M.
    destruct D as [(_ & D & _)|[D1 D2]]; [congruence|]. split; cbn; [auto|]. destruct D2 as [D2|D2].
    + exists T. split; [lia|congruence].
    + exists (clk s). split; [lia|exact D2].
  - destruct (sd_step s o N) as [E|(_ & E & D)].
    + unfold sfresh. rewrite E. split; [exact X|]. exists T. split; [lia|exact C].
    + split; [auto|]. exists (clk s). split; [lia|exact E].
Qed.
Lemma sfresh_run t0 ops : forall s, sfresh t0 s ->
  throughout (fun s => in_use s \/ (usb s = false /\ clk s < t0 + 1000)) s ops -> sfresh t0 (run step s ops).
Proof.
  induction ops as [|o ops IH]; intros s F H; [exact F|]. cbn. apply IH; auto.
  - apply sfresh_step; auto. apply (H [] (o :: ops)). reflexivity.
  - intros a b E. apply (H (o :: a) b). cbn. congruence.
Qed.
Lemma mounts_fresh s e : mounts e -> sfresh (clk s) (step s e).
Proof.
  assert (MO : forall w, mounted (sd (Mount s w true)) = true /\ slast_ (sd (Mount s w true)) = millis s).
  { intros w. unfold Mount. destruct (mounted (sd s)) eqn:M; cbn; rewrite ?M, ?orb_true_r; auto. }
  destruct e; cbn [mounts]; try contradiction; destruct ok; try contradiction; intros _;
    pose proof (step_clk s (Play w true)) as K1; pose proof (step_clk s (MountCard w true)) as K2; cbn [step] in *.
  - unfold sfresh. cbn [sd set_playing clk]. destruct (AmpEnable_sd (Mount s w true)) as [-> _].
    split; [apply MO|]. exists (clk s). split; [cbn [set_playing clk] in K1; lia|apply MO].
  - split; [apply MO|]. exists (clk s). split; [lia|apply MO].
Qed.
Lemma stays_mounted t a e b : mounts e ->
  throughout (fun s => in_use s \/ (usb s = false /\ clk s < clk (after t a) + 1000)) (after t (a ++ [e])) b ->
  mounted (sd (after t (a ++ e :: b))) = true.
Proof.
  intros M H. unfold after in *. rewrite run_app in *. cbn [run] in *.
  apply (sfresh_run (clk (run step (state0 t) a)) b); auto. apply mounts_fresh, M.
Qed.

(** The booster is switched off when it is no longer needed *)
Lemma boost_for_sleep n : forall s u, u = bsleep_until_ (bo s) ->
  let x := bsleep_until_ (bo (boost_for n s)) in x = u \/ x = u32 (millis s + 100).
Proof.
  assert (O : forall s, bsleep_until_ (bo (boost_off s)) = bsleep_until_ (bo s)).
  { intros s. unfold boost_off. destruct (BoosterActive s); reflexivity. }
  induction n as [|n IH]; intros s u ->; cbn [boost_for].
  - rewrite O. auto.
  - destruct (BoosterActive s); [rewrite O; auto|]. cbv zeta. destruct (asleep _ _); [auto|].
    match goal with |- context [boost_for n ?x] => destruct (IH x _ eq_refl) as [-> | ->] end; auto.
Qed.
Lemma BoosterLoop_sleep s :
  let x := bsleep_until_ (bo (BoosterLoop s)) in x = bsleep_until_ (bo s) \/ x = u32 (millis s + 100).
Proof.
  assert (T : let x := bsleep_until_ (bo (boost_top s)) in x = bsleep_until_ (bo s) \/ x = u32 (millis s + 100)).
  { unfold boost_top. destruct (BoosterActive s); [auto|].
    match goal with |- context [boost_for 10 ?x] => destruct (boost_for_sleep 10 x _ eq_refl) as [-> | ->] end; auto. }
  unfold BoosterLoop. destruct (bpc (bo s)); [exact T| |].
  - destruct (asleep _ _); [auto|]. cbv zeta.
    match goal with |- context [boost_for ?n ?x] => destruct (boost_for_sleep n x _ eq_refl) as [-> | ->] end; auto.
  - destruct (BoosterActive s); [exact T|auto].
Qed.
Definition bbounds (s : state) : Prop :=
  0 <= clk s /\ 0 <= blast_ (bo s) <= clk s /\ bsleep_until_ (bo s) <= clk s + 100.
Lemma is_bloop o : o = Booster_Loop \/ o <> Booster_Loop.
Proof. destruct o; auto; right; discriminate. Qed.
Lemma bbounds_step s o : o <> BoosterOff -> bbounds s -> bbounds (step s o).
Proof.
  intros N (A & B & C). pose proof (step_clk s o) as M. unfold bbounds. destruct (is_bloop o) as [->|D].
  - cbn [step] in *. pose proof (BoosterLoop_sleep s) as SL. destruct (BoosterLoop_cases s) as (b' & E & L & _). rewrite E in *. cbn in *.
    rewrite L. pose proof (u32_le (clk s) ltac:(lia)). unfold millis in SL. pose proof (u32_le (u32 (clk s) + 100) ltac:(lia)). lia.
  - destruct (bo_step s o N D) as [->|(_ & s' & K & E & ->)]; [lia|].
    destruct (BoosterEnable_bo s') as (_ & -> & _ & _ & -> & _). rewrite E. unfold millis. pose proof (u32_le (clk s') ltac:(lia)). lia.
Qed.
Lemma bbounds_run ops : forall s, Forall no_booster_off ops -> bbounds s -> bbounds (run step s ops).
Proof. induction ops as [|o ops IH]; intros s F B; [exact B|]. inversion F; subst. cbn. apply IH; auto. apply bbounds_step; auto. Qed.
Lemma bbounds0 t : 0 <= t -> bbounds (state0 t).
Proof. intros H. unfold bbounds. cbn. pose proof (u32_le t H). lia. Qed.
Lemma BoosterLoop_idle s : bpc (bo (BoosterLoop s)) = B_idle -> bon_ (bo (BoosterLoop s)) = false \/ (BoosterLoop s = s /\ BoosterActive s = false).
Proof.
  assert (O : forall s, bpc (bo (boost_off s)) = B_idle -> bon_ (bo (boost_off s)) = false).
  { intros s0. unfold boost_off. destruct (BoosterActive s0); [discriminate|auto]. }
  assert (F : forall n s, bpc (bo (boost_for n s)) = B_idle -> bon_ (bo (boost_for n s)) = false).
  { induction n as [|n IH]; intros s0; cbn [boost_for]; [apply O|]. destruct (BoosterActive s0); [apply O|].
    cbv zeta. destruct (asleep _ _); [discriminate|]. apply IH. }
  assert (T : bpc (bo (boost_top s)) = B_idle -> bon_ (bo (boost_top s)) = false).
  { unfold boost_top. destruct (BoosterActive s); [discriminate|]. apply F. }
  unfold BoosterLoop. destruct (bpc (bo s)) eqn:P; [auto| |].
  - destruct (asleep _ _); [congruence|]. cbv zeta. intros H. left. apply F, H.
  - destruct (BoosterActive s) eqn:A; auto.
Qed.
Definition bstuck (s : state) : Prop := bpc (bo s) = B_idle /\ bon_ (bo s) = true.
Lemma bfresh_mono t0 s ops : bfresh t0 s -> Forall no_booster_off ops -> ~ In Booster_Loop ops -> bfresh t0 (run step s ops).
Proof.
  revert s. induction ops as [|o ops IH]; intros s F N I; [exact F|]. inversion N; subst. cbn. apply IH; auto.
  - pose proof (step_clk s o) as M. destruct (bo_step s o H1) as [E|(_ & s' & L & _ & E)].
    + intros ->. apply I. left; reflexivity.
    + destruct F as (X & T & B & C). unfold bfresh. rewrite E. split; [exact X|]. exists T. split; [lia|exact C].
    + apply (bfresh_enable _ _ s'); [|exact E]. destruct F as (X & T & B & C). lia.
  - intros H. apply I. right; exact H.
Qed.
Lemma bpending t ops : 0 <= t -> Forall no_booster_off ops -> prompt Booster_Loop asks_booster wants_booster 10000 t ops -> bstuck (after t ops) ->
  exists a e b, ops = a ++ e :: b /\ asks_booster e = true /\ ~ In Booster_Loop b /\ bfresh (clk (after t a)) (step (after t a) e).
Proof.
  intros T0. induction ops as [|o ops IH] using rev_ind; intros N P S; [destruct S; discriminate|].
  unfold after in S. rewrite run_snoc in S. apply Forall_app in N. destruct N as [N1 N2]. inversion N2; subst.
  destruct (is_bloop o) as [->|D].
  - cbn [step] in S. destruct S as [S1 S2]. destruct (BoosterLoop_idle _ S1) as [X|[X Y]]; [congruence|].
    rewrite X in *. destruct (IH N1 (prompt_prefix _ _ _ _ _ _ _ P) (conj S1 S2)) as (a & e & b & -> & Ee & Nl & F).
    exfalso. specialize (P a e b [Booster_Loop]). rewrite <- app_assoc in P. specialize (P eq_refl Ee Nl).
    apply Forall_app in N1. destruct N1 as [_ N1]. inversion N1; subst.
    assert (F' : bfresh (clk (after t a)) (run step (state0 t) (a ++ e :: b))).
    { rewrite run_app. cbn. apply bfresh_mono; auto. }
    rewrite (BoosterActive_fresh _ _ F' P) in Y. discriminate.
  - destruct (bo_step (run step (state0 t) ops) o H1 D) as [E|(A & s' & L & _ & E)].
    + unfold bstuck in S. rewrite E in S.
      destruct (IH N1 (prompt_prefix _ _ _ _ _ _ _ P) S) as (a & e & b & -> & Ee & Nl & F).
      exists a, e, (b ++ [o]). rewrite <- app_assoc. split; [reflexivity|]. split; [exact Ee|]. split; [|exact F].
      intros H. apply in_app_or in H. destruct H as [H|[H|[]]]; auto.
    + exists ops, o, []. split; [reflexivity|]. split; [exact A|]. split; [intros []|].
      apply (bfresh_enable _ _ s'); [exact L|exact E].
Qed.
Definition brank (s : state) : nat :=
  match bpc (bo s), bon_ (bo s) with
  | B_active, _ => 11 | B_sleep, _ => Nat.max 1 (10 - i_ (bo s)) | B_idle, false => 0 | B_idle, true => 99
  end%nat.
Definition bcalm (s : state) : Prop :=
  ~ wants_booster s /\ bounds s /\ bbounds s /\ last_enabled_ (am s) + 30 <= clk s /\ blast_ (bo s) + 10000 <= clk s.
Lemma bcalm_active s : bcalm s -> clk s + 100 < wrap -> BoosterActive s = false /\ millis s = clk s.
Proof.
  intros (W & B & (B1 & B2 & B3) & L & K) H. unfold wants_booster in W.
  assert (PL : playing s = false) by (destruct (playing s); auto; exfalso; auto).
  destruct (calm_active s (conj PL (conj B L)) ltac:(lia)) as [A M]. split; [|exact M].
  unfold BoosterActive, NeedsPower. rewrite A. cbn.
  destruct (lit s); [exfalso; auto|]. destruct (noonoff s); [exfalso; auto|]. destruct (busy s); [exfalso; auto 6|].
  rewrite !orb_false_r. unfold since. rewrite M, u32_small by lia. apply Z.ltb_ge. lia.
Qed.
Lemma BoosterLoop_rank s : bcalm s -> clk s + 100 < wrap -> (brank s <= 11)%nat ->
  (brank (BoosterLoop s) <= brank s)%nat /\
  (bsleep_until_ (bo s) <= clk s -> (brank (BoosterLoop s) <= brank s - 1)%nat) /\
  (brank (BoosterLoop s) = brank s -> BoosterLoop s = s).
Proof.
  intros C H R. destruct (bcalm_active s C H) as [A M].
  assert (U : u32 (millis s + 100) = clk s + 100). { rewrite M. apply u32_small. destruct C as (_ & (C & _) & _). lia. }
  assert (F : forall n p i u, boost_for (S n) (bgoto s p i u) = bgoto s B_sleep i (clk s + 100)).
  { intros n p i u. cbn [boost_for]. change (BoosterActive (bgoto s p i u)) with (BoosterActive s). rewrite A.
    change (millis (bgoto s p i u)) with (millis s). rewrite U. unfold asleep. cbn [i_ bo bgoto set_bo].
    match goal with |- context [millis ?x <? _] => change (millis x) with (millis s) end. rewrite M.
    replace (clk s <? clk s + 100) with true by (symmetry; apply Z.ltb_lt; lia). reflexivity. }
  unfold BoosterLoop. unfold brank in R |- *. destruct (bpc (bo s)) eqn:P.
  - unfold boost_top. rewrite A.
    rewrite (F 9%nat).
    cbn. split; [lia|]. split; [lia|discriminate].
  - unfold asleep. rewrite M. destruct (clk s <? bsleep_until_ (bo s)) eqn:SL.
    + rewrite P. split; [lia|]. split; [intros; apply Z.ltb_lt in SL; lia|auto].
    + cbv zeta. destruct (10 - S (i_ (bo s)))%nat as [|n] eqn:E.
      * cbn [boost_for]. unfold boost_off. match goal with |- context [BoosterActive ?x] => change (BoosterActive x) with (BoosterActive s) end.
        rewrite A. cbn -[Nat.sub Nat.max]. split; [lia|]. split; [lia|intros X; exfalso; lia].
      * rewrite F. cbn -[Nat.sub Nat.max]. rewrite E. split; [lia|]. split; [lia|intros X; exfalso; lia].
  - rewrite A. destruct (bon_ (bo s)) eqn:On; [lia|]. rewrite P, ?On. split; [lia|]. split; [lia|auto].
Qed.
Lemma asks_enables o : asks_booster o = false -> enables o = false.
Proof. destruct o; cbn; auto; discriminate. Qed.
Lemma bcalm_step s o : asks_booster o = false -> o <> BoosterOff -> bcalm s -> ~ wants_booster (step s o) -> bcalm (step s o).
Proof.
  intros E N (W & B & C & D & F) W'. pose proof (step_clk s o) as M.
  split; [exact W'|]. split; [apply bounds_step, B|]. split; [apply bbounds_step; auto|]. split.
  - rewrite last_step, (asks_enables o E). lia.
  - destruct (is_bloop o) as [->|X].
    + cbn [step] in *. destruct (BoosterLoop_cases s) as (b' & E' & L & _). rewrite E' in *. cbn in *. rewrite L. lia.
    + destruct (bo_step s o N X) as [->|(Y & _)]; [lia|congruence].
Qed.
Lemma brank_step s o : asks_booster o = false -> o <> BoosterOff -> bcalm s -> clk s + 100 < wrap -> (brank s <= 11)%nat ->
  (brank (step s o) <= brank s)%nat /\ (brank (step s o) = brank s -> bsleep_until_ (bo (step s o)) = bsleep_until_ (bo s)).
Proof.
  intros E N C H R. destruct (is_bloop o) as [->|D].
  - cbn [step]. destruct (BoosterLoop_rank s C H R) as (A & _ & B). split; [exact A|]. intros K. rewrite (B K). reflexivity.
  - unfold brank. destruct (bo_step s o N D) as [->|(Y & _)]; [auto|congruence].
Qed.
Lemma throughout_cons p s o ops : throughout p s (o :: ops) -> throughout p (step s o) ops.
Proof. intros H a b E. apply (H (o :: a) b). cbn. congruence. Qed.
Lemma throughout_app p s a b : throughout p s (a ++ b) -> throughout p s a /\ throughout p (run step s a) b.
Proof.
  intros H. split.
  - intros x y E. apply (H x (y ++ b)). rewrite E, app_assoc. reflexivity.
  - intros x y E. rewrite <- run_app. apply (H (a ++ x) y). rewrite E, app_assoc. reflexivity.
Qed.
Definition bquiet (o : op) : Prop := asks_booster o = false /\ o <> BoosterOff.
Lemma brank_run ops : forall s, Forall bquiet ops -> throughout (fun s => ~ wants_booster s) s ops -> bcalm s ->
  clk (run step s ops) + 100 < wrap -> (brank s <= 11)%nat ->
  bcalm (run step s ops) /\ (brank (run step s ops) <= brank s)%nat /\
  (brank (run step s ops) = brank s -> bsleep_until_ (bo (run step s ops)) = bsleep_until_ (bo s)).
Proof.
  induction ops as [|o ops IH]; intros s F TH C H R; [auto|]. inversion F as [|? ? [F1 F1'] F2]; subst. cbn [run] in *.
  pose proof (step_clk s o) as K1. pose proof (run_clk ops (step s o)) as K2.
  destruct (brank_step s o F1 F1' C ltac:(lia) R) as [R1 R2].
  assert (W : ~ wants_booster (step s o)) by (apply (TH [o] ops); reflexivity).
  destruct (IH (step s o) F2 (throughout_cons _ _ _ _ TH) (bcalm_step s o F1 F1' C W) H ltac:(lia)) as (X & Y & Z).
  split; [exact X|]. split; [lia|]. intros E. rewrite Z by lia. apply R2. lia.
Qed.
Lemma brounds_rank n : forall s ops, Forall bquiet ops -> throughout (fun s => ~ wants_booster s) s ops -> bcalm s ->
  clk (run step s ops) + 100 < wrap -> (brank s <= 11)%nat -> (brank s <= n)%nat -> rounds Booster_Loop 100 n s ops -> brank (run step s ops) = 0%nat.
Proof.
  induction n as [|n IH]; intros s ops F TH C H R N Q.
  - destruct (brank_run ops s F TH C H R) as (X & Y & _). lia.
  - destruct Q as (b & c & -> & T & Q). apply Forall_app in F. destruct F as [F1 F2]. inversion F2 as [|? ? F3 F4]; subst.
    apply throughout_app in TH. destruct TH as [TH1 TH2].
    rewrite run_app in *. cbn [run] in *. set (s1 := run step s b) in *.
    pose proof (run_clk c (step s1 Booster_Loop)) as K1. pose proof (step_clk s1 Booster_Loop) as K2. cbn [step] in *.
    destruct (brank_run b s F1 TH1 C ltac:(fold s1; lia) R) as (C1 & R1 & S1). fold s1 in C1, R1, S1.
    destruct (BoosterLoop_rank s1 C1 ltac:(lia) ltac:(lia)) as (X & Y & _).
    replace (run step s (b ++ [Booster_Loop])) with (BoosterLoop s1) in Q by (rewrite run_app; reflexivity).
    apply IH; auto; try lia.
    + exact (throughout_cons _ _ _ _ TH2).
    + apply (bcalm_step s1 Booster_Loop); auto; [discriminate|]. apply (TH2 [Booster_Loop] c). reflexivity.
    + assert (D : brank s1 = brank s \/ (brank s1 < brank s)%nat) by lia. destruct D as [D|D]; [|lia].
      assert (Y' : (brank (BoosterLoop s1) <= brank s1 - 1)%nat); [|lia].
      apply Y. rewrite (S1 D). destruct C as (_ & _ & (_ & _ & C) & _). lia.
Qed.
Lemma in_prefix (a x y : list op) e q : a ++ q = x ++ e :: y -> Forall (fun o => asks_booster o = false) q -> asks_booster e = true -> exists z, a = x ++ z.
Proof.
  intros E F Ee. revert x E. induction a as [|v a IH]; intros x E.
  - cbn in E. subst q. apply Forall_app in F. destruct F as [_ F]. inversion F; congruence.
  - destruct x as [|w x]; [exists (v :: a); reflexivity|]. cbn in E. injection E as -> E.
    destruct (IH x E) as [z ->]. exists z. reflexivity.
Qed.
Lemma blast_run ops : forall s, Forall bquiet ops -> blast_ (bo (run step s ops)) = blast_ (bo s).
Proof.
  induction ops as [|o ops IH]; intros s F; [reflexivity|]. inversion F as [|? ? [F1 F2] F3]; subst. cbn. rewrite IH by assumption.
  destruct (is_bloop o) as [->|X].
  - cbn [step]. destruct (BoosterLoop_cases s) as (b' & -> & L & _). exact L.
  - destruct (bo_step s o F2 X) as [->|(Y & _)]; [reflexivity|congruence].
Qed.
Lemma booster_off t a q b : 0 <= t -> Forall no_booster_off (a ++ q ++ b) -> prompt Booster_Loop asks_booster wants_booster 10000 t (a ++ q ++ b) ->
  Forall (fun o => asks_booster o = false) (q ++ b) -> throughout (fun s => ~ wants_booster s) (after t a) (q ++ b) ->
  clk (after t a) + 10000 <= clk (after t (a ++ q)) -> rounds Booster_Loop 100 11 (after t (a ++ q)) b ->
  clk (after t (a ++ q ++ b)) + 100 < wrap -> bpin (bo (after t (a ++ q ++ b))) = false.
Proof.
  intros T0 N P F TH K Q H.
  pose proof (binv_run _ _ (binv0 t) N) as BI.
  assert (B0 : bounds (after t a)) by (apply bounds_run, bounds0, T0).
  assert (NA : Forall no_booster_off a /\ Forall no_booster_off q /\ Forall no_booster_off b).
  { apply Forall_app in N. destruct N as [N1 N2]. apply Forall_app in N2. tauto. }
  destruct NA as (N1 & N2 & N3).
  assert (B1 : bbounds (after t a)) by (apply bbounds_run; auto using bbounds0).
  apply Forall_app in F. destruct F as [F1 F2].
  assert (Qq : Forall bquiet q) by (rewrite Forall_forall in *; intros o I; split; auto; apply N2; auto).
  assert (Qb : Forall bquiet b) by (rewrite Forall_forall in *; intros o I; split; auto; apply N3; auto).
  apply throughout_app in TH. destruct TH as [TH1 TH2].
  replace (run step (after t a) q) with (after t (a ++ q)) in TH2 by (unfold after; rewrite run_app; reflexivity).
  assert (C : bcalm (after t (a ++ q))).
  { split; [apply (TH2 [] b); reflexivity|]. split; [apply bounds_run, bounds0, T0|].
    split; [apply bbounds_run; [apply Forall_app; auto|apply bbounds0, T0]|].
    unfold after in *. rewrite run_app in *. split.
    - rewrite last_run by (rewrite Forall_forall in *; intros o I; apply asks_enables; auto). destruct B0 as (_ & B0 & _). lia.
    - rewrite blast_run by exact Qq. destruct B1 as (_ & B1 & _). lia. }
  assert (R : (brank (after t (a ++ q)) <= 11)%nat).
  { unfold brank. destruct (bpc (bo (after t (a ++ q)))) eqn:PC, (bon_ (bo (after t (a ++ q)))) eqn:On; try lia.
    exfalso. rewrite app_assoc in P.
    destruct (bpending t (a ++ q) T0 ltac:(apply Forall_app; auto) (prompt_prefix _ _ _ _ _ _ _ P) (conj PC On)) as (x & e & y & E & Ee & Nl & _).
    rewrite E in P. rewrite <- app_assoc in P. cbn in P.
    destruct (P x e y b eq_refl Ee Nl) as [Z|Z]; rewrite <- E in Z.
    + destruct C as [C _]. auto.
    + destruct (in_prefix _ _ _ _ _ E F1 Ee) as [z ->].
      assert (clk (after t x) <= clk (after t (x ++ z))) by (unfold after; rewrite run_app; apply run_clk). lia. }
  unfold binv in BI. rewrite app_assoc in BI, H |- *. unfold after in *. rewrite <- BI. rewrite run_app in H |- *.
  pose proof (brounds_rank 11 _ b Qb TH2 C H R R Q) as Z. unfold brank in Z.
  set (s := run step (run step (state0 t) (a ++ q)) b) in *.
  destruct (bpc (bo s)) eqn:PC; [discriminate|lia|]. destruct (bon_ (bo s)) eqn:On; [discriminate|reflexivity].
Qed.

(** The card is unmounted when it is not used, and mounted again when it is *)
Definition sbounds (s : state) : Prop := 0 <= clk s /\ 0 <= slast_ (sd s) <= clk s /\ 0 <= last_mount_try_ (sd s) <= clk s.
Lemma try_step s o : (forall can ok, o <> SD_Loop can ok) -> last_mount_try_ (sd (step s o)) = last_mount_try_ (sd s).
Proof.
  assert (MO : forall w ok, last_mount_try_ (sd (Mount s w ok)) = last_mount_try_ (sd s)).
  { intros w ok. unfold Mount. destruct (mounted (sd s)) eqn:M; cbn; auto. }
  intros N. destruct o; try (exfalso; eapply N; reflexivity); cbn [step]; try reflexivity; try apply MO.
  - destruct (AmpLoop_cases s) as (a' & -> & _). reflexivity.
  - destruct (BoosterLoop_cases s) as (a' & -> & _). reflexivity.
  - destruct (AmpEnable_sd s) as [-> _]. reflexivity.
  - cbn [set_playing sd]. destruct (AmpEnable_sd (Mount s w ok)) as [-> _]. apply MO.
  - rewrite BoosterEnable_sd. reflexivity.
  - destruct (AmpEnable_sd s) as [-> _]. reflexivity.
  - rewrite BoosterEnable_sd. reflexivity.
Qed.
Lemma SDActive_snd s : snd (SDActive s) = s \/ (fst (SDActive s) = true /\ (AmpActive s = true \/ in_use s) /\ slast_ (sd (snd (SDActive s))) = millis s).
Proof.
  unfold SDActive, in_use. destruct (AmpActive s) eqn:A; [cbn; auto|]. destruct (stream s) eqn:B; cbn; [auto 8|]. destruct (lit s); [auto 8|].
  destruct (usb s); auto.
Qed.
(* SDLoop in full *)
Lemma SDLoop_full s can ok : exists c', SDLoop s can ok = set_sd s c' /\
  (slast_ c' = slast_ (sd s) \/ (slast_ c' = millis s /\ (AmpActive s = true \/ in_use s)) \/
   (slast_ c' = millis s /\ last_mount_try_ c' = millis s /\ fst (SDActive s) = true /\ 1000 < since s (last_mount_try_ (sd s)))) /\
  ((last_mount_try_ c' = last_mount_try_ (sd s) /\ (slast_ c' = slast_ (sd s) \/ AmpActive s = true \/ in_use s)) \/
   (last_mount_try_ c' = millis s /\ (can && ok = true -> mounted c' = true))) /\
  (fst (SDActive s) = false -> mounted c' = false) /\
  (fst (SDActive s) = true -> 1000 < since s (last_mount_try_ (sd s)) -> can && ok = true -> mounted c' = true).
Proof.
  unfold SDLoop. pose proof (SDActive_cases s) as (c & E & M & L & T). pose proof (SDActive_snd s) as X.
  destruct (SDActive s) as [a s1]. cbn [fst snd] in *. subst s1.
  assert (L' : slast_ c = slast_ (sd s) \/ (slast_ c = millis s /\ (AmpActive s = true \/ in_use s))).
  { destruct X as [X|(X & Z & Y)]; [|cbn in Y; auto].
    assert (K : slast_ c = slast_ (sd s)) by exact (f_equal (fun x => slast_ (sd x)) X). auto. }
  destruct (mounted (sd s)) eqn:Mo.
  - destruct a; eexists; (split; [reflexivity|]); cbn [mounted slast_ last_mount_try_ sd set_sd].
    + split; [tauto|]. split; [tauto|]. split; [discriminate|intros; congruence].
    + split; [tauto|]. split; [tauto|]. split; [auto|discriminate].
  - change (since (set_sd s c) (last_mount_try_ (sd (set_sd s c)))) with (since s (last_mount_try_ c)). rewrite T.
    change (millis (set_sd s c)) with (millis s).
    destruct (a && (1000 <? since s (last_mount_try_ (sd s)))) eqn:G.
    + apply andb_true_iff in G. destruct G as [-> G]. apply Z.ltb_lt in G. destruct can; cbv zeta.
      * unfold Mount. cbn [mounted sd set_sd]. rewrite M, delay0. eexists; split; [reflexivity|]. cbn. split; [right; right; auto|]. split; [auto 10|]. split; [discriminate|auto].
      * eexists; split; [reflexivity|]. cbn. split; [tauto|]. split; [right; split; [reflexivity|discriminate]|]. split; [discriminate|intros; congruence].
    + eexists; split; [reflexivity|]. split; [tauto|]. split; [tauto|]. split; [intros; rewrite M; auto|].
      intros -> K _. cbn in G. apply Z.ltb_ge in G. lia.
Qed.
Lemma sbounds_step s o : sbounds s -> sbounds (step s o).
Proof.
  intros (A & B & C). pose proof (step_clk s o) as M. unfold sbounds. pose proof (u32_le (clk s) ltac:(lia)) as U.
  destruct (is_sdloop o) as [(can & ok & ->)|N].
  - cbn [step] in *. destruct (SDLoop_full s can ok) as (c' & E & L & T & _). rewrite E in *. cbn in M |- *. unfold millis in *.
    split; [lia|]. split; [destruct L as [L|[[L _]|[L _]]]; lia|destruct T as [[T _]|[T _]]; lia].
  - rewrite (try_step s o N). destruct (sd_step s o N) as [->|(_ & -> & _)]; [lia|]. unfold millis. lia.
Qed.
Lemma sbounds_run ops : forall s, sbounds s -> sbounds (run step s ops).
Proof. induction ops as [|o ops IH]; intros s B; [exact B|]. cbn. apply IH, sbounds_step, B. Qed.
Lemma sbounds0 t : 0 <= t -> sbounds (state0 t).
Proof. intros H. unfold sbounds. cbn. pose proof (u32_le t H). lia. Qed.

(* ops that neither mount the card nor ask for the amplifier *)
Definition idle_op (o : op) : Prop := enables o = false /\ forall w ok, o <> MountCard w ok.
Definition lately (K : Z) (s : state) : Prop :=
  slast_ (sd s) <= K + 30 \/ (slast_ (sd s) <= K + 1030 /\ slast_ (sd s) <= last_mount_try_ (sd s)).
Lemma not_used s : ~ in_use s -> bounds s -> last_enabled_ (am s) + 30 <= clk s -> clk s < wrap ->
  (usb s = true \/ (0 <= slast_ (sd s) /\ slast_ (sd s) + 1000 <= clk s)) -> fst (SDActive s) = false.
Proof.
  intros NU (B1 & B2 & _) L W H. unfold in_use in NU.
  assert (PL : playing s = false) by (destruct (playing s) eqn:E; auto; exfalso; auto).
  assert (ST : stream s = false) by (destruct (stream s) eqn:E; auto; exfalso; auto).
  assert (LI : lit s = false) by (destruct (lit s) eqn:E; auto; exfalso; auto).
  assert (ML : millis s = clk s) by (apply u32_small; lia).
  assert (AA : AmpActive s = false).
  { unfold AmpActive. rewrite PL. cbn. unfold since. rewrite ML, u32_small by lia. apply Z.ltb_ge. lia. }
  unfold SDActive. rewrite AA, ST, LI. cbn. destruct (usb s) eqn:U; [reflexivity|]. cbn.
  destruct H as [H|H]; [discriminate|]. unfold since. rewrite ML, u32_small by lia. apply Z.ltb_ge. lia.
Qed.
Lemma slast_run ops : forall s K, Forall idle_op ops -> throughout (fun s => ~ in_use s) s ops -> bounds s -> sbounds s ->
  clk (run step s ops) < wrap -> last_enabled_ (am s) <= K -> lately K s -> lately K (run step s ops).
Proof.
  induction ops as [|o ops IH]; intros s K F TH B SB H L S; [exact S|]. inversion F as [|? ? [F1 F2] F3]; subst. cbn [run] in *.
  pose proof (step_clk s o) as K1. pose proof (run_clk ops (step s o)) as K2.
  apply IH; auto.
  - exact (throughout_cons _ _ _ _ TH).
  - apply bounds_step, B.
  - apply sbounds_step, SB.
  - rewrite last_step, F1. exact L.
  - assert (NU : ~ in_use s) by (apply (TH [] (o :: ops)); reflexivity).
    assert (AA : AmpActive s = true -> clk s < K + 30).
    { intros AA. destruct B as (B1 & B2 & B3). assert (ML : millis s = clk s) by (apply u32_small; lia).
      unfold AmpActive in AA. assert (PL : playing s = false) by (destruct (playing s) eqn:E; auto; exfalso; apply NU; left; exact E).
      rewrite PL in AA. cbn in AA. apply Z.ltb_lt in AA. unfold since in AA. rewrite ML, u32_small in AA by lia. lia. }
    destruct (is_sdloop o) as [(can & ok & ->)|N].
    + cbn [step]. destruct B as (B1 & B2 & B3). assert (ML : millis s = clk s) by (apply u32_small; lia).
      destruct (SDLoop_full s can ok) as (c' & -> & D & D2 & _). unfold lately. cbn.
      destruct D as [D|[[D D']|(D & D' & D3 & D4)]].
      * rewrite D. destruct S as [S|[S1 S2]]; [left; exact S|right]. split; [exact S1|]. destruct D2 as [[D2 _]|[D2 _]]; [lia|].
        destruct SB as (_ & SB & _). lia.
      * destruct D' as [D'|D']; [|contradiction]. left. specialize (AA D'). lia.
      * right. rewrite D, D'. split; [|lia]. rewrite ML in *.
        destruct (Z_lt_ge_dec (clk s) (K + 1030)) as [|GE]; [lia|exfalso].
        destruct SB as (_ & SB1 & SB2). assert (X : clk s < slast_ (sd s) + 1000).
        { destruct (Z_lt_ge_dec (clk s) (slast_ (sd s) + 1000)) as [|GE2]; [assumption|exfalso].
          rewrite not_used in D3; [discriminate|exact NU|split; auto|lia|lia|right; lia]. }
        unfold since in D4. rewrite ML, u32_small in D4 by lia. destruct S as [S|[S1 S2]]; lia.
    + unfold lately. rewrite (try_step s o N). destruct (sd_step s o N) as [->|((w & ok & [->| ->]) & _)]; [exact S| |].
      * exfalso. eapply F2. reflexivity.
      * discriminate.
Qed.
Lemma unmounts t a q can ok : 0 <= t -> Forall idle_op q -> throughout (fun s => ~ in_use s) (after t a) q ->
  clk (after t (a ++ q)) < wrap ->
  (clk (after t a) + 2030 <= clk (after t (a ++ q)) \/ (usb (after t (a ++ q)) = true /\ clk (after t a) + 30 <= clk (after t (a ++ q)))) ->
  mounted (sd (after t (a ++ q ++ [SD_Loop can ok]))) = false.
Proof.
  intros T0 F TH W H. pose proof (bounds_run a _ (bounds0 t T0)) as B. pose proof (sbounds_run a _ (sbounds0 t T0)) as SB.
  pose proof (bounds_run (a ++ q) _ (bounds0 t T0)) as B'. pose proof (sbounds_run (a ++ q) _ (sbounds0 t T0)) as SB'.
  unfold after in *. rewrite app_assoc, run_snoc. rewrite run_app in *. set (s := run step (state0 t) a) in *.
  assert (NU : ~ in_use (run step s q)) by (apply (TH q []); rewrite app_nil_r; reflexivity).
  assert (L : last_enabled_ (am (run step s q)) = last_enabled_ (am s)).
  { apply last_run. rewrite Forall_forall in *. intros o I. apply F, I. }
  assert (S : lately (clk s) (run step s q)).
  { apply slast_run; auto; [destruct B as (_ & B & _); lia|destruct SB as (_ & SB & _); left; lia]. }
  cbn [step]. destruct (SDLoop_full (run step s q) can ok) as (c' & -> & _ & _ & D & _). cbn. apply D.
  destruct B as (_ & B & _). destruct SB' as (_ & SB' & _).
  apply not_used; auto; [rewrite L; lia|]. destruct H as [H|[H _]]; [right|auto]. destruct S as [S|[S _]]; lia.
Qed.

Lemma SDLoop_used s can ok : in_use s -> (1000 < since s (last_mount_try_ (sd s)) -> can && ok = true -> mounted (sd (SDLoop s can ok)) = true) /\
  (mounted (sd s) = true -> mounted (sd (SDLoop s can ok)) = true).
Proof.
  intros U. pose proof (in_use_SD s U) as A. split.
  - intros K O. destruct (SDLoop_full s can ok) as (c' & -> & _ & _ & _ & D). cbn. auto.
  - intros M. destruct (SDLoop_cases s can ok) as (c' & -> & [(_ & D & _)|[D _]]); [congruence|]. cbn. auto.
Qed.
Lemma tries_run ops : forall s K, Forall good_card ops -> throughout in_use s ops ->
  mounted (sd s) = true \/ last_mount_try_ (sd s) <= K ->
  mounted (sd (run step s ops)) = true \/ last_mount_try_ (sd (run step s ops)) <= K.
Proof.
  induction ops as [|o ops IH]; intros s K F TH D; [exact D|]. inversion F as [|? ? F1 F2]; subst. cbn [run].
  apply IH; auto; [exact (throughout_cons _ _ _ _ TH)|].
  assert (U : in_use s) by (apply (TH [] (o :: ops)); reflexivity).
  destruct (is_sdloop o) as [(can & ok & ->)|N].
  - destruct can, ok; try contradiction. cbn [step]. destruct D as [D|D].
    + left. apply SDLoop_used; auto.
    + destruct (SDLoop_full s true true) as (c' & -> & _ & [[T _]|[_ T]] & _); cbn; [right; lia|auto].
  - rewrite (try_step s o N). destruct (sd_step s o N) as [->|(_ & _ & M)]; [exact D|]. destruct D; auto.
Qed.
Lemma mounted_run ops : forall s, throughout in_use s ops -> mounted (sd s) = true -> mounted (sd (run step s ops)) = true.
Proof.
  induction ops as [|o ops IH]; intros s TH D; [exact D|]. cbn [run].
  apply IH; auto; [exact (throughout_cons _ _ _ _ TH)|].
  assert (U : in_use s) by (apply (TH [] (o :: ops)); reflexivity).
  destruct (is_sdloop o) as [(can & ok & ->)|N].
  - cbn [step]. apply SDLoop_used; auto.
  - destruct (sd_step s o N) as [->|(_ & _ & M)]; auto.
Qed.
Lemma remounts t a b c : 0 <= t -> Forall good_card (b ++ SD_Loop true true :: c) ->
  throughout in_use (after t a) (b ++ SD_Loop true true :: c) ->
  clk (after t a) + 1000 < clk (after t (a ++ b)) < wrap ->
  mounted (sd (after t (a ++ b ++ SD_Loop true true :: c))) = true.
Proof.
  intros T0 F TH H. pose proof (sbounds_run a _ (sbounds0 t T0)) as SB. pose proof (sbounds_run (a ++ b) _ (sbounds0 t T0)) as SB'.
  unfold after in *. rewrite !run_app in *. cbn [run]. set (s := run step (state0 t) a) in *.
  apply throughout_app in TH. destruct TH as [TH1 TH2]. apply Forall_app in F. destruct F as [F1 _].
  apply mounted_run; [exact (throughout_cons _ _ _ _ TH2)|].
  assert (U : in_use (run step s b)) by (apply (TH2 [] (SD_Loop true true :: c)); reflexivity).
  destruct SB as (_ & _ & SB). destruct SB' as (SB1 & _ & SB2).
  destruct (tries_run b s (clk s) F1 TH1 ltac:(right; lia)) as [D|D]; cbn [step]; destruct (SDLoop_used (run step s b) true true U) as [X Y]; auto. apply X; auto.
  unfold since, millis. rewrite (u32_small (clk _)) by lia. rewrite u32_small by lia. lia.
Qed.

(** A list of operations that begins with Enable and the loop function *)
Lemma prompt_one t ops : Forall (fun o => enables o = false) ops ->
  prompt Amp_Loop enables (fun s => playing s = true) 30 t (Enable :: Amp_Loop :: ops).
Proof.
  intros F a e b c E Ee N. destruct a as [|x a].
  - cbn in E. injection E as <- E. destruct b as [|y b]; [right; unfold after; cbn; lia|].
    cbn in E. injection E as <- E. exfalso. apply N. left; reflexivity.
  - exfalso. cbn in E. injection E as <- E. assert (I : In e (Amp_Loop :: ops)) by (rewrite E; apply in_or_app; right; left; reflexivity).
    destruct I as [<-|I]; [discriminate|]. rewrite Forall_forall in F. rewrite (F e I) in Ee. discriminate.
Qed.
Lemma bprompt_one t ops : Forall (fun o => asks_booster o = false) ops ->
  prompt Booster_Loop asks_booster wants_booster 10000 t (EnableBooster :: Booster_Loop :: ops).
Proof.
  intros F a e b c E Ee N. destruct a as [|x a].
  - cbn in E. injection E as <- E. destruct b as [|y b]; [right; unfold after; cbn; lia|].
    cbn in E. injection E as <- E. exfalso. apply N. left; reflexivity.
  - exfalso. cbn in E. injection E as <- E. assert (I : In e (Booster_Loop :: ops)) by (rewrite E; apply in_or_app; right; left; reflexivity).
    destruct I as [<-|I]; [discriminate|]. rewrite Forall_forall in F. rewrite (F e I) in Ee. discriminate.
Qed.
(** The stuck amplifier *)
Lemma pin_other s o : enables o = false -> o <> Amp_Loop -> o <> AmpOff -> pin (am (step s o)) = pin (am s).
Proof.
  intros E N N'. destruct o; try discriminate; cbn [step]; try reflexivity; try congruence.
  - destruct (BoosterLoop_cases s) as (a' & -> & _). reflexivity.
  - destruct (SDLoop_cases s can ok) as (a' & -> & _). reflexivity.
  - destruct (BoosterEnable_am s) as [-> _]. reflexivity.
  - destruct (Mount_am s w ok) as [-> _]. reflexivity.
  - destruct (BoosterEnable_am s) as [-> _]. reflexivity.
Qed.
Lemma stuck_step s o : stuck s -> calm s -> enables o = false -> o <> AmpOff -> clk (step s o) + 20 < wrap -> pin (am s) = true ->
  stuck (step s o) /\ pin (am (step s o)) = true.
Proof.
  intros [S1 S2] C E N H P. pose proof (step_clk s o) as M.
  assert (D : o = Amp_Loop \/ o <> Amp_Loop) by (destruct o; auto; right; discriminate). destruct D as [->|D].
  - destruct (calm_active s C ltac:(lia)) as [A _]. cbn [step]. unfold AmpLoop. rewrite S1, A. split; [split|]; auto.
  - destruct (am_other s o E D) as (_ & X & _ & Y & _). split; [unfold stuck; rewrite X, Y; auto|].
    rewrite (pin_other s o E D N). exact P.
Qed.
Lemma stuck_run ops : forall s, stuck s -> calm s -> pin (am s) = true -> Forall (fun o => enables o = false /\ o <> AmpOff) ops ->
  clk (run step s ops) + 20 < wrap -> pin (am (run step s ops)) = true.
Proof.
  induction ops as [|o ops IH]; intros s S C P F H; [exact P|]. inversion F as [|? ? [F1 F2] F3]; subst. cbn in *.
  pose proof (run_clk ops (step s o)). destruct (stuck_step s o S C F1 F2 ltac:(lia) P) as [X Y].
  apply IH; auto. apply calm_step; auto.
Qed.

(** The DAC stops last. *)
Lemma asleep_now s : 0 <= clk s -> clk s + 20 < wrap -> u32 (millis s + 20) = clk s + 20 /\ millis s = clk s.
Proof. intros A B. unfold millis. rewrite (u32_small (clk s)) by (unfold wrap in *; lia). split; [apply u32_small; lia|reflexivity]. Qed.
Lemma amp_off_quiet s : 0 <= clk s -> clk s + 20 < wrap ->
  dac (am (amp_off s)) = dac (am s) /\ (pc (am (amp_off s)) = A_sleep2 -> sleep_until_ (am (amp_off s)) = clk s + 20).
Proof.
  intros A B. destruct (asleep_now s A B) as [C D]. unfold amp_off. destruct (AmpActive s); [split; [reflexivity|discriminate]|].
  unfold asleep. cbn zeta. change (millis (set_am s _)) with (millis s). rewrite C, D. replace (clk s <? clk s + 20) with true by lia. split; reflexivity.
Qed.
Lemma amp_top_quiet s : 0 <= clk s -> clk s + 20 < wrap ->
  dac (am (amp_top s)) = dac (am s) /\ pc (am (amp_top s)) <> A_sleep2.
Proof.
  intros A B. destruct (asleep_now s A B) as [C D]. unfold amp_top. destruct (AmpActive s); [split; [reflexivity|discriminate]|].
  unfold asleep. rewrite C, D. replace (clk s <? clk s + 20) with true by lia. split; [reflexivity|discriminate].
Qed.
Lemma AmpLoop_quiet s : 0 <= clk s -> clk s + 20 < wrap ->
  (pc (am (AmpLoop s)) = A_sleep2 -> AmpLoop s = s \/ sleep_until_ (am (AmpLoop s)) = clk s + 20) /\
  (dac (am s) = true -> dac (am (AmpLoop s)) = false -> pc (am s) = A_sleep2 /\ on_ (am s) = false /\ sleep_until_ (am s) <= clk s).
Proof.
  intros A B. destruct (amp_off_quiet s A B) as [O1 O2]. destruct (amp_top_quiet s A B) as [T1 T2]. destruct (asleep_now s A B) as [_ M].
  unfold AmpLoop. destruct (pc (am s)) eqn:P.
  - split; [contradiction|congruence].
  - destruct (asleep _ _); [split; congruence|]. split; [auto|congruence].
  - destruct (asleep s (sleep_until_ (am s))) eqn:S; [split; [auto|congruence]|]. destruct (on_ (am s)) eqn:O; [split; [contradiction|congruence]|].
    split; [discriminate|]. intros _ _. unfold asleep in S. rewrite M in S. split; [reflexivity|]. split; [reflexivity|lia].
  - destruct (AmpActive s); split; congruence || (intros; exfalso; congruence).
Qed.
Lemma prefix_snoc {A} (ops : list A) o p q : ops ++ [o] = p ++ q -> (exists r, ops = p ++ r) \/ p = ops ++ [o].
Proof.
  intros H. destruct q as [|x q] using rev_ind; [right; rewrite app_nil_r in H; auto|]. rewrite app_assoc in H. apply app_inj_tail in H as [H _]. left. eauto.
Qed.
Definition off_since (t : Z) (ops : list op) (T : Z) : Prop := forall p q, ops = p ++ q -> T < clk (after t p) -> pin (am (after t p)) = false.
Lemma dac_inv t ops : 0 <= t -> clk (after t ops) + 20 < wrap -> pc (am (after t ops)) = A_sleep2 -> on_ (am (after t ops)) = false ->
  off_since t ops (sleep_until_ (am (after t ops)) - 20).
Proof.
  intros T0. induction ops as [|o ops IH] using rev_ind; [discriminate|]. unfold after. rewrite !run_snoc. fold (after t ops). set (s := after t ops) in *.
  intros W PC ON. assert (B : bounds s) by (apply bounds_run, bounds0, T0). pose proof (step_clk s o) as MC.
  assert (I2 : inv2 (step s o)). { apply inv2_step. apply inv2_run. split; cbn; auto. }
  assert (PIN : pin (am (step s o)) = false) by (apply I2, ON).
  assert (KEEP : am (step s o) = am s \/ (pc (am (step s o)) = pc (am s) /\ on_ (am (step s o)) = on_ (am s) /\ sleep_until_ (am (step s o)) = sleep_until_ (am s)) ->
    off_since t (ops ++ [o]) (sleep_until_ (am (step s o)) - 20)).
  { intros K. assert (E : pc (am s) = A_sleep2 /\ on_ (am s) = false /\ sleep_until_ (am (step s o)) = sleep_until_ (am s)).
    { destruct K as [K|(K1 & K2 & K3)]; [rewrite K in *; auto|]. rewrite <- K1, <- K2. auto. }
    destruct E as (E1 & E2 & ->). intros p q H. apply prefix_snoc in H as [(r & H)| ->].
    - apply (IH ltac:(lia) E1 E2 p r H).
    - intros _. unfold after. rewrite run_snoc. exact PIN. }
  destruct (enables o) eqn:E.
  - destruct (enables_am s o E) as (s' & _ & _ & F). rewrite F in ON. destruct (AmpEnable_am s') as (X & _). congruence.
  - assert (D : o = Amp_Loop \/ o <> Amp_Loop) by (destruct o; auto; right; discriminate). destruct D as [->|D].
    + cbn [step] in *. destruct B as (B1 & _ & _). destruct (AmpLoop_quiet s B1 ltac:(lia)) as [Q _]. destruct (Q PC) as [Q1|Q1].
      * apply KEEP. rewrite Q1. auto.
      * rewrite Q1. intros p q H L. apply prefix_snoc in H as [(r & H)| ->].
        -- exfalso. unfold s in L. rewrite H in L. unfold after in L. rewrite run_app in L. pose proof (run_clk r (run step (state0 t) p)). lia.
        -- unfold after. rewrite run_snoc. exact PIN.
    + destruct (am_other s o E D) as (_ & X1 & _ & X2 & X3 & _). apply KEEP. auto.
Qed.
Lemma dac_last t ops o : 0 <= t -> clk (after t (ops ++ [o])) + 20 < wrap -> dac (am (after t ops)) = true -> dac (am (after t (ops ++ [o]))) = false ->
  forall p q, ops = p ++ q -> clk (after t ops) < clk (after t p) + 20 -> pin (am (after t p)) = false.
Proof.
  intros T0 W D1 D2 p q H L. unfold after in W, D2. rewrite run_snoc in W, D2. fold (after t ops) in W, D2. set (s := after t ops) in *. pose proof (step_clk s o) as MC.
  assert (B : bounds s) by (apply bounds_run, bounds0, T0). destruct B as (B1 & _ & _). destruct (enables o) eqn:E.
  - destruct (enables_am s o E) as (s' & _ & _ & F). rewrite F in D2. destruct (AmpEnable_am s') as (_ & _ & X & _). congruence.
  - assert (D : o = Amp_Loop \/ o <> Amp_Loop) by (destruct o; auto; right; discriminate). destruct D as [->|D].
    + cbn [step] in *. destruct (AmpLoop_quiet s B1 ltac:(lia)) as [_ Q]. destruct (Q D1 D2) as (Q1 & Q2 & Q3).
      apply (dac_inv t ops T0 ltac:(fold s; lia) Q1 Q2 p q H). fold s. lia.
    + destruct (am_other s o E D) as (_ & _ & X & _). congruence.
Qed.
