(** Lemmas for BattProps.v. *)
From Coq Require Import ZArith QArith List Bool Lia ZifyBool ZifyNat Lqa.
From Verif Require Import Machine ArithModel BattModel BattSpec.
Import ListNotations.
Open Scope Z_scope.

Lemma u32_range x : 0 <= u32 x < 4294967296.
Proof. unfold u32. apply Z.mod_pos_bound. lia. Qed.
Lemma u32_le x : 0 <= x -> u32 x <= x.
Proof. intros. unfold u32. apply Z.mod_le; lia. Qed.
Lemma u32_small x : 0 <= x < 4294967296 -> u32 x = x.
Proof. intros. unfold u32. apply Z.mod_small. lia. Qed.
Lemma u32_sub a b : u32 (u32 a - u32 b) = u32 (a - b).
Proof. unfold u32. rewrite <- Zminus_mod. reflexivity. Qed.

(** What a call of the monitor's Loop does: nothing much, or one reading. *)
Lemma Loop_cases s a b v mul c :
  (exists t p, MonitorLoop s a b v mul c = set_mon s (Monitor (loaded_ (mon s)) (last_voltage_ (mon s)) t (low_count_ (mon s)) p) /\
     (t = last_voltage_read_time_ (mon s) \/ t = micros s /\ at_ (mon s) = Begin) /\
     (at_ (mon s) = Begin -> t = micros s /\ p = Wait) /\ p <> Begin /\
     (p = Start \/ p = Done -> (at_ (mon s) = Wait /\ 1000 <= u32 (micros s - last_voltage_read_time_ (mon s))) \/ at_ (mon s) = Start \/ at_ (mon s) = Done)) \/
  (MonitorLoop s a b v mul c = sample s v mul c /\
     ((at_ (mon s) = Wait /\ 1000 <= u32 (micros s - last_voltage_read_time_ (mon s))) \/ at_ (mon s) = Start \/ at_ (mon s) = Done)).
Proof.
  unfold MonitorLoop. destruct (at_ (mon s)) eqn:A.
  - left. exists (micros s), Wait. unfold loop_wait. cbn [mon set_mon last_voltage_read_time_]. unfold micros. cbn [now set_mon]. fold (micros s).
    rewrite Z.sub_diag. change (u32 0 <? 1000) with true. cbn. repeat split; auto; try discriminate; try (intros [H|H]; discriminate).
  - unfold loop_wait. destruct (u32 _ <? 1000) eqn:E.
    + left. exists (last_voltage_read_time_ (mon s)), Wait. unfold goto. repeat split; auto; try discriminate; try (intros [H|H]; discriminate).
    + assert (G : 1000 <= u32 (micros s - last_voltage_read_time_ (mon s))) by lia. unfold loop_start, loop_done. destruct a; [destruct b|].
      * right. auto.
      * left. exists (last_voltage_read_time_ (mon s)), Done. unfold goto. repeat split; auto; try discriminate.
      * left. exists (last_voltage_read_time_ (mon s)), Start. unfold goto. repeat split; auto; try discriminate.
  - unfold loop_start, loop_done. destruct a; [destruct b|].
    * right. auto.
    * left. exists (last_voltage_read_time_ (mon s)), Done. unfold goto. repeat split; auto; try discriminate.
    * left. exists (last_voltage_read_time_ (mon s)), Start. unfold goto. repeat split; auto; try discriminate.
  - unfold loop_done. destruct b.
    * right. auto.
    * left. exists (last_voltage_read_time_ (mon s)), Done. unfold goto. repeat split; auto; try discriminate.
Qed.

Definition okop (o : op) : Prop := match o with Tick t => 0 <= t | Monitor_ _ _ _ mul _ => (0 <= mul <= 1)%Q | _ => True end.
(** Readings and announcements *)
Definition Inv (s : state) : Prop :=
  0 <= now s /\
  (exists L, L <= now s /\ last_voltage_read_time_ (mon s) = u32 L /\ forall r l, readings s = r :: l -> time r <= L) /\
  (at_ (mon s) = Begin -> readings s = []) /\
  (at_ (mon s) = Start \/ at_ (mon s) = Done -> forall r l, readings s = r :: l -> time r + 1000 <= now s) /\
  apart 1000 (map time (readings s)) /\
  last_beep_ s = u32 (hd 0 (announced s) / 1000) /\ 0 <= hd 0 (announced s) <= now s /\
  apart 15000001 (announced s ++ [0]).
Lemma Loop_apart s : Inv s ->
  (at_ (mon s) = Wait /\ 1000 <= u32 (micros s - last_voltage_read_time_ (mon s))) \/ at_ (mon s) = Start \/ at_ (mon s) = Done ->
  forall r l, readings s = r :: l -> time r + 1000 <= now s.
Proof.
  intros (N & (L & L1 & L2 & L3) & _ & C & _) [[A B]|A] r l R.
  - unfold micros in B. rewrite L2, u32_sub in B. pose proof (u32_le (now s - L) ltac:(lia)). specialize (L3 r l R). lia.
  - eapply C; eauto.
Qed.
Lemma step_Inv s o : okop o -> Inv s -> Inv (step s o).
Proof.
  intros O I. pose proof I as (N & (L & L1 & L2 & L3) & B & C & D & E & F & G).
  destruct o as [t|a b v mul c|b|style ch|i|i|i|b]; cbn [step okop] in *.
  - unfold Inv. cbn. split; [lia|]. split; [exists L; split; [lia|auto]|]. split; [exact B|]. split; [|repeat split; auto; lia].
    intros H r l R. specialize (C H r l R). lia.
  - destruct (Loop_cases s a b v mul c) as [(t & p & -> & T & P1 & P2 & P3)|(-> & P)].
    + unfold Inv. cbn. split; [lia|]. split; [|split; [|split; [|repeat split; auto; lia]]].
      * destruct T as [->|[-> T]]; [exists L; auto|]. exists (now s). split; [lia|]. split; [reflexivity|]. rewrite (B T). discriminate.
      * intros; contradiction.
      * intros H. apply Loop_apart; auto.
    + pose proof (Loop_apart s I P) as Q. unfold Inv, sample. cbn. split; [lia|]. split; [|split; [|split; [|split; [|repeat split; auto; lia]]]].
      * exists (now s). split; [lia|]. split; [reflexivity|]. intros r l H. injection H as <- <-. cbn. lia.
      * discriminate.
      * intros [H|H]; discriminate.
      * destruct (readings s) as [|r l] eqn:R; cbn [map apart]; auto. split; [|exact D]. cbn. apply (Q r l eq_refl).
  - unfold SetPinHigh. destruct b; [exact I|]. unfold Inv. cbn. split; [lia|]. split; [|repeat split; auto; lia].
    exists (now s). split; [lia|]. split; [reflexivity|]. intros r l R. specialize (L3 r l R). lia.
  - unfold CheckLowBattery. destruct (low (mon s)); [|exact I]. destruct (style && negb ch); [|exact I].
    set (s' := LowBatteryOff s).
    assert (I' : Inv s') by (unfold s', LowBatteryOff; destruct (on s); exact I).
    assert (S1 : now s' = now s /\ announced s' = announced s /\ last_beep_ s' = last_beep_ s /\ mon s' = mon s /\ readings s' = readings s)
      by (unfold s', LowBatteryOff; destruct (on s); auto).
    destruct S1 as (S1 & S2 & S3 & S4 & S5). destruct (15000 <? _) eqn:T; [|exact I'].
    unfold Inv. cbn. rewrite S1, S2, S4, S5. split; [lia|]. split; [exists L; auto|]. split; [exact B|]. split; [exact C|]. split; [exact D|].
    split; [unfold millis; rewrite S1; reflexivity|]. split; [lia|].
    unfold millis in T. rewrite S1, S3, E, u32_sub in T. apply Z.ltb_lt in T.
    pose proof (Z.div_le_mono (hd 0 (announced s)) (now s) 1000 ltac:(lia) ltac:(lia)).
    pose proof (u32_le (now s / 1000 - hd 0 (announced s) / 1000) ltac:(lia)).
    pose proof (Z.div_mod (now s) 1000 ltac:(lia)). pose proof (Z.mod_pos_bound (now s) 1000 ltac:(lia)).
    pose proof (Z.div_mod (hd 0 (announced s)) 1000 ltac:(lia)). pose proof (Z.mod_pos_bound (hd 0 (announced s)) 1000 ltac:(lia)).
    destruct (announced s) as [|x l]; cbn in *; split; auto; lia.
  - exact I.
  - exact I.
  - exact I.
  - exact I.
Qed.
Lemma run_Inv ops : forall s, sane ops -> Inv s -> Inv (run step s ops).
Proof. induction ops as [|o ops IH]; intros s S I; [exact I|]. inversion S; subst. apply (IH (step s o)); auto. apply step_Inv; auto. Qed.
Lemma Inv0 v t : 0 <= t -> Inv (state0 v t).
Proof.
  intros T. unfold Inv. cbn. split; [lia|]. split; [exists t; split; [lia|split; [reflexivity|discriminate]]|].
  repeat split; auto; try lia. intros _ r l H. discriminate.
Qed.
Lemma after_Inv v t ops : 0 <= t -> sane ops -> Inv (after v t ops).
Proof. intros. apply run_Inv; auto. apply Inv0; auto. Qed.

(** The voltage shown *)
Definition Shown (v0 : Q) (s : state) : Prop := battery (mon s) = match readings s with r :: _ => shown r | [] => v0 end.
Definition In_ (lo hi : Q) (s : state) : Prop := (lo <= battery (mon s) <= hi)%Q.
Lemma convex lo hi a b m : (lo <= a <= hi -> lo <= b <= hi -> 0 <= m <= 1 -> lo <= a * m + b * (1 - m) <= hi)%Q.
Proof. intros. split; nra. Qed.
Lemma step_range lo hi s o : okop o -> (match o with Monitor_ _ _ v _ _ => (lo <= v <= hi)%Q | _ => True end) -> In_ lo hi s -> In_ lo hi (step s o).
Proof.
  intros O R I. destruct o as [t|a b v mul c|b|style ch|i|i|i|b]; cbn [step okop] in *; try exact I.
  - destruct (Loop_cases s a b v mul c) as [(t & p & -> & _)|(-> & _)]; [exact I|]. unfold In_, sample. cbn. apply convex; auto.
  - unfold SetPinHigh. destruct b; exact I.
  - unfold CheckLowBattery. destruct (low _); [|exact I]. destruct (_ && _); [|exact I]. destruct (15000 <? _); unfold LowBatteryOff; destruct (on s); exact I.
Qed.
Lemma run_range lo hi ops : forall s, sane ops -> reads_within lo hi ops -> In_ lo hi s -> In_ lo hi (run step s ops).
Proof.
  induction ops as [|o ops IH]; intros s S R I; [exact I|]. inversion S; inversion R; subst. apply (IH (step s o)); auto. apply step_range; auto.
Qed.
Lemma step_shown v0 s o : Shown v0 s -> Shown v0 (step s o).
Proof.
  intros I. destruct o as [t|a b v mul c|b|style ch|i|i|i|b]; cbn [step] in *; try exact I.
  - destruct (Loop_cases s a b v mul c) as [(t & p & -> & _)|(-> & _)]; [exact I|reflexivity].
  - unfold SetPinHigh. destruct b; exact I.
  - unfold CheckLowBattery. destruct (low _); [|exact I]. destruct (_ && _); [|exact I]. destruct (15000 <? _); unfold LowBatteryOff; destruct (on s); exact I.
Qed.
Lemma run_shown v0 ops : forall s, Shown v0 s -> Shown v0 (run step s ops).
Proof. induction ops as [|o ops IH]; intros s I; [exact I|]. apply (IH (step s o)), step_shown, I. Qed.

(** Counting low readings *)
Definition lowb (r : reading) : bool :=
  negb (usb r) && Qle_bool (1 # 2) (shown r) && negb (Qle_bool (if load r then 13 # 5 else 3) (shown r)).
Lemma Qltb_lt a b : Qltb a b = true <-> (a < b)%Q.
Proof.
  unfold Qltb. rewrite negb_true_iff. split; intros H.
  - apply Qnot_le_lt. intros G. apply Qle_bool_iff in G. congruence.
  - destruct (Qle_bool b a) eqn:E; auto. apply Qle_bool_iff in E. apply Qlt_not_le in H. contradiction.
Qed.
Lemma lowb_spec r : lowb r = true <-> low_reading r.
Proof.
  unfold lowb, low_reading. rewrite !andb_true_iff, negb_true_iff, Qle_bool_iff. fold (Qltb (shown r) (if load r then 13 # 5 else 3)). rewrite Qltb_lt. tauto.
Qed.
Fixpoint streak (l : list reading) : nat := match l with r :: l => if lowb r then S (streak l) else O | [] => O end.
Lemma streak_le l : (streak l <= length l)%nat.
Proof. induction l as [|r l IH]; cbn; [lia|]. destruct (lowb r); lia. Qed.
Lemma streak_spec n : forall l, (n <= streak l)%nat <-> (n <= length l)%nat /\ Forall low_reading (firstn n l).
Proof.
  induction n as [|n IH]; intros l; [split; [intros _; split; [lia|constructor]|lia]|].
  destruct l as [|r l]; cbn; [split; [lia|intros [H _]; lia]|]. destruct (lowb r) eqn:E.
  - apply lowb_spec in E. specialize (IH l). split.
    + intros H. destruct IH as [IH _]. destruct IH; [lia|]. split; [lia|constructor; auto].
    + intros [H1 H2]. inversion H2 as [|? ? _ H4]; subst. destruct IH as [_ IH]. assert (H5 : (n <= length l)%nat) by lia. specialize (IH (conj H5 H4)). lia.
  - split; [lia|]. intros [_ H]. inversion H; subst. apply lowb_spec in H2. congruence.
Qed.
Definition Cnt (s : state) : Prop :=
  (Z.of_nat (length (readings s)) < 4294967296 -> low_count_ (mon s) = Z.of_nat (streak (readings s))).
Lemma IsLow_lowb c m t : IsLow c m = lowb (Reading t (last_voltage_ m) c (loaded_ m)).
Proof.
  unfold IsLow, lowb, battery. cbn. destruct c; cbn; [reflexivity|]. unfold Qltb. destruct (Qle_bool (1 # 2) (last_voltage_ m)); cbn; [|reflexivity].
  destruct (loaded_ m); f_equal; apply eq_true_iff_eq; rewrite !Qle_bool_iff; split; intros; lra.
Qed.
Lemma step_cnt s o : Cnt s -> Cnt (step s o).
Proof.
  intros I. destruct o as [t|a b v mul c|b|style ch|i|i|i|b]; cbn [step] in *; try exact I.
  - destruct (Loop_cases s a b v mul c) as [(t & p & -> & _)|(-> & _)]; [exact I|].
    unfold Cnt, sample. cbn [mon readings low_count_ length last_voltage_ loaded_]. intros H. unfold Cnt in I. specialize (I ltac:(lia)).
    rewrite (IsLow_lowb c _ (now s)). cbn [last_voltage_ loaded_ streak]. destruct (lowb _); [|reflexivity].
    rewrite I. pose proof (streak_le (readings s)). rewrite u32_small; lia.
  - unfold SetPinHigh. destruct b; exact I.
  - unfold CheckLowBattery. destruct (low _); [|exact I]. destruct (_ && _); [|exact I]. destruct (15000 <? _); unfold LowBatteryOff; destruct (on s); exact I.
Qed.
Lemma run_cnt ops : forall s, Cnt s -> Cnt (run step s ops).
Proof. induction ops as [|o ops IH]; intros s I; [exact I|]. apply (IH (step s o)), step_cnt, I. Qed.
Lemma low_iff v t ops : Z.of_nat (length (readings (after v t ops))) < 4294967296 ->
  low (mon (after v t ops)) = true <-> (1001 <= length (readings (after v t ops)))%nat /\ Forall low_reading (firstn 1001 (readings (after v t ops))).
Proof.
  intros H. assert (C : Cnt (after v t ops)) by (apply run_cnt; intros _; reflexivity). specialize (C H).
  unfold low. rewrite C, <- streak_spec. lia.
Qed.
Lemma apart_nth d l : forall k x y, apart d l -> 0 <= d -> nth_error l 0 = Some x -> nth_error l k = Some y -> y + Z.of_nat k * d <= x.
Proof.
  induction l as [|a l IH]; intros k x y A D H0 Hk; [discriminate|]. injection H0 as ->.
  destruct k as [|k]; [injection Hk as ->; lia|]. cbn in Hk. destruct l as [|b l]; [destruct k; discriminate|].
  destruct A as [A1 A2]. specialize (IH k b y A2 D eq_refl Hk). lia.
Qed.
(** With one blade the load is known. *)
Definition blade_op (i : nat) (o : op) : Prop := match o with BOn j | BEffect j | BOff j => j = i | _ => True end.
Definition One (i : nat) (s : state) : Prop := (lit s <> [] -> loaded_ (mon s) = true) /\ Forall (eq i) (lit s).
Lemma step_one i s o : blade_op i o -> One i s -> One i (step s o).
Proof.
  intros O [I J]. destruct o as [t|a b v mul c|b|style ch|j|j|j|b]; cbn [step blade_op] in *; try (split; assumption).
  - destruct (Loop_cases s a b v mul c) as [(t & p & -> & _)|(-> & _)]; split; assumption.
  - unfold SetPinHigh. destruct b; split; assumption.
  - unfold CheckLowBattery. destruct (low _); [|split; assumption]. destruct (_ && _); [|split; assumption].
    destruct (15000 <? _); unfold LowBatteryOff; destruct (on s); split; assumption.
  - subst. split; [reflexivity|]. constructor; auto.
  - subst. split; [reflexivity|exact J].
  - subst. unfold One, BladeOff, SetLoad, set_mon. cbn [lit mon loaded_].
    assert (E : filter (fun k => negb (i =? k)%nat) (lit s) = []).
    { clear -J. induction (lit s) as [|k l IH]; [reflexivity|]. inversion J; subst. cbn. rewrite Nat.eqb_refl. cbn. auto. }
    rewrite E. split; [congruence|constructor].
Qed.
Lemma run_one i ops : forall s, Forall (blade_op i) ops -> One i s -> One i (run step s ops).
Proof. induction ops as [|o ops IH]; intros s S I; [exact I|]. inversion S; subst. apply (IH (step s o)); auto. apply step_one; auto. Qed.
(** After a reading, with no change of the pin, another is taken by the first call 1 ms later. *)
Definition quiet (o : op) : Prop := match o with Monitor_ _ _ _ _ _ | Pin _ => False | _ => True end.
Lemma quiet_mon s o : quiet o -> readings (step s o) = readings s /\ last_voltage_read_time_ (mon (step s o)) = last_voltage_read_time_ (mon s) /\
  at_ (mon (step s o)) = at_ (mon s).
Proof.
  destruct o as [t|a b v mul c|b|style ch|j|j|j|b]; cbn [step quiet]; intros Q; try contradiction; auto.
  unfold CheckLowBattery. destruct (low _); auto. destruct (_ && _); auto. destruct (15000 <? _); unfold LowBatteryOff; destruct (on s); auto.
Qed.
Lemma quiet_run ops : forall s, Forall quiet ops -> readings (run step s ops) = readings s /\
  last_voltage_read_time_ (mon (run step s ops)) = last_voltage_read_time_ (mon s) /\ at_ (mon (run step s ops)) = at_ (mon s).
Proof.
  induction ops as [|o ops IH]; intros s Q; [auto|]. inversion Q; subst. destruct (quiet_mon s o H1) as (A & B & C).
  change (run step s (o :: ops)) with (run step (step s o) ops). destruct (IH (step s o) H2) as (A' & B' & C'). repeat split; congruence.
Qed.
Lemma quiet_volt idle : forall s, Forall quiet idle -> last_voltage_ (mon (run step s idle)) = last_voltage_ (mon s).
Proof.
  induction idle as [|o idle IH]; intros s1 Q; [reflexivity|]. inversion Q; subst.
  change (run step s1 (o :: idle)) with (run step (step s1 o) idle). rewrite IH by assumption.
  destruct o as [t|a b v mul c|b|style ch|j|j|j|b]; cbn [step quiet] in *; try contradiction; auto.
  unfold CheckLowBattery. destruct (low _); auto. destruct (_ && _); auto. destruct (15000 <? _); unfold LowBatteryOff; destruct (on s1); auto.
Qed.
Lemma next_reading v0 t ops a b v mul c r l idle a' : 
  readings (after v0 t (ops ++ [Monitor_ a b v mul c])) = r :: l -> length l = length (readings (after v0 t ops)) ->
  Forall quiet idle -> let s := after v0 t (ops ++ [Monitor_ a b v mul c] ++ idle) in
  1000 <= now s - time r < 4294967296 ->
  forall v' mul' c', a' = Monitor_ true true v' mul' c' ->
  exists r', readings (after v0 t (ops ++ [Monitor_ a b v mul c] ++ idle ++ [a'])) = r' :: r :: l /\ time r' = now s /\ usb r' = c' /\
    (shown r' == shown r * mul' + v' * (1 - mul'))%Q.
Proof.
  intros R LN Q s N v' mul' c' ->. unfold after in *.
  set (s0 := run step (state0 v0 t) ops) in *.
  assert (SP : forall x, run step (state0 v0 t) (ops ++ [Monitor_ a b v mul c] ++ x) = run step (step s0 (Monitor_ a b v mul c)) x)
    by (intros; rewrite run_app; reflexivity).
  unfold s in *. clear s. rewrite (SP idle) in *. rewrite (SP (idle ++ _)). clear SP. rewrite run_app in R |- *. fold s0 in R. change (run step s0 [Monitor_ a b v mul c]) with (step s0 (Monitor_ a b v mul c)) in R.
  cbn [step] in *. destruct (Loop_cases s0 a b v mul c) as [(t1 & p & E & _)|(E & _)]; rewrite E in *.
  { cbn in R. exfalso. rewrite R in LN. cbn in LN. lia. }
  cbn in R. injection R as <- <-. set (s1 := sample s0 v mul c) in *. destruct (quiet_run idle s1 Q) as (A & B & C).
  set (s2 := run step s1 idle) in *. cbn [run step].
  assert (E2 : MonitorLoop s2 true true v' mul' c' = sample s2 v' mul' c').
  { unfold MonitorLoop. rewrite C. change (at_ (mon s1)) with Wait. cbn iota. unfold loop_wait, micros. rewrite B.
    change (last_voltage_read_time_ (mon s1)) with (u32 (now s0)). rewrite u32_sub. cbn [time] in N. rewrite u32_small by lia.
    replace (now s2 - now s0 <? 1000) with false by lia. reflexivity. }
  rewrite E2. eexists. split; [unfold sample; cbn [readings]; rewrite A; unfold s1, sample; cbn [readings]; reflexivity|].
  split; [reflexivity|]. split; [reflexivity|]. cbn [shown last_voltage_].
  assert (V : last_voltage_ (mon s2) = last_voltage_ (mon s1)) by (apply quiet_volt, Q).
  rewrite V. reflexivity.
Qed.
Lemma check_act v t ops : 0 <= t -> sane ops -> low (mon (after v t ops)) = true ->
  let s := after v t ops in
  on (step s (Check true false)) = false /\
  (let last := hd 0 (announced s) in
   last + 15001000 <= now s < last + 4294967000000 -> announced (step s (Check true false)) = now s :: announced s).
Proof.
  intros T S L s. destruct (after_Inv v t ops T S) as (N & _ & _ & _ & _ & E & F & _). fold s in L, N, E, F.
  cbn [step]. unfold CheckLowBattery. rewrite L. cbn [andb negb].
  assert (S1 : now (LowBatteryOff s) = now s /\ announced (LowBatteryOff s) = announced s /\ last_beep_ (LowBatteryOff s) = last_beep_ s /\ on (LowBatteryOff s) = false)
    by (unfold LowBatteryOff; destruct (on s) eqn:O; auto).
  destruct S1 as (S1 & S2 & S3 & S4). split.
  - destruct (15000 <? _); cbn [on]; exact S4.
  - intros H. unfold millis. rewrite S1, S3, E, u32_sub. set (last := hd 0 (announced s)) in *.
    pose proof (Z.div_mod (now s) 1000 ltac:(lia)). pose proof (Z.mod_pos_bound (now s) 1000 ltac:(lia)).
    pose proof (Z.div_mod last 1000 ltac:(lia)). pose proof (Z.mod_pos_bound last 1000 ltac:(lia)).
    rewrite u32_small by lia. replace (15000 <? now s / 1000 - last / 1000) with true by lia. cbn [announced]. rewrite ?S1, S2. reflexivity.
Qed.
