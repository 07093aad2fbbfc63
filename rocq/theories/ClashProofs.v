From Coq Require Import ZArith List Bool Lia ZifyBool.
From Verif Require Import Machine ArithModel ClashModel ClashSpec.
Import ListNotations.
Open Scope Z_scope.

Lemma u32_range x : 0 <= u32 x < 2 ^ 32.
Proof. unfold u32. apply Z.mod_pos_bound. lia. Qed.
Lemma u32_small x : 0 <= x < 2 ^ 32 -> u32 x = x.
Proof. intros. unfold u32. apply Z.mod_small. lia. Qed.
Lemma u32_minus a b : u32 (a - u32 b) = u32 (a - b).
Proof. unfold u32. rewrite Zminus_mod_idemp_r. reflexivity. Qed.
Lemma u32_le x : 0 <= x -> u32 x <= x.
Proof. intros. unfold u32. apply Z.mod_le; lia. Qed.

(** The last disturbance was at real time [L <= T]; reports are forbidden until [e]. *)
Definition Prot (e : Z) (s : state) (T : Z) : Prop :=
  exists L, u32 L = last s /\ L <= T /\ 0 <= timeout s < 2 ^ 32 /\ e <= (if pending s then L else L + timeout s).

Lemma prot_time e s T t : Prot e s T -> T <= t -> Prot e s t.
Proof. intros (L & A & B & C) H. exists L. repeat split; try tauto; lia. Qed.
Lemma prot_eq e s s' T : Prot e s T -> last s' = last s -> timeout s' = timeout s -> pending s' = pending s -> Prot e s' T.
Proof. intros (L & A & B & C & D) E1 E2 E3. exists L. rewrite E1, E2, E3. auto. Qed.
Lemma ign_prot e s T t ms : Prot e s T -> T <= t -> 0 <= ms < 2 ^ 32 -> Prot e (IgnoreClash s t ms) t.
Proof.
  intros (L & A & B & C & D) H M. unfold IgnoreClash. destruct (pending s) eqn:P.
  - exists L. rewrite P. repeat split; auto; lia.
  - exists t. cbn [last timeout pending set_window]. rewrite P.
    rewrite <- A, u32_minus. pose proof (u32_range (t - L)). pose proof (u32_le (t - L) ltac:(lia)).
    split; [reflexivity|]. destruct (Z.ltb_spec (u32 (t - L)) (timeout s)); repeat split; lia.
Qed.
Lemma ign_prot_new e s T t ms : Prot e s T -> T <= t -> 0 <= ms < 2 ^ 32 -> pending s = false -> Prot (t + ms) (IgnoreClash s t ms) t.
Proof.
  intros (L & A & B & C & D) H M P. unfold IgnoreClash. rewrite P.
  exists t. cbn [last timeout pending set_window]. rewrite P.
  pose proof (u32_range (t - last s)).
  split; [reflexivity|]. destruct (Z.ltb_spec (u32 (t - last s)) (timeout s)); repeat split; lia.
Qed.
Lemma ign_pending s t ms : pending (IgnoreClash s t ms) = pending s.
Proof. unfold IgnoreClash. destruct (pending s) eqn:P; [auto|]. cbn. auto. Qed.

Notation ign_all t := (fold_left (fun s ms => IgnoreClash s t ms)).
Lemma igns_pending t l s : pending (ign_all t l s) = pending s.
Proof. revert s. induction l; intros; cbn; [auto|]. rewrite IHl. apply ign_pending. Qed.
Lemma igns_prot e t l s : Forall (fun ms => 0 <= ms < 2 ^ 32) l -> Prot e s t -> Prot e (ign_all t l s) t.
Proof.
  revert s. induction l; intros s F P; cbn; [auto|]. inversion F; subst. apply IHl; [auto|]. eapply ign_prot; eauto. lia.
Qed.
Lemma igns_prot_new e t l s ms : Forall (fun ms => 0 <= ms < 2 ^ 32) l -> Prot e s t -> pending s = false -> In ms l -> Prot (t + ms) (ign_all t l s) t.
Proof.
  revert s. induction l; intros s F P N I; [destruct I|]. inversion F; subst. cbn.
  destruct I as [<-|I].
  - apply igns_prot; [auto|]. eapply ign_prot_new; eauto. lia.
  - apply IHl; auto. eapply ign_prot; eauto. lia. rewrite ign_pending. auto.
Qed.

(** [Clash2] with nothing put aside. *)
Lemma clash2_ok e s T t w stab v s' os :
  Clash2 s t w stab v = (s', os) -> Prot e s T -> T <= t -> pending s = false -> Forall (fun ms => 0 <= ms < 2 ^ 32) (asks w) ->
  pending s' = false /\ Prot e s' t /\ Prot (t + if handles w then 400 else 100) s' t /\
  (forall ms, In ms (asks w) -> Prot (t + ms) s' t) /\ reports os = [(stab, v)] /\ In (Report stab v (handles w)) os /\
  (forall a b c, In (Report a b c) os -> c = handles w) /\ ~ In Deferred os.
Proof.
  intros E P H N F. unfold Clash2 in E.
  set (s1 := set_cstr s v) in *.
  assert (P1 : Prot e s1 t) by (eapply prot_time; [|eassumption]; eapply prot_eq; eauto).
  assert (N1 : pending s1 = false) by exact N.
  pose proof (igns_prot e t _ _ F P1) as P2. pose proof (igns_pending t (asks w) s1) as N2. rewrite N1 in N2.
  assert (A : forall ms, In ms (asks w) -> Prot (t + ms) (ign_all t (asks w) s1) t) by (intros; eapply igns_prot_new; eauto).
  set (s2 := ign_all t (asks w) s1) in *. clearbody s2.
  destruct (handles w).
  - injection E as <- <-. rewrite ign_pending. repeat split; auto.
    + eapply ign_prot; eauto; lia.
    + eapply ign_prot_new; eauto; lia.
    + intros. eapply ign_prot; eauto; lia.
    + left. auto.
    + intros a b c [X|[]]. congruence.
    + intros [X|[]]. discriminate.
  - injection E as <- <-. rewrite ign_pending. repeat split; auto.
    + eapply ign_prot; eauto; lia.
    + eapply ign_prot_new; eauto; lia.
    + intros. eapply ign_prot; eauto; lia.
    + cbn. destruct (_ && _); reflexivity.
    + left. auto.
    + intros a b c [X|X]; [congruence|]. destruct (_ && _); [destruct X as [X|[]]; discriminate|destruct X].
    + intros [X|X]; [discriminate|]. destruct (_ && _); [destruct X as [X|[]]; discriminate|destruct X].
Qed.

Definition flips (b : bool) (os : list out) : bool :=
  fold_left (fun b o => match o with Deferred => true | Report _ _ _ => false | _ => b end) os b.
Lemma flips_app b x y : flips b (x ++ y) = flips (flips b x) y.
Proof. apply fold_left_app. Qed.
Lemma clash2_flips s t w stab v s' os b : Clash2 s t w stab v = (s', os) -> flips b os = false.
Proof.
  unfold Clash2. destruct (handles w); intros E; injection E as _ <-; [reflexivity|]. cbn. destruct (_ && _); reflexivity.
Qed.

(** One call of Clash. *)
Lemma clash_ok e s T t w stab v s' os :
  Clash s t w stab v = (s', os) -> Prot e s T -> T <= t -> Forall (fun ms => 0 <= ms < 2 ^ 32) (asks w) ->
  (pending s = true -> held w = true) ->
  Prot e s' t /\ pending s' = flips (pending s) os /\
  (pending s' = true -> reports os = []) /\
  (length (reports os) <= 1)%nat /\
  (forall a b c, In (Report a b c) os -> e <= t /\ pending s' = false /\ c = handles w /\ Prot (t + if c then 400 else 100) s' t) /\
  (forall r ms, In r (reports os) -> In ms (asks w) -> Prot (t + ms) s' t).
Proof.
  intros E P H F ST. unfold Clash in E. destruct P as (L & A & B & C & D).
  rewrite <- A, u32_minus in E. pose proof (u32_range (t - L)) as R. pose proof (u32_le (t - L) ltac:(lia)) as R'.
  destruct (Z.ltb_spec (u32 (t - L)) (timeout s)) as [W|W].
  - destruct (pending s) eqn:PE.
    + injection E as <- <-. cbn. repeat apply conj; auto; try lia; try (intros; contradiction).
      exists t. cbn. rewrite ?PE. repeat split; try lia.
    + unfold UpdateClashStrength in E. destruct (v >? cstr s); injection E as <- <-; cbn; rewrite ?PE;
        (split; [exists t; cbn; rewrite ?PE; repeat split; lia|]); repeat apply conj; auto; try lia; try discriminate; cbn;
        try (intros ? ? ? [X|[]]; discriminate); try (intros; contradiction).
  - destruct (held w) eqn:HE.
    + injection E as <- <-. cbn. repeat apply conj; auto; try lia; try (intros ? ? ? [X|[]]; discriminate); try (intros; contradiction).
      exists t. cbn. destruct (pending s); repeat split; lia.
    + destruct (pending s) eqn:PE; [specialize (ST eq_refl); congruence|].
      assert (P : Prot e s T) by (exists L; rewrite PE; auto).
      destruct (clash2_ok e s T t w stab v s' os E P H PE F) as (Q1 & Q2 & Q3 & Q4 & Q5 & Q6 & Q7 & Q8).
      rewrite (clash2_flips _ _ _ _ _ _ _ false E), Q1, Q5. repeat split; auto; try discriminate.
      * pose proof (Q7 _ _ _ H0). subst. lia.
      * eapply Q7; eauto.
      * rewrite (Q7 _ _ _ H0). exact Q3.
Qed.

Lemma reports_app a b : reports (a ++ b) = reports a ++ reports b.
Proof. apply flat_map_app. Qed.
Lemma in_reports s v h os : In (Report s v h) os -> In (s, v) (reports os).
Proof. intros. apply in_flat_map. exists (Report s v h). cbn. auto. Qed.
Lemma reports_in s v os : In (s, v) (reports os) -> exists h, In (Report s v h) os.
Proof. intros H. apply in_flat_map in H as ([s' v' h| | | ] & A & B); cbn in B; try tauto. destruct B as [B|[]]. injection B as -> ->. eauto. Qed.

(** One turn of the main loop. *)
Lemma loop_ok e s T t w s' os :
  loop s t w = (s', os) -> Prot e s T -> T <= t -> Forall (fun ms => 0 <= ms < 2 ^ 32) (asks w) ->
  (pending s = true -> held w = true) ->
  Prot e s' t /\ pending s' = flips (pending s) os /\ (length (reports os) <= 1)%nat /\
  (forall a b c, In (Report a b c) os -> (e <= t /\ pending s' = false) /\ Prot (t + if c then 400 else 100) s' t) /\
  (forall r ms, In r (reports os) -> In ms (asks w) -> Prot (t + ms) s' t).
Proof.
  intros E P H F ST. unfold loop in E.
  assert (X : exists s1 o1, (if pending1 s then Clash (set_hit s false (stab1 s) (str1 s)) t w (stab1 s) (str1 s) else (s, [])) = (s1, o1) /\
    Prot e s1 t /\ pending s1 = flips (pending s) o1 /\ (pending s1 = true -> reports o1 = []) /\ (length (reports o1) <= 1)%nat /\
    (forall a b c, In (Report a b c) o1 -> e <= t /\ pending s1 = false /\ c = handles w /\ Prot (t + if c then 400 else 100) s1 t) /\
    (forall r ms, In r (reports o1) -> In ms (asks w) -> Prot (t + ms) s1 t)).
  { destruct (pending1 s).
    - destruct (Clash _ _ _ _ _) as [s1 o1] eqn:EC. exists s1, o1.
      eapply (clash_ok e (set_hit s false (stab1 s) (str1 s))) in EC; try eassumption.
      cbn [pending set_hit] in EC. intuition.
    - exists s, []. repeat apply conj; auto; cbn; try lia; try (intros; contradiction). eapply prot_time; eauto. }
  destruct X as (s1 & o1 & EX & X1 & X2 & X3 & X4 & X5 & X6). rewrite EX in E. clear EX.
  destruct (pending s1 && _) eqn:G; [|].
  - apply andb_true_iff in G as [G1 G2]. destruct (Clash2 _ _ _ _ _) as [s2 o2] eqn:EC. injection E as <- <-.
    destruct X1 as (L & A & B & C & D). rewrite G1 in D.
    rewrite <- A, u32_minus in G2. pose proof (u32_range (t - L)) as R. pose proof (u32_le (t - L) ltac:(lia)) as R'.
    assert (P1 : Prot e (set_pending s1 false (pstab s1) (pstr s1)) t).
    { exists L. cbn. repeat split; auto; lia. }
    destruct (clash2_ok e _ t t w _ _ s2 o2 EC P1 (Z.le_refl t) eq_refl F) as (Q1 & Q2 & Q3 & Q4 & Q5 & Q6 & Q7 & Q8).
    rewrite flips_app, (clash2_flips _ _ _ _ _ _ _ _ EC), reports_app, (X3 G1), Q5.
    repeat apply conj; auto. intros a b c I; apply in_app_or in I as [I|I].
    { apply in_reports in I. rewrite (X3 G1) in I. destruct I. }
    split; [split; [lia|exact Q1]|]. rewrite (Q7 _ _ _ I). exact Q3.
  - injection E as <- <-. rewrite app_nil_r. repeat apply conj; auto. intros a b c I. apply X5 in I. tauto.
Qed.

(** One plain or counted event. *)
Lemma event_prot e s T t k : Prot e s T -> T <= t -> Prot e (Event s t k) t.
Proof.
  intros P H. unfold Event. destruct (k =? 2).
  - apply (ign_prot e _ t); try lia. destruct P as (L & A & B & C & D). exists L. cbn. repeat split; auto; try lia.
    destruct (pending s); lia.
  - destruct (k =? 1); [eapply ign_prot; eauto; lia|]. eapply prot_time; eauto.
Qed.
Lemma event_release e s T t : Prot e s T -> T <= t -> Prot (t + 50) (Event s t 2) t.
Proof.
  intros P H. unfold Event. cbn [Z.eqb Pos.eqb]. apply (ign_prot_new e _ t); try lia; [|reflexivity].
  destruct P as (L & A & B & C & D). exists L. cbn. repeat split; auto; try lia. destruct (pending s); lia.
Qed.
Lemma event_press e s T t : Prot e s T -> T <= t -> pending s = false -> Prot (t + 50) (Event s t 1) t.
Proof. intros P H N. unfold Event. cbn [Z.eqb Pos.eqb]. apply (ign_prot_new e _ T); try lia; auto. Qed.
Lemma event_pending s t k : pending (Event s t k) = if k =? 2 then false else pending s.
Proof. unfold Event. destruct (k =? 2); [rewrite ign_pending; reflexivity|]. destruct (k =? 1); [apply ign_pending|reflexivity]. Qed.

Definition now (T : Z) (o : op) : Z := match time o with Some t => t | None => T end.
Definition at_ (T : Z) (o : op) : Prop := match time o with Some t => T <= t | None => True end.
Lemma button_k k n : 0 <= k <= 8 -> 1 <= n <= 4 -> (k + 8 * n =? 2) = false.
Proof. lia. Qed.
Lemma waits1_button b t k n f os :
  0 <= k <= 8 -> os = [] -> waits1 b (Button t k n f, os) = if (k =? 2) && negb f then false else b.
Proof.
  intros K ->. unfold waits1. cbn [fst snd fold_left].
  destruct k as [|p|p]; [reflexivity| |lia]. destruct p as [p|p|]; [reflexivity| |reflexivity].
  destruct p as [p|p|]; [reflexivity|reflexivity|]. destruct f; reflexivity.
Qed.

(** One step keeps what is forbidden and the state of the put-aside clash. *)
Lemma step_ok e s T o s' os :
  step s o = (s', os) -> Prot e s T -> sane o -> at_ T o ->
  (forall t w, o = Loop t w -> pending s = true -> held w = true) ->
  Prot e s' (now T o) /\ T <= now T o /\ pending s' = waits1 (pending s) (o, os) /\
  (length (reports os) <= 1)%nat /\
  (forall t w a b c, o = Loop t w -> In (Report a b c) os -> e <= t).
Proof.
  intros E P SA AT ST. destruct o as [stab v|t w|t k n f|t ms]; cbn in AT; unfold now; cbn [time].
  - injection E as <- <-. assert (X : last (hit s stab v) = last s /\ timeout (hit s stab v) = timeout s /\ pending (hit s stab v) = pending s).
    { unfold hit. destruct (pending1 s); cbn; auto. }
    destruct X as (X1 & X2 & X3). repeat split; cbn; auto; try lia; try discriminate. eapply prot_eq; eauto.
  - cbn [step] in E. destruct (loop_ok e s T t w s' os E P AT SA (ST t w eq_refl)) as (A & B & C & D & G).
    repeat split; auto. intros. injection H as <- <-. eapply D in H0. tauto.
  - cbn [step] in E. injection E as <- <-. destruct SA as [K N]. cbn [now time].
    assert (P1 : Prot e (Event s t (k + 8 * n)) t) by (eapply event_prot; eauto).
    rewrite waits1_button by auto. repeat split; try discriminate; auto.
    + destruct f; [auto|]. eapply event_prot; eauto. lia.
    + pose proof (event_pending s t (k + 8 * n)) as EP. rewrite button_k in EP by auto.
      destruct f; [rewrite andb_false_r; auto|]. cbn [negb]. rewrite (event_pending (Event s t (k + 8 * n))), EP, andb_true_r. reflexivity.
  - cbn [step] in E. injection E as <- <-. repeat split; try discriminate; auto.
    + eapply ign_prot; eauto.
    + rewrite ign_pending. reflexivity.
Qed.

(** What an entry forbids is forbidden after it. *)
Lemma step_forbids e0 e s T o s' os h :
  step s o = (s', os) -> Prot e0 s T -> sane o -> at_ T o ->
  (forall t w, o = Loop t w -> pending s = true -> held w = true) ->
  pending s = waits h -> forbids h (o, os) e -> Prot e s' (now T o).
Proof.
  intros E P SA AT ST PW Fo. remember (o, os) as x eqn:X. destruct Fo as [t w os' stab v hd I|o' os' t [n PL]|o' os' t [n PL] W|t w os' r ms I J|os' t ms W];
    injection X as X1 X2; subst; unfold now; cbn [time]; cbn [step] in E; cbn in AT.
  - destruct (loop_ok e0 s T t w s' os E P AT SA (ST t w eq_refl)) as (A & B & C & D & G). eapply D; eauto.
  - injection E as <- <-. apply (event_release e0 _ t); [|lia]. eapply event_prot; eauto.
  - injection E as <- <-. destruct SA as [K N]. apply (event_press e0 _ t); [|lia|].
    + eapply event_prot; eauto.
    + rewrite event_pending. destruct (_ =? 2); congruence.
  - destruct (loop_ok e0 s T t w s' os E P AT SA (ST t w eq_refl)) as (A & B & C & D & G). eapply G; eauto.
  - injection E as <- <-. eapply ign_prot_new; eauto.
Qed.

Lemma hist_cons s o l : hist s (o :: l) = (o, snd (step s o)) :: hist (fst (step s o)) l.
Proof. unfold hist. cbn. destruct (step s o). reflexivity. Qed.

(** The rest of a history, given that the state fits the entries before. *)
Lemma run_ok l : forall s T e h,
  ordered T l -> Forall sane l -> Prot e s T -> pending s = waits h ->
  (forall a t w os b, hist s l = a ++ (Loop t w, os) :: b -> waits (h ++ a) = true -> held w = true) ->
  (forall t w os a b c, In (Loop t w, os) (hist s l) -> In (Report a b c) os -> e <= t) /\
  (forall x, In x (hist s l) -> (length (reports (snd x)) <= 1)%nat).
Proof.
  induction l as [|o l IH]; intros s T e h OR SA P PW ST; [split; intros; contradiction|].
  rewrite hist_cons in *. destruct (step s o) as [s' os] eqn:E. cbn [fst snd] in *.
  inversion SA as [|? ? S1 S2]; subst.
  assert (AT : at_ T o /\ ordered (now T o) l).
  { unfold at_, now. cbn in OR. destruct (time o); tauto. }
  destruct AT as [AT OR'].
  assert (ST1 : forall t w, o = Loop t w -> pending s = true -> held w = true).
  { intros t w -> PE. apply (ST [] t w os (hist s' l)); [reflexivity|]. rewrite app_nil_r. congruence. }
  destruct (step_ok e s T o s' os E P S1 AT ST1) as (A1 & A2 & A3 & A4 & A5).
  destruct (IH s' (now T o) e (h ++ [(o, os)]) OR' S2 A1) as [B1 B2].
  - unfold waits in *. rewrite fold_left_app. cbn [fold_left]. rewrite <- PW. exact A3.
  - intros a t w os' b EQ W. apply (ST ((o, os) :: a) t w os' b); [cbn; rewrite EQ; reflexivity|].
    rewrite <- app_assoc in W. exact W.
  - split.
    + intros t w os' a b c [X|X] I; [injection X as -> ->; eapply A5; eauto|eapply B1; eauto].
    + intros x [<-|X]; [exact A4|auto].
Qed.

Lemma run_forbids l : forall s T e0 h,
  ordered T l -> Forall sane l -> Prot e0 s T -> pending s = waits h ->
  (forall a t w os b, hist s l = a ++ (Loop t w, os) :: b -> waits (h ++ a) = true -> held w = true) ->
  forall a x b e, hist s l = a ++ x :: b -> forbids (h ++ a) x e ->
  forall t w os r v c, In (Loop t w, os) b -> In (Report r v c) os -> e <= t.
Proof.
  induction l as [|o l IH]; intros s T e0 h OR SA P PW ST a x b e EQ Fo; [destruct a; discriminate|].
  rewrite hist_cons in *. destruct (step s o) as [s' os] eqn:E. cbn [fst snd] in *.
  inversion SA as [|? ? S1 S2]; subst.
  assert (AT : at_ T o /\ ordered (now T o) l).
  { unfold at_, now. cbn in OR. destruct (time o); tauto. }
  destruct AT as [AT OR'].
  assert (ST1 : forall t w, o = Loop t w -> pending s = true -> held w = true).
  { intros t w -> PE. apply (ST [] t w os (hist s' l)); [reflexivity|]. rewrite app_nil_r. congruence. }
  destruct (step_ok e0 s T o s' os E P S1 AT ST1) as (A1 & A2 & A3 & A4 & A5).
  assert (PW' : pending s' = waits (h ++ [(o, os)])).
  { unfold waits in *. rewrite fold_left_app. cbn [fold_left]. rewrite <- PW. exact A3. }
  assert (ST' : forall a0 t w os0 b0, hist s' l = a0 ++ (Loop t w, os0) :: b0 -> waits ((h ++ [(o, os)]) ++ a0) = true -> held w = true).
  { intros a0 t w os' b0 EQ' W. apply (ST ((o, os) :: a0) t w os' b0); [cbn; rewrite EQ'; reflexivity|].
    rewrite <- app_assoc in W. exact W. }
  destruct a as [|y a].
  - injection EQ as <- <-. rewrite app_nil_r in Fo.
    pose proof (step_forbids e0 e s T o s' os h E P S1 AT ST1 PW Fo) as Q.
    destruct (run_ok l s' (now T o) e (h ++ [(o, os)]) OR' S2 Q PW' ST') as [B1 _]. intros. eapply B1; eauto.
  - injection EQ as <- EQ. intros t w os' r v c.
    apply (IH s' (now T o) e0 (h ++ [(o, os)]) OR' S2 A1 PW' ST' a x b e EQ).
    rewrite <- app_assoc. exact Fo.
Qed.

Lemma prot0 : Prot 0 state0 0.
Proof. exists 0. cbn. repeat split; lia. Qed.
Lemma forbidden l a x b e t w os r v c :
  ordered 0 l -> Forall sane l -> steady (hist state0 l) -> hist state0 l = a ++ x :: b -> forbids a x e ->
  In (Loop t w, os) b -> In (Report r v c) os -> e <= t.
Proof.
  intros OR SA ST EQ Fo. apply (run_forbids l state0 0 0 [] OR SA prot0 eq_refl (fun a0 => ST a0) a x b e EQ Fo).
Qed.
Lemma one_report l x : ordered 0 l -> Forall sane l -> steady (hist state0 l) -> In x (hist state0 l) -> (length (reports (snd x)) <= 1)%nat.
Proof.
  intros OR SA ST. apply (run_ok l state0 0 0 [] OR SA prot0 eq_refl (fun a0 => ST a0)).
Qed.
Lemma at_boot l t w os a b c : ordered 0 l -> Forall sane l -> steady (hist state0 l) -> In (Loop t w, os) (hist state0 l) -> In (Report a b c) os -> 100 <= t.
Proof.
  intros OR SA ST. assert (P : Prot 100 state0 0) by (exists 0; cbn; repeat split; lia). apply (run_ok l state0 0 100 [] OR SA P eq_refl (fun a0 => ST a0)).
Qed.

(** * Liveness *)
Definition Bound (M T : Z) (s : state) : Prop := 0 <= timeout s <= M /\ 0 <= last s <= T.
Lemma ign_bound M t s ms : 0 <= t -> Bound M t s -> 0 <= ms <= M -> Bound M t (IgnoreClash s t ms).
Proof.
  unfold Bound, IgnoreClash. intros. destruct (pending s); [auto|]. cbn. pose proof (u32_range (t - last s)).
  pose proof (u32_range t). pose proof (u32_le t ltac:(lia)).
  destruct (_ <? _); lia.
Qed.
Lemma igns_bound M t l s : 0 <= t -> Bound M t s -> Forall (fun ms => 0 <= ms <= M) l -> Bound M t (ign_all t l s).
Proof. intros T0. revert s. induction l; intros s B F; cbn; [auto|]. inversion F; subst. apply IHl; auto. apply ign_bound; auto. Qed.
Lemma clash2_bound M s t w st v : 0 <= t -> 400 <= M -> Bound M t s -> Forall (fun ms => 0 <= ms <= M) (asks w) -> Bound M t (fst (Clash2 s t w st v)).
Proof.
  intros T0 HM B F. unfold Clash2. pose proof (igns_bound M t (asks w) (set_cstr s v) T0 B F) as Q.
  destruct (handles w); cbn [fst]; apply ign_bound; auto; lia.
Qed.
Lemma clash_bound M s t w st v : 0 <= t -> 400 <= M -> Bound M t s -> Forall (fun ms => 0 <= ms <= M) (asks w) -> Bound M t (fst (Clash s t w st v)).
Proof.
  intros T0 HM B F. unfold Clash. pose proof (u32_range t). pose proof (u32_le t ltac:(lia)). destruct (_ <? _).
  - destruct (pending s); [unfold Bound in *; cbn; lia|]. unfold UpdateClashStrength. destruct (_ >? _); unfold Bound in *; cbn; lia.
  - destruct (held w); [unfold Bound; cbn; lia|]. apply clash2_bound; auto.
Qed.
Lemma loop_bound M s t w : 0 <= t -> 400 <= M -> Bound M t s -> Forall (fun ms => 0 <= ms <= M) (asks w) -> Bound M t (fst (loop s t w)).
Proof.
  intros T0 HM B F. unfold loop.
  destruct (if pending1 s then _ else _) as [s1 o1] eqn:E1.
  assert (B1 : Bound M t s1).
  { destruct (pending1 s).
    - change s1 with (fst (s1, o1)). rewrite <- E1. apply clash_bound; auto.
    - injection E1 as <- <-. auto. }
  destruct (if pending s1 && _ then _ else _) as [s2 o2] eqn:E2. cbn [fst].
  destruct (pending s1 && _).
  - change s2 with (fst (s2, o2)). rewrite <- E2. apply clash2_bound; auto.
  - injection E2 as <- <-. auto.
Qed.
Lemma event_bound M s t e : 0 <= t -> 400 <= M -> Bound M t s -> Bound M t (Event s t e).
Proof. intros. unfold Event. destruct (e =? 2); [apply ign_bound; [assumption|assumption|lia]|]. destruct (e =? 1); [apply ign_bound; [assumption|assumption|lia]|assumption]. Qed.
Lemma bound_time M T t s : Bound M T s -> T <= t -> Bound M t s.
Proof. unfold Bound. lia. Qed.
Lemma step_bound M T s o : 400 <= M -> 0 <= T -> Bound M T s -> sane o -> at_ T o -> Forall (fun ms => ms <= M) (asked o) -> Bound M (now T o) (fst (step s o)).
Proof.
  intros HM T0 B SA AT A. unfold at_, now in *. destruct o as [st v|t w|t k n f|t ms]; cbn in *.
  - unfold hit. destruct (pending1 s); exact B.
  - apply loop_bound; auto; try lia. { eapply bound_time; eauto. }
    rewrite Forall_forall in *. intros x I. specialize (SA x I). specialize (A x I). lia.
  - apply (bound_time _ _ t) in B; [|lia]. destruct f; repeat apply event_bound; auto; lia.
  - inversion A; subst. apply ign_bound; auto; try lia. eapply bound_time; eauto.
Qed.
Lemma run_bound M l : forall s T T', 400 <= M -> 0 <= T -> Bound M T s -> Forall sane l -> asks_le M l -> ordered T (l ++ [Ignore T' 0]) -> Bound M T' (run_state step s l).
Proof.
  unfold asks_le. induction l; intros s T T' HM T0 B SA A OR; cbn.
  - cbn in OR. eapply bound_time; eauto. lia.
  - inversion SA; inversion A; subst.
    assert (AT : at_ T a /\ T <= now T a /\ ordered (now T a) (l ++ [Ignore T' 0])).
    { unfold at_, now. cbn in OR. destruct (time a); [tauto|]. repeat split; auto; lia. }
    destruct AT as (AT1 & AT2 & AT3). apply (IHl _ (now T a)); auto; try lia. apply step_bound; auto.
Qed.
Lemma clash2_pending s t w st v : pending (fst (Clash2 s t w st v)) = pending s.
Proof. unfold Clash2. destruct (handles w); cbn [fst]; rewrite ign_pending, igns_pending; reflexivity. Qed.

(** The real time of the last disturbance, when the counter has not wrapped. *)
Lemma run_last l : forall s T h,
  ordered T l -> Forall sane l -> Prot 0 s T -> pending s = waits h ->
  (forall a t w os b, hist s l = a ++ (Loop t w, os) :: b -> waits (h ++ a) = true -> held w = true) ->
  forall T', ordered T (l ++ [Ignore T' 0]) -> Prot 0 (run_state step s l) T' /\ pending (run_state step s l) = waits (h ++ hist s l).
Proof.
  induction l as [|o l IH]; intros s T h OR SA P PW ST T' OT.
  - cbn in *. rewrite app_nil_r. split; [eapply prot_time; eauto; lia|auto].
  - rewrite hist_cons in *. cbn [run_state]. destruct (step s o) as [s' os] eqn:E. cbn [fst snd] in *.
    inversion SA as [|? ? S1 S2]; subst.
    assert (AT : at_ T o /\ ordered (now T o) l /\ ordered (now T o) (l ++ [Ignore T' 0])).
    { unfold at_, now. cbn in OR, OT. destruct (time o); tauto. }
    destruct AT as (AT & OR' & OT').
    assert (ST1 : forall t w, o = Loop t w -> pending s = true -> held w = true).
    { intros t w -> PE. apply (ST [] t w os (hist s' l)); [reflexivity|]. rewrite app_nil_r. congruence. }
    destruct (step_ok 0 s T o s' os E P S1 AT ST1) as (A1 & A2 & A3 & A4 & A5).
    destruct (IH s' (now T o) (h ++ [(o, os)]) OR' S2 A1) with (T' := T') as [B1 B2]; auto.
    + unfold waits in *. rewrite fold_left_app. cbn [fold_left]. rewrite <- PW. exact A3.
    + intros a t w os' b EQ W. apply (ST ((o, os) :: a) t w os' b); [cbn; rewrite EQ; reflexivity|].
      rewrite <- app_assoc in W. exact W.
    + split; [auto|]. rewrite B2, <- app_assoc. reflexivity.
Qed.

Lemma loop_hit s t w : pending1 (fst (loop s t w)) = false.
Proof.
  assert (IG : forall s t ms, pending1 (IgnoreClash s t ms) = pending1 s).
  { intros. unfold IgnoreClash. destruct (pending s0); reflexivity. }
  assert (IA : forall t l s, pending1 (ign_all t l s) = pending1 s).
  { intros t0 l. induction l; intros; cbn; [auto|]. rewrite IHl. apply IG. }
  assert (C2 : forall s t w st v, pending1 (fst (Clash2 s t w st v)) = pending1 s).
  { intros. unfold Clash2. destruct (handles w0); cbn [fst]; rewrite IG, IA; reflexivity. }
  unfold loop.
  destruct (if pending1 s then _ else _) as [s1 o1] eqn:E1.
  assert (B1 : pending1 s1 = false).
  { destruct (pending1 s) eqn:P1.
    - change s1 with (fst (s1, o1)). rewrite <- E1. unfold Clash. destruct (_ <? _).
      + destruct (pending _); [reflexivity|]. unfold UpdateClashStrength. destruct (_ >? _); reflexivity.
      + destruct (held w); [reflexivity|]. rewrite C2. reflexivity.
    - injection E1 as <- <-. auto. }
  destruct (if pending s1 && _ then _ else _) as [s2 o2] eqn:E2. cbn [fst].
  destruct (pending s1 && _).
  - change s2 with (fst (s2, o2)). rewrite <- E2. rewrite C2. exact B1.
  - injection E2 as <- <-. auto.
Qed.

Lemma run_state_app s a b : run_state step s (a ++ b) = run_state step (run_state step s a) b.
Proof. revert s. induction a; intros; cbn; auto. Qed.
Lemma run_outs_app s a b : run_outs step s (a ++ b) = run_outs step s a ++ run_outs step (run_state step s a) b.
Proof. revert s. induction a; intros; cbn; auto. destruct (step s a) as [s' o] eqn:E. cbn. rewrite IHa. reflexivity. Qed.

Lemma ordered_le x : forall t T, ordered t x -> T <= t -> ordered T x.
Proof. induction x as [|o x IH]; cbn; intros; [auto|]. destruct (time o); [split; [lia|tauto]|eauto]. Qed.

Lemma clash2_reports s t w st v : reports (snd (Clash2 s t w st v)) = [(st, v)].
Proof. unfold Clash2. destruct (handles w); [reflexivity|]. cbn. destruct (_ && _); reflexivity. Qed.

(** A shock after quiet. *)
Lemma heard_state s T M t w st v :
  Bound M T s -> pending s = false -> pending1 s = false -> T + M <= t < 2 ^ 32 ->
  let '(s', os) := loop (hit s st v) t w in
  if held w then os = [Deferred] /\ last s' = u32 t /\ timeout s' = 3 /\ pending s' = true /\ pending1 s' = false /\ pstab s' = st /\ pstr s' = v
  else reports os = [(st, v)].
Proof.
  intros [B1 B2] PE P1 TT. unfold hit. rewrite P1. unfold loop. cbn [pending1 set_hit stab1 str1].
  unfold Clash. cbn [last timeout set_hit]. rewrite u32_small by lia.
  replace (t - last s <? timeout s) with false by lia.
  destruct (held w) eqn:HE.
  - cbn [last timeout pending set_pending set_window]. rewrite (u32_small t) by lia. rewrite u32_small by lia.
    replace (t - t <? 3) with true by lia. cbn. auto 10.
  - pose proof (clash2_reports (set_hit (set_hit s true st v) false st v) t w st v) as R.
    pose proof (clash2_pending (set_hit (set_hit s true st v) false st v) t w st v) as N.
    destruct (Clash2 _ _ _ _ _) as [s1 o1] eqn:E. cbn [snd fst] in R, N.
    rewrite N. cbn [pending set_hit]. rewrite PE. cbn [andb]. rewrite app_nil_r. exact R.
Qed.

Lemma loop_deferred s t w st v s' os :
  pending1 s = false -> loop (hit s st v) t w = (s', os) -> os = [Deferred] ->
  last s' = u32 t /\ timeout s' = 3 /\ pending s' = true /\ pending1 s' = false /\ pstab s' = st /\ pstr s' = v.
Proof.
  intros P1 E I. unfold hit in E. rewrite P1 in E. unfold loop in E. cbn [pending1 set_hit stab1 str1] in E.
  unfold Clash in E. cbn [last timeout set_hit] in E.
  destruct (u32 (t - last s) <? timeout s).
  - exfalso. destruct (pending _) eqn:PE in E; cbn in PE.
    + cbn [pending set_window set_pending app] in E.
      destruct (true && _); [|injection E as _ <-; discriminate].
      destruct (Clash2 _ _ _ _ _) as [s1 o1] eqn:EC. injection E as _ <-.
      pose proof (f_equal (fun x => reports (snd x)) EC) as R. cbv beta in R. rewrite clash2_reports in R. cbn [snd] in R.
      subst o1. discriminate.
    + unfold UpdateClashStrength in E. destruct (v >? _); cbn [pending set_window set_cstr set_hit] in E; rewrite PE in E; cbn in E; injection E as _ <-; discriminate.
  - destruct (held w).
    + cbn [last timeout pending set_pending set_window] in E. rewrite u32_minus in E.
      replace (t - t) with 0 in E by lia. cbn in E. injection E as <- _. cbn. auto 10.
    + exfalso. destruct (Clash2 _ _ _ _ _) as [s1 o1] eqn:EC.
      pose proof (f_equal (fun x => reports (snd x)) EC) as R. cbv beta in R. rewrite clash2_reports in R. cbn [snd] in R.
      destruct (if pending s1 && _ then _ else _) as [s2 o2]. injection E as _ <-.
      assert (R2 : reports (o1 ++ o2) = []) by (rewrite I; reflexivity).
      rewrite reports_app, <- R in R2. discriminate.
Qed.

(** Shocks noticed one by one: each is followed by a turn of the main loop. *)
Lemma vib_deferred l : forall s T,
  pending s = true -> pending1 s = false -> timeout s = 3 -> last s = u32 T -> close 3 T l ->
  let s' := run_state step s (shocks l) in
  pending s' = true /\ pending1 s' = false /\ timeout s' = 3 /\ last s' = u32 (final T l) /\ pstab s' = pstab s /\
  pstr s' = strongest (pstr s) l /\ concat (run_outs step s (shocks l)) = [].
Proof.
  induction l as [|[[[st v] t] w] l IH]; intros s T P P1 TO LA CL; [cbn; auto 10|].
  cbn [close] in CL. destruct CL as [C1 C2].
  cbn [shocks flat_map app run_state run_outs step fst]. fold (shocks l).
  assert (E : loop (hit s st v) t w = (set_window (set_pending (set_hit s false st v) true (pstab s) (Z.max (pstr s) v)) (u32 t) 3, [])).
  { unfold hit. rewrite P1. unfold loop. cbn [pending1 set_hit stab1 str1]. unfold Clash. cbn [last timeout set_hit pending].
    rewrite LA, u32_minus, TO, u32_small by lia. replace (t - T <? 3) with true by lia. rewrite P.
    cbn [last timeout pending set_pending set_window set_hit pstab pstr]. rewrite u32_minus, Z.sub_diag, TO. cbn. rewrite ?TO. reflexivity. }
  cbn [run_state step fst]. rewrite E. cbn [fst run_outs step concat app].
  set (s1 := set_window _ _ _). cbv zeta.
  specialize (IH s1 t eq_refl eq_refl eq_refl eq_refl C2). cbv zeta in IH. cbn [pstab pstr s1 set_window set_pending] in IH.
  exact IH.
Qed.
Definition covers (d : Z) (s : state) (T : Z) : Prop := exists L, u32 L = last s /\ L <= T /\ d <= timeout s < 2 ^ 32 /\ T + d <= L + timeout s.
Lemma vib_absorbed d l : forall s T,
  pending s = false -> pending1 s = false -> 0 <= d -> covers d s T -> close d T l ->
  let s' := run_state step s (shocks l) in
  cstr s' = strongest (cstr s) l /\ covers d s' (final T l) /\
  Forall (fun os => os = [] \/ exists v, os = [Update v]) (run_outs step s (shocks l)).
Proof.
  induction l as [|[[[st v] t] w] l IH]; intros s T P P1 D CO CL; [cbn; auto|].
  cbn [close] in CL. destruct CL as [C1 C2]. destruct CO as (L & A & B & C & E).
  cbn [shocks flat_map app run_state run_outs step fst]. fold (shocks l).
  assert (E1 : exists o, loop (hit s st v) t w = (set_window (set_cstr (set_hit s false st v) (Z.max (cstr s) v)) (u32 t) (timeout s), o) /\
    (o = [] \/ exists v, o = [Update v])).
  { unfold hit. rewrite P1. unfold loop. cbn [pending1 set_hit stab1 str1]. unfold Clash. cbn [last timeout set_hit pending].
    rewrite <- A, u32_minus, u32_small by lia. replace (t - L <? timeout s) with true by lia. rewrite P.
    unfold UpdateClashStrength. cbn [cstr set_hit]. destruct (v >? cstr s) eqn:V;
      cbn [pending last timeout set_window set_cstr set_hit]; rewrite P; cbn [andb app].
    - exists [Update v]. split; [|eauto]. rewrite Z.max_r by lia. reflexivity.
    - exists []. split; [|eauto]. rewrite Z.max_l by lia. reflexivity. }
  destruct E1 as (o & E1 & OO). rewrite E1. cbn [fst run_outs].
  set (s1 := set_window _ _ _). cbv zeta.
  assert (CO1 : covers d s1 t) by (exists t; cbn; repeat split; lia).
  specialize (IH s1 t P eq_refl D CO1 C2). cbv zeta in IH. cbn [cstr s1 set_window set_cstr] in IH. fold s1 in IH.
  destruct IH as (I1 & I2 & I3). repeat split; auto.
Qed.

Lemma ordered_app a b : forall T, ordered T (a ++ b) -> ordered T a /\ exists T', T <= T' /\ ordered T' b /\ ordered T (a ++ [Ignore T' 0]).
Proof.
  induction a as [|o a IH]; intros T H; cbn in *.
  - split; [auto|]. exists T. repeat split; auto; lia.
  - destruct (time o).
    + destruct H as [H1 H2]. apply IH in H2 as (H2 & T' & A & B & C). split; [auto|]. exists T'. repeat split; auto. lia.
    + apply IH in H as (H & T' & A & B & C). split; [auto|]. exists T'. auto.
Qed.
Lemma ordered_last l0 T w0 : forall z, ordered z (l0 ++ [Loop T w0]) -> ordered z ((l0 ++ [Loop T w0]) ++ [Ignore T 0]).
Proof.
  induction l0 as [|o l0 IH]; intros z H; cbn in *; [intuition lia|].
  destruct (time o); [split; [tauto|]; apply IH; tauto|auto].
Qed.
Lemma hist_app s a b : hist s (a ++ b) = hist s a ++ hist (run_state step s a) b.
Proof. revert s. induction a; intros; [reflexivity|]. cbn [app run_state]. rewrite !hist_cons. cbn [app]. rewrite IHa. reflexivity. Qed.

(** All quiet times end by [e]; nothing is put aside, no shock waits. *)
Definition Upto (e T : Z) (s : state) : Prop := 0 <= last s <= T /\ 0 <= timeout s /\ last s + timeout s <= e /\ pending s = false /\ pending1 s = false.
Lemma upto_time e T t s : Upto e T s -> T <= t -> Upto e t s.
Proof. unfold Upto. lia. Qed.
Lemma ign_upto e T s t ms : Upto e T s -> T <= t < 2 ^ 32 -> 0 <= ms -> t + ms <= e -> Upto e t (IgnoreClash s t ms).
Proof.
  intros (A & B & C & D & E) H M K. unfold IgnoreClash. rewrite D. rewrite u32_small by lia. unfold Upto. cbn [last timeout pending pending1 set_window]. rewrite u32_small by lia.
  destruct (Z.ltb_spec (t - last s) (timeout s)); repeat split; auto; lia.
Qed.
Lemma event_upto e T s t k : Upto e T s -> T <= t < 2 ^ 32 -> t + 50 <= e -> Upto e t (Event s t k).
Proof.
  intros U H K. unfold Event. destruct (k =? 2).
  - apply ign_upto with (T := T); auto; try lia. destruct U as (A & B & C & D & E). repeat split; cbn; auto; lia.
  - destruct (k =? 1); [apply ign_upto with (T := T); auto; lia|]. apply upto_time with (T := T); auto. lia.
Qed.
Lemma calm_step e T s o : Upto e T s -> calm e o -> sane o -> e < 2 ^ 32 -> at_ T o -> Upto e (now T o) (fst (step s o)).
Proof.
  intros U C S E H. destruct o as [st v|t w|t k n f|t ms]; cbn in C, S, H; [contradiction| | |]; cbn [step fst now time].
  - destruct U as (A & B & D & P & P1). unfold loop. rewrite P1, P. cbn. repeat split; auto; lia.
  - assert (U1 : Upto e t (Event s t (k + 8 * n))) by (apply event_upto with (T := T); auto; lia). destruct f; [exact U1|]. apply event_upto with (T := t); auto; lia.
  - apply ign_upto with (T := T); auto; lia.
Qed.
Lemma calm_run e l : forall s T, Upto e T s -> Forall (calm e) l -> Forall sane l -> e < 2 ^ 32 -> T <= e -> ordered T l -> Upto e e (run_state step s l).
Proof.
  induction l as [|o l IH]; intros s T U C S E TE OR; cbn [run_state]; [apply upto_time with (T := T); auto|].
  inversion C; inversion S; subst. cbn [ordered] in OR.
  pose proof (calm_step e T s o U H1 H5 E) as K. unfold at_, now in K. destruct (time o) as [t|] eqn:TO.
  - destruct OR as [O1 O2]. apply (IH _ t); auto.
    destruct o; cbn in TO, H1, H5; try discriminate; injection TO as ->; lia.
  - destruct o; try discriminate TO. contradiction.
Qed.
Lemma hits_run l : forall s, pending1 s = true -> run_state step s (hits l) = set_hit s true (stab1 s) (fold_left Z.max (map snd l) (str1 s)).
Proof.
  induction l as [|[st v] l IH]; intros s P; cbn [hits map run_state fold_left step fst snd]; [destruct s; cbn in *; subst; reflexivity|].
  change (map (fun x => Hit (fst x) (snd x)) l) with (hits l). unfold hit. rewrite P. rewrite IH by reflexivity. cbn [stab1 str1 set_hit]. rewrite (Z.max_comm v (str1 s)). reflexivity.
Qed.
Lemma set_hit_hit s st v w : pending1 s = false -> set_hit (hit s st v) true st w = hit s st w.
Proof. intros P. unfold hit. rewrite P. reflexivity. Qed.
Lemma heard l0 T w0 l2 st v more t w M :
  let l := l0 ++ [Loop T w0] in
  ordered 0 l -> Forall sane l -> asks_le M l -> 400 <= M ->
  steady (hist state0 l) -> waits (hist state0 l) = false ->
  ordered T l2 -> Forall sane l2 -> Forall (calm t) l2 -> T + M <= t < 2 ^ 32 ->
  let os := List.last (run_outs step state0 (l ++ l2 ++ hits ((st, v) :: more) ++ [Loop t w])) [] in
  if held w then os = [Deferred] else reports os = [(st, fold_left Z.max (map snd more) v)].
Proof.
  intros l OR SA AL HM ST WA OR2 SA2 CA TT os.
  assert (OT : ordered 0 (l ++ [Ignore T 0])).
  { apply ordered_last. exact OR. }
  assert (BO : Bound M T (run_state step state0 l)).
  { apply (run_bound M l state0 0 T); auto; try lia. split; cbn; lia. }
  destruct (run_last l state0 0 [] OR SA prot0 eq_refl (fun a0 => ST a0) T OT) as [P0 PE]. cbn [app] in PE. rewrite WA in PE.
  assert (P1 : pending1 (run_state step state0 l) = false).
  { unfold l. rewrite run_state_app. cbn [run_state step]. apply loop_hit. }
  set (s0 := run_state step state0 l) in *.
  assert (U : Upto t T s0) by (destruct BO; repeat split; auto; lia).
  pose proof (calm_run t l2 s0 T U CA SA2 ltac:(lia) ltac:(lia) OR2) as (A & B & C & D & E).
  unfold os. rewrite run_outs_app, run_outs_app, run_outs_app. fold s0. set (s := run_state step s0 l2) in *.
  assert (EH : run_state step s (hits ((st, v) :: more)) = hit s st (fold_left Z.max (map snd more) v)).
  { cbn [hits map run_state step fst snd]. change (map (fun x => Hit (fst x) (snd x)) more) with (hits more). rewrite hits_run by (unfold hit; rewrite E; reflexivity).
    unfold hit. rewrite E. reflexivity. }
  rewrite EH. cbn [run_outs step].
  assert (H : let '(s', os) := loop (hit s st (fold_left Z.max (map snd more) v)) t w in if held w then os = [Deferred] /\ last s' = u32 t /\ timeout s' = 3 /\ pending s' = true /\ pending1 s' = false /\ pstab s' = st /\ pstr s' = fold_left Z.max (map snd more) v else reports os = [(st, fold_left Z.max (map snd more) v)]).
  { apply (heard_state s (last s) (timeout s) t w st); auto; try lia. split; lia. }
  destruct (loop _ t w) as [s' o']. rewrite !app_assoc, last_last. destruct (held w); tauto.
Qed.

Lemma deferred l0 t0 w0 st v t w l2 t3 w3 :
  let l := l0 ++ [Loop t0 w0; Hit st v; Loop t w] in
  List.last (run_outs step state0 l) [] = [Deferred] -> close 3 t l2 -> final t l2 + 3 <= t3 < final t l2 + 2 ^ 32 ->
  concat (run_outs step (run_state step state0 l) (shocks l2)) = [] /\
  reports (List.last (run_outs step state0 (l ++ shocks l2 ++ [Loop t3 w3])) []) = [(st, strongest v l2)].
Proof.
  intros l LO CL TT.
  set (s0 := run_state step state0 (l0 ++ [Loop t0 w0])).
  assert (P1 : pending1 s0 = false).
  { unfold s0. rewrite run_state_app. cbn [run_state step]. apply loop_hit. }
  assert (EL : l = (l0 ++ [Loop t0 w0]) ++ [Hit st v; Loop t w]) by (unfold l; rewrite <- app_assoc; reflexivity).
  assert (S1 : run_state step state0 l = fst (loop (hit s0 st v) t w)) by (rewrite EL, run_state_app; reflexivity).
  assert (O1 : List.last (run_outs step state0 l) [] = snd (loop (hit s0 st v) t w)).
  { rewrite EL, run_outs_app. fold s0. cbn [run_outs step]. destruct (loop _ _ _) as [x y]. change [[]; y] with ([[]] ++ [y]).
    rewrite app_assoc, last_last. reflexivity. }
  rewrite LO in O1. destruct (loop (hit s0 st v) t w) as [s1 o1] eqn:E. cbn [fst snd] in *.
  destruct (loop_deferred s0 t w st v s1 o1 P1 E (eq_sym O1)) as (A1 & A2 & A3 & A4 & A5 & A6).
  pose proof (vib_deferred l2 s1 t A3 A4 A2 A1 CL) as V. cbv zeta in V. destruct V as (V1 & V2 & V3 & V4 & V5 & V6 & V7).
  rewrite S1. split; [exact V7|].
  rewrite run_outs_app, run_outs_app, S1. set (s2 := run_state step s1 (shocks l2)) in *. cbn [run_outs step].
  destruct (loop s2 t3 w3) as [s3 o3] eqn:E3. rewrite !app_assoc, last_last.
  unfold loop in E3. rewrite V2, V1, V4, u32_minus, V3, u32_small in E3 by lia.
  replace (t3 - final t l2 <? 3) with false in E3 by lia. cbn [andb negb] in E3.
  pose proof (clash2_reports (set_pending s2 false (pstab s2) (pstr s2)) t3 w3 (pstab s2) (pstr s2)) as R.
  destruct (Clash2 _ _ _ _ _) as [s4 o4]. injection E3 as _ <-. cbn [snd app] in *. rewrite R, V5, V6, A5, A6. reflexivity.
Qed.

Lemma vibration l t w st v h l2 :
  let l1 := l ++ [Loop t w] in
  ordered 0 l1 -> Forall sane l1 -> steady (hist state0 l1) ->
  In (Report st v h) (List.last (run_outs step state0 l1) []) -> close (if h then 400 else 100) t l2 ->
  Forall (fun os => os = [] \/ exists v, os = [Update v]) (run_outs step (run_state step state0 l1) (shocks l2)) /\
  cstr (run_state step (run_state step state0 l1) (shocks l2)) = strongest (cstr (run_state step state0 l1)) l2.
Proof.
  intros l1 OR SA ST I CL.
  destruct (ordered_app l [Loop t w] 0 OR) as (OR0 & T & T0 & OL & OI).
  apply Forall_app in SA as [SA1 SA2]. inversion SA2 as [|? ? SL _]; subst.
  assert (ST0 : forall a t w os b, hist state0 l = a ++ (Loop t w, os) :: b -> waits ([] ++ a) = true -> held w = true).
  { intros a t' w' os b EQ W. apply (ST a t' w' os (b ++ hist (run_state step state0 l) [Loop t w])); [|exact W].
    unfold l1. rewrite hist_app, EQ, <- app_assoc. reflexivity. }
  destruct (run_last l state0 0 [] OR0 SA1 prot0 eq_refl ST0 T OI) as [P0 PE]. cbn [app] in PE.
  set (s0 := run_state step state0 l) in *.
  assert (HL : pending s0 = true -> held w = true).
  { intros X. apply (ST (hist state0 l) t w (snd (loop s0 t w)) []); [|congruence].
    unfold l1. rewrite hist_app. fold s0. rewrite hist_cons. cbn [step]. destruct (loop s0 t w). reflexivity. }
  assert (S1 : run_state step state0 l1 = fst (loop s0 t w)) by (unfold l1; rewrite run_state_app; reflexivity).
  assert (O1 : List.last (run_outs step state0 l1) [] = snd (loop s0 t w)).
  { unfold l1. rewrite run_outs_app. fold s0. cbn [run_outs step]. destruct (loop s0 t w). rewrite last_last. reflexivity. }
  cbn in OL. rewrite S1. rewrite O1 in I. pose proof (loop_hit s0 t w) as LH. destruct (loop s0 t w) as [s1 o1] eqn:E. cbn [fst snd] in *.
  destruct (loop_ok 0 s0 T t w s1 o1 E P0 (proj1 OL) SL HL) as (A & B & C & D & _).
  destruct (D _ _ _ I) as [[_ PS] PR].
  assert (CO : covers (if h then 400 else 100) s1 t).
  { destruct PR as (L & Q1 & Q2 & Q3 & Q4). rewrite PS in Q4. exists L. repeat split; auto; lia. }
  destruct (vib_absorbed (if h then 400 else 100) l2 s1 t PS LH ltac:(destruct h; lia) CO CL) as (V1 & V2 & V3). auto.
Qed.

(** Effects. *)
Lemma clash2_effect s t w st v b : In (Effect b) (snd (Clash2 s t w st v)) <-> b = st /\ handles w = false /\ is_on w = true /\ lockup w = false.
Proof.
  unfold Clash2. destruct (handles w).
  - cbn. split; [intros [X|[]]; discriminate|intuition discriminate].
  - cbn. destruct (is_on w), (lockup w); cbn; intuition (try discriminate; try congruence).
Qed.
Lemma clash2_report s t w st v a b c : In (Report a b c) (snd (Clash2 s t w st v)) <-> a = st /\ b = v /\ c = handles w.
Proof.
  unfold Clash2. destruct (handles w).
  - cbn. split; [intros [X|[]]; injection X; auto|intros (-> & -> & ->); auto].
  - cbn. split; [intros [X|X]; [injection X; auto|destruct (_ && _); [destruct X as [X|[]]; discriminate|destruct X]]|intros (-> & -> & ->); auto].
Qed.
Lemma effect s t w os b : snd (loop s t w) = os ->
  (In (Effect b) os <-> (exists v, In (Report b v false) os) /\ is_on w = true /\ lockup w = false).
Proof.
  intros <-. unfold loop.
  assert (K : forall s t st v b, In (Effect b) (snd (Clash2 s t w st v)) <-> (exists v', In (Report b v' false) (snd (Clash2 s t w st v))) /\ is_on w = true /\ lockup w = false).
  { intros. rewrite clash2_effect. split.
    - intros (-> & A & B & C). split; [|auto]. exists v. apply clash2_report. auto.
    - intros ((v' & X) & B & C). apply clash2_report in X. intuition. }
  assert (K1 : In (Effect b) (snd (if pending1 s then Clash (set_hit s false (stab1 s) (str1 s)) t w (stab1 s) (str1 s) else (s, []))) <->
    (exists v', In (Report b v' false) (snd (if pending1 s then Clash (set_hit s false (stab1 s) (str1 s)) t w (stab1 s) (str1 s) else (s, [])))) /\ is_on w = true /\ lockup w = false).
  { destruct (pending1 s); [|cbn; split; [contradiction|intros ((? & []) & _)]]. unfold Clash. destruct (_ <? _).
    - destruct (pending _); [|unfold UpdateClashStrength; destruct (_ >? _)]; cbn; (split; [intuition discriminate|intros ((? & X) & _); intuition discriminate]).
    - destruct (held w); [|apply K]. cbn. split; [intuition discriminate|intros ((? & X) & _); intuition discriminate]. }
  destruct (if pending1 s then _ else _) as [s1 o1]. cbn [snd] in K1.
  assert (K2 : In (Effect b) (snd (if pending s1 && negb (u32 (t - last s1) <? timeout s1) then Clash2 (set_pending s1 false (pstab s1) (pstr s1)) t w (pstab s1) (pstr s1) else (s1, []))) <->
    (exists v', In (Report b v' false) (snd (if pending s1 && negb (u32 (t - last s1) <? timeout s1) then Clash2 (set_pending s1 false (pstab s1) (pstr s1)) t w (pstab s1) (pstr s1) else (s1, [])))) /\ is_on w = true /\ lockup w = false).
  { destruct (_ && _); [apply K|]. cbn. split; [contradiction|intros ((? & []) & _)]. }
  destruct (if _ && _ then _ else _) as [s2 o2]. cbn [snd] in *.
  rewrite in_app_iff, K1, K2. split.
  - intros [((v & X) & A)|((v & X) & A)]; (split; [exists v; apply in_or_app; tauto|auto]).
  - intros ((v & X) & A). apply in_app_or in X as [X|X]; [left|right]; (split; [eauto|auto]).
Qed.
