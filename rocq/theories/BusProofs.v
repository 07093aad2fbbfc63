(** Proofs for BusModel.v. *)
From Coq Require Import ZArith List Bool Arith Lia ZifyBool.
From Verif Require Import Machine BusModel BusSpec.
Import ListNotations.

Fixpoint succ_in (q : list nat) (x : nat) : option nat :=
  match q with a :: t => if x =? a then hd_error t else succ_in t x | [] => None end.
Definition last_in (q : list nat) : option nat := hd_error (rev q).

Lemma last_snoc q x : last_in (q ++ [x]) = Some x.
Proof. unfold last_in. rewrite rev_app_distr. reflexivity. Qed.
Lemma last_cons h a t : last_in (h :: a :: t) = last_in (a :: t).
Proof.
  unfold last_in. change (rev (h :: a :: t)) with (rev (a :: t) ++ [h]).
  destruct (rev (a :: t)) eqn:E; [|reflexivity]. cbn in E. destruct (rev t); discriminate.
Qed.
Lemma succ_none q x : ~ In x q -> succ_in q x = None.
Proof.
  induction q as [|a t IH]; intros N; [reflexivity|]. cbn. destruct (x =? a) eqn:E.
  - apply Nat.eqb_eq in E. subst. elim N. now left.
  - apply IH. intros I. apply N. now right.
Qed.
Lemma succ_last q l : NoDup (q ++ [l]) -> succ_in (q ++ [l]) l = None.
Proof.
  induction q as [|a t IH]; intros N; cbn.
  - now rewrite Nat.eqb_refl.
  - inversion N as [|? ? A B]; subst. destruct (l =? a) eqn:E.
    + apply Nat.eqb_eq in E. subst. elim A. apply in_or_app. right. now left.
    + now apply IH.
Qed.
Lemma succ_mid q x : In x q -> last_in q <> Some x -> succ_in q x <> None.
Proof.
  induction q as [|a t IH]; intros I L; [elim I|]. cbn. destruct (x =? a) eqn:E.
  - apply Nat.eqb_eq in E. subst. destruct t; [elim L; reflexivity|discriminate].
  - destruct I as [I|I]; [subst; rewrite Nat.eqb_refl in E; discriminate|]. destruct t; [elim I|].
    apply IH; [exact I|]. now rewrite last_cons in L.
Qed.
Lemma succ_snoc q l x y : NoDup (q ++ [l]) ->
  succ_in ((q ++ [l]) ++ [x]) y = if y =? l then Some x else succ_in (q ++ [l]) y.
Proof.
  induction q as [|a t IH]; intros N.
  - cbn. destruct (y =? l) eqn:E; [reflexivity|]. now destruct (y =? x).
  - inversion N as [|? ? A B]; subst. specialize (IH B). cbn [app succ_in].
    destruct (y =? a) eqn:E; [|exact IH].
    apply Nat.eqb_eq in E. subst y. destruct (a =? l) eqn:F.
    + apply Nat.eqb_eq in F. subst. elim A. apply in_or_app. right. now left.
    + destruct t; reflexivity.
Qed.
Lemma is_spec o d : is o d = true <-> o = Some d.
Proof. unfold is. destruct o; [rewrite Nat.eqb_eq|]; split; congruence. Qed.

Record rel (s : lk) (a : queue) : Prop := {
  r_nodup : NoDup (fst a);
  r_cur : cur s = hd_error (fst a);
  r_lst : lst s = last_in (fst a);
  r_nxt : forall x, nxt s x = succ_in (fst a) x;
  r_due : due s = if snd a then 1 else 0;
  r_wait : snd a = true -> fst a <> [] }.

Lemma rel0 : rel lk0 free.
Proof. constructor; cbn; auto; [constructor|discriminate]. Qed.

Lemma member s q d x : rel s (q, d) -> q <> [] ->
  (is (cur s) x || is (lst s) x || negb (isnull (nxt s x)) = existsb (Nat.eqb x) q).
Proof.
  intros R N. destruct R as [ND C L X _ _]. cbn [fst snd] in *. apply eq_true_iff_eq. rewrite !orb_true_iff, !is_spec, existsb_exists, C, L, X.
  split.
  - intros [[H|H]|H].
    + exists x. destruct q; [discriminate|]. injection H as ->. split; [now left|apply Nat.eqb_refl].
    + exists x. unfold last_in in H. split; [|apply Nat.eqb_refl]. apply in_rev. destruct (rev q); [discriminate|]. injection H as ->. now left.
    + exists x. split; [|apply Nat.eqb_refl]. destruct (in_dec Nat.eq_dec x q); [assumption|]. rewrite succ_none in H; [discriminate|assumption].
  - intros (y & I & E). apply Nat.eqb_eq in E. subst y.
    destruct (option_map (Nat.eqb x) (last_in q)) as [[]|] eqn:E.
    + left; right. destruct (last_in q); [|discriminate]. injection E as E. apply Nat.eqb_eq in E. congruence.
    + right. pose proof (succ_mid q x I) as M. destruct (succ_in q x); [reflexivity|]. elim M; [|reflexivity].
      intros F. rewrite F in E. cbn in E. rewrite Nat.eqb_refl in E. discriminate.
    + right. pose proof (succ_mid q x I) as M. destruct (succ_in q x); [reflexivity|]. elim M; [|reflexivity].
      intros F. rewrite F in E. discriminate.
Qed.

Lemma step_rel s a o : rel s a -> allowed a o ->
  exists s', step s o = Some (s', snd (spec_step a o)) /\ rel s' (fst (spec_step a o)).
Proof.
  intros R A. destruct a as [q d]. pose proof R as [ND C L X D Wt]. cbn [fst snd] in *.
  destruct o as [x r i|x i|x|]; cbn [step].
  - unfold I2CLock. destruct i; cbn [negb spec_step]; [|exists s; auto].
    rewrite C. destruct q as [|h t]; cbn.
    + eexists; split; [reflexivity|]. constructor; cbn; auto.
      * constructor; [intros []|constructor].
      * intros y. rewrite X. cbn. now destruct (y =? x).
      * intros E; discriminate.
    + exists s. auto.
  - unfold I2CLockAndRun. destruct i; cbn [negb spec_step]; [|exists s; auto].
    destruct q as [|h t].
    + rewrite C. cbn. eexists; split; [reflexivity|]. constructor; cbn; auto.
      * constructor; [intros []|constructor].
      * intros y. rewrite X. cbn. now destruct (y =? x).
      * intros E; discriminate.
    + rewrite (member s (h :: t) d x R) by discriminate. rewrite C.
      destruct (existsb (Nat.eqb x) (h :: t)) eqn:E; [exists s; auto|].
      assert (NI : ~ In x (h :: t)).
      { intros I. rewrite <- not_true_iff_false in E. apply E. rewrite existsb_exists. exists x. split; [exact I|apply Nat.eqb_refl]. }
      cbn [hd_error isnull negb]. destruct (@exists_last _ (h :: t) ltac:(discriminate)) as (p & l & E').
      rewrite L. rewrite E', last_snoc. eexists; split; [reflexivity|].
      constructor; cbn [fst snd cur lst nxt due].
      * rewrite <- E'. apply NoDup_app_remove_l with (l := []) || idtac.
        rewrite <- (app_nil_r ((h :: t) ++ [x])). rewrite <- app_assoc. cbn [app].
        apply NoDup_Add with (a := x) (l := h :: t); [|split; assumption].
        change (h :: t ++ [x]) with ((h :: t) ++ x :: []). rewrite <- (app_nil_r (h :: t)) at 1. apply Add_app.
      * rewrite <- E'. reflexivity.
      * now rewrite last_snoc.
      * intros y. unfold put. rewrite E' in ND. rewrite succ_snoc by assumption. rewrite X, E'. reflexivity.
      * exact D.
      * intros _ F. now destruct p.
  - unfold I2CUnlock. rewrite C. destruct q as [|h t]; cbn [hd_error is]; [exists s; auto|].
    cbn [spec_step]. destruct (h =? x) eqn:E; [|exists s; auto].
    apply Nat.eqb_eq in E. subst x. rewrite X. cbn [succ_in]. rewrite Nat.eqb_refl.
    inversion ND as [|? ? NI ND']; subst. destruct t as [|a t]; cbn [hd_error isnull].
    + eexists; split; [reflexivity|]. constructor; cbn [fst snd cur lst nxt due]; auto.
      * intros y. rewrite X. cbn. now destruct (y =? h).
    + eexists; split; [reflexivity|]. constructor; cbn [fst snd cur lst nxt due]; auto.
      * rewrite L. apply last_cons.
      * intros y. unfold put. rewrite X. cbn [succ_in]. destruct (y =? h) eqn:E; [|reflexivity].
        apply Nat.eqb_eq in E. subst y. symmetry. apply (succ_none (a :: t)); assumption.
      * rewrite D. destruct d; [|reflexivity]. elim A. cbn. auto.
      * discriminate.
  - cbn [spec_step]. rewrite D. destruct d; [|exists s; auto]. rewrite C.
    destruct q as [|h t]; [elim Wt; reflexivity|]. cbn [hd_error]. eexists; split; [reflexivity|].
    constructor; cbn [fst snd cur lst nxt due]; auto.
Qed.

Lemma play_rel os : forall s a, rel s a -> polite a os ->
  exists s', play s os = Some (s', snd (spec_play a os)) /\ rel s' (fst (spec_play a os)).
Proof.
  induction os as [|o os IH]; intros s a R P; [exists s; auto|].
  destruct P as [A P]. destruct (step_rel s a o R A) as (s1 & E & R1). cbn [play spec_play]. rewrite E.
  destruct (spec_step a o) as [a1 x]. cbn [fst snd] in *. destruct (IH s1 a1 R1 P) as (s2 & E2 & R2). rewrite E2.
  destruct (spec_play a1 os) as [a2 xs]. exists s2. auto.
Qed.

(** * What follows for the queue *)
Definition waiting (a : queue) : list nat := if snd a then fst a else tl (fst a).

Lemma spec_step_ok a o : NoDup (fst a) -> (snd a = true -> fst a <> []) -> allowed a o ->
  NoDup (fst (fst (spec_step a o))) /\ (snd (fst (spec_step a o)) = true -> fst (fst (spec_step a o)) <> []).
Proof.
  destruct a as [q d]. cbn [fst snd]. intros ND N A. destruct o as [x r i|x i|x|]; cbn [spec_step].
  - destruct i; [|auto]. destruct q; cbn; [|auto]. split; [constructor; [intros []|constructor]|discriminate].
  - destruct i; [|auto]. destruct (existsb (Nat.eqb x) q) eqn:E; [auto|]. destruct q as [|h t].
    + cbn. split; [constructor; [intros []|constructor]|discriminate].
    + cbn [fst snd]. split; [|intros _ F; destruct t; discriminate].
      apply NoDup_Add with (a := x) (l := h :: t).
      * rewrite <- (app_nil_r (h :: t)) at 1. apply Add_app.
      * split; [exact ND|]. intros I. rewrite <- not_true_iff_false in E. apply E. rewrite existsb_exists. exists x. split; [exact I|apply Nat.eqb_refl].
  - destruct q as [|h t]; [auto|]. destruct (h =? x) eqn:E; [|auto]. cbn [fst snd]. inversion ND; subst. split; [assumption|].
    destruct t; [|discriminate]. intros F. elim A. cbn. apply Nat.eqb_eq in E. subst. auto.
  - destruct d; cbn [fst snd]; auto.
Qed.

Lemma order_step a o : NoDup (fst a) -> (snd a = true -> fst a <> []) -> allowed a o -> no_recapture o ->
  waiting a ++ accepted [o] [snd (spec_step a o)] = served [o] [snd (spec_step a o)] ++ waiting (fst (spec_step a o)).
Proof.
  destruct a as [q d]. cbn [fst snd]. intros ND N A NR. unfold waiting. destruct o as [x r i|x i|x|]; cbn [spec_step].
  - destruct r; [elim NR|]. destruct i; cbn; rewrite ?app_nil_r; [|reflexivity]. destruct q; cbn; rewrite ?app_nil_r; [|reflexivity].
    destruct d; [elim N; reflexivity|]. reflexivity.
  - destruct i; cbn; rewrite ?app_nil_r; [|reflexivity]. destruct (existsb (Nat.eqb x) q); cbn; rewrite ?app_nil_r; [reflexivity|].
    destruct q as [|h t].
    + destruct d; [elim N; reflexivity|]. reflexivity.
    + cbn. destruct d; reflexivity.
  - cbn. rewrite app_nil_r. destruct q as [|h t]; [reflexivity|]. destruct (h =? x) eqn:E; [|reflexivity]. cbn [fst snd ran app].
    apply Nat.eqb_eq in E. subst. destruct d; [elim A; cbn; auto|]. destruct t; reflexivity.
  - cbn. rewrite app_nil_r. destruct d; cbn; [|reflexivity]. destruct q; [elim N; reflexivity|]. reflexivity.
Qed.

Lemma accepted_cons o os x xs : accepted (o :: os) (x :: xs) = accepted [o] [x] ++ accepted os xs.
Proof. destruct o; cbn; rewrite ?app_nil_r; reflexivity. Qed.
Lemma served_cons o os x xs : served (o :: os) (x :: xs) = served [o] [x] ++ served os xs.
Proof. destruct o; cbn [served]; rewrite ?app_nil_r; reflexivity. Qed.

Lemma order_play os : forall a, NoDup (fst a) -> (snd a = true -> fst a <> []) -> polite a os -> Forall no_recapture os ->
  waiting a ++ accepted os (snd (spec_play a os)) = served os (snd (spec_play a os)) ++ waiting (fst (spec_play a os)).
Proof.
  induction os as [|o os IH]; intros a ND N P F; [cbn; now rewrite app_nil_r|].
  destruct P as [A P]. inversion F as [|? ? NR F']; subst. pose proof (order_step a o ND N A NR) as S1.
  destruct (spec_step_ok a o ND N A) as [ND1 N1]. cbn [spec_play]. destruct (spec_step a o) as [a1 x]. cbn [fst snd] in *.
  specialize (IH a1 ND1 N1 P F'). destruct (spec_play a1 os) as [a2 xs]. cbn [fst snd] in *.
  rewrite accepted_cons, served_cons, app_assoc, S1, <- !app_assoc, IH. reflexivity.
Qed.

Lemma spec_ok os : forall a, NoDup (fst a) -> (snd a = true -> fst a <> []) -> polite a os ->
  NoDup (fst (fst (spec_play a os))) /\ (snd (fst (spec_play a os)) = true -> fst (fst (spec_play a os)) <> []).
Proof.
  induction os as [|o os IH]; intros a ND N P; [auto|]. destruct P as [A P].
  destruct (spec_step_ok a o ND N A) as [ND1 N1]. cbn [spec_play]. destruct (spec_step a o) as [a1 x]. cbn [fst snd] in *.
  specialize (IH a1 ND1 N1 P). destruct (spec_play a1 os). exact IH.
Qed.

(** While the holder keeps the bus nobody is called and nobody else gets it. *)
Definition keeps (d : nat) (o : op) : Prop := o <> Unlock d.
Lemma hold_step d q o : keeps d o ->
  exists q', fst (spec_step (d :: q, false) o) = (d :: q', false) /\
  ran (snd (spec_step (d :: q, false) o)) = None /\
  (forall x r i, o = Lock x r i -> ret (snd (spec_step (d :: q, false) o)) = true -> x = d).
Proof.
  intros K. destruct o as [x r i|x i|x|]; cbn [spec_step].
  - destruct i; cbn; exists q; (split; [reflexivity|split; [reflexivity|]]); intros ? ? ? [= -> -> ?]; [|discriminate].
    intros H. apply andb_true_iff in H. destruct H as [_ H]. apply Nat.eqb_eq in H. auto.
  - destruct i; [|exists q; cbn; repeat split; discriminate]. destruct (existsb _ _); [exists q; cbn; repeat split; discriminate|].
    exists (q ++ [x]). cbn. repeat split; discriminate.
  - destruct (d =? x) eqn:E; [apply Nat.eqb_eq in E; subst; now elim K|]. exists q. cbn. repeat split; discriminate.
  - exists q. cbn. repeat split; discriminate.
Qed.

(** * The bus *)
Local Open Scope Z_scope.
Lemma used_spec s now : 0 <= last s < W -> 0 <= now < W ->
  used s now = ((last s + 2000 - now) mod W <? 2 ^ 31).
Proof.
  intros _ _. unfold used. rewrite negb_involutive.
  assert (R : 0 <= (last s + 2000 - now) mod W < W) by (apply Z.mod_pos_bound; reflexivity).
  set (x := (last s + 2000 - now) mod W) in *. clearbody x. change W with (2 ^ 32) in R. rewrite Z.shiftr_div_pow2 by discriminate.
  apply eq_true_iff_eq. rewrite Z.eqb_eq, Z.ltb_lt. split; intros H.
  - apply Z.div_small_iff in H; lia.
  - apply Z.div_small. lia.
Qed.
Definition age (s : bus) (now : Z) : Z := (now - last s) mod W.
Lemma used_age s now : 0 <= last s < W -> 0 <= now < W ->
  used s now = ((age s now <=? 2000) || (2 ^ 31 + 2000 <? age s now)).
Proof.
  intros L N. rewrite used_spec by assumption. unfold age.
  change W with 4294967296 in *.
  pose proof (Z.div_mod (last s + 2000 - now) 4294967296 ltac:(lia)) as A.
  pose proof (Z.mod_pos_bound (last s + 2000 - now) 4294967296 ltac:(lia)) as A'.
  pose proof (Z.div_mod (now - last s) 4294967296 ltac:(lia)) as B.
  pose proof (Z.mod_pos_bound (now - last s) 4294967296 ltac:(lia)) as B'.
  set (qa := (last s + 2000 - now) / 4294967296) in *. set (ra := (last s + 2000 - now) mod 4294967296) in *.
  set (qb := (now - last s) / 4294967296) in *. set (rb := (now - last s) mod 4294967296) in *. clearbody qa ra qb rb.
  change (2 ^ 31) with 2147483648. lia.
Qed.

Definition binv (s : bus) : Prop := 0 <= last s < 2 ^ 32 /\ (on s = true <-> at_ s = Awake).
Lemma awake_inv s now : 0 <= last s < 2 ^ 32 -> on s = true -> at_ s = Awake -> binv (awake s now).
Proof. intros L O A. unfold awake. destruct (used s now); split; cbn; auto; [tauto|]. split; discriminate. Qed.
Lemma bstep_inv s o : binv s -> binv (bstep s (seen o)).
Proof.
  intros [L O]. destruct o as [t|t]; cbn [seen bstep].
  - split; [apply Z.mod_pos_bound; reflexivity|exact O].
  - unfold Loop. set (now := t mod 2 ^ 32). destruct (at_ s) as [|u| |] eqn:A.
    + cbv zeta. destruct (now <? (now + 1000) mod W); [|apply awake_inv; auto]. split; [exact L|]. cbn.
      split; [intros F; apply O in F; discriminate|discriminate].
    + destruct (now <? u); [|apply awake_inv; auto]. split; [exact L|]. rewrite A. exact O.
    + apply awake_inv; auto. apply O. reflexivity.
    + destruct (used s now); [apply awake_inv; auto|]. split; [exact L|]. rewrite A. exact O.
Qed.
Lemma binv0 : binv bus0.
Proof. split; [cbn; lia|]. cbn. split; discriminate. Qed.
Lemma brun_inv h : forall s, binv s -> binv (Machine.run bstep s (map seen h)).
Proof. induction h as [|o h IH]; intros s I; [exact I|]. cbn. apply IH, bstep_inv, I. Qed.

Lemma age_at s t0 t : last s = t0 mod 2 ^ 32 -> t0 <= t < t0 + 2 ^ 32 -> age s (t mod 2 ^ 32) = t - t0.
Proof.
  intros L H. unfold age. rewrite L. change W with (2 ^ 32). rewrite <- Zminus_mod. apply Z.mod_small. lia.
Qed.
Lemma used_near s t0 t : last s = t0 mod 2 ^ 32 -> t0 <= t <= t0 + 2000 -> used s (t mod 2 ^ 32) = true.
Proof.
  intros L H. rewrite used_age.
  - rewrite (age_at s t0 t L) by lia. lia.
  - rewrite L. apply Z.mod_pos_bound. reflexivity.
  - apply Z.mod_pos_bound. reflexivity.
Qed.
Lemma used_far s t0 t : last s = t0 mod 2 ^ 32 -> t0 + 2000 < t <= t0 + 2000 + 2 ^ 31 -> used s (t mod 2 ^ 32) = false.
Proof.
  intros L H. rewrite used_age.
  - rewrite (age_at s t0 t L) by lia. lia.
  - rewrite L. apply Z.mod_pos_bound. reflexivity.
  - apply Z.mod_pos_bound. reflexivity.
Qed.
Lemma used_again s t0 t : last s = t0 mod 2 ^ 32 -> t0 + 2000 + 2 ^ 31 < t < t0 + 2 ^ 32 -> used s (t mod 2 ^ 32) = true.
Proof.
  intros L H. rewrite used_age.
  - rewrite (age_at s t0 t L) by lia. lia.
  - rewrite L. apply Z.mod_pos_bound. reflexivity.
  - apply Z.mod_pos_bound. reflexivity.
Qed.
Lemma busy_run os : forall s t0, at_ s = Awake -> last s = t0 mod 2 ^ 32 -> busy t0 os ->
  let s' := Machine.run bstep s (map seen os) in on s' = on s /\ ons s' = ons s /\ offs s' = offs s.
Proof.
  induction os as [|o os IH]; intros s t0 A L B; [cbn; auto|]. destruct o as [t|t]; cbn [map Machine.run seen bstep].
  - cbn [inited fst]. specialize (IH (Bus (at_ s) (t mod 2 ^ 32) (on s) (ons s) (offs s)) t A eq_refl B). exact IH.
  - destruct B as [T B]. unfold Loop. rewrite A. unfold awake. rewrite (used_near s t0 t L T). eapply IH; eauto.
Qed.
Lemma idle_run os : forall s t0, at_ s = Asleep -> last s = t0 mod 2 ^ 32 -> Forall (idle t0) os ->
  Machine.run bstep s (map seen os) = s.
Proof.
  induction os as [|o os IH]; intros s t0 A L B; [reflexivity|]. inversion B as [|? ? T B']; subst.
  destruct o as [t|t]; [elim T|]. cbn [map Machine.run seen bstep]. unfold Loop. rewrite A, (used_far s t0 t L T). eapply IH; eauto.
Qed.

(** The last device that got the bus has it. *)
Lemma holder_step a o : no_recapture o -> forall l, (snd a = false -> fst a <> [] -> last_in l = hd_error (fst a)) ->
  let a' := fst (spec_step a o) in
  snd a' = false -> fst a' <> [] -> last_in (l ++ served [o] [snd (spec_step a o)]) = hd_error (fst a').
Proof.
  intros NR l H. destruct a as [q d]. cbn [fst snd] in *. cbv zeta. destruct o as [x r i|x i|x|]; cbn [spec_step].
  - destruct r; [elim NR|]. destruct i; cbn; rewrite ?app_nil_r; [|exact H]. destruct q; cbn; rewrite ?app_nil_r; [|exact H].
    intros _ _. apply last_snoc.
  - destruct i; cbn; rewrite ?app_nil_r; [|exact H]. destruct (existsb (Nat.eqb x) q); cbn; rewrite ?app_nil_r; [exact H|].
    destruct q as [|h t].
    + cbn. intros _ _. apply last_snoc.
    + cbn. rewrite app_nil_r. intros D _. apply H; [exact D|discriminate].
  - cbn. destruct q as [|h t]; cbn; [intros _ F; now elim F|]. destruct (h =? x)%nat; cbn; rewrite app_nil_r; [|exact H].
    destruct t; [intros _ F; now elim F|discriminate].
  - cbn. destruct d; cbn; [|rewrite app_nil_r; exact H]. intros _ N. destruct q; [now elim N|]. cbn. apply last_snoc.
Qed.
Lemma holder_play os : forall a l, Forall no_recapture os -> (snd a = false -> fst a <> [] -> last_in l = hd_error (fst a)) ->
  let a' := fst (spec_play a os) in
  snd a' = false -> fst a' <> [] -> last_in (l ++ served os (snd (spec_play a os))) = hd_error (fst a').
Proof.
  induction os as [|o os IH]; intros a l F H; [cbn; now rewrite app_nil_r|].
  inversion F as [|? ? NR F']; subst. pose proof (holder_step a o NR l H) as S1. cbn [spec_play].
  destruct (spec_step a o) as [a1 x]. cbn [fst snd] in S1. specialize (IH a1 (l ++ served [o] [x]) F' S1).
  destruct (spec_play a1 os) as [a2 xs]. cbn [fst snd] in *. rewrite served_cons, app_assoc. exact IH.
Qed.
Lemma play_app a b : forall s, play s (a ++ b) =
  match play s a with None => None | Some (s1, xs) => match play s1 b with None => None | Some (s2, ys) => Some (s2, xs ++ ys) end end.
Proof.
  induction a as [|o a IH]; intros s; cbn.
  - destruct (play s b) as [[]|]; reflexivity.
  - destruct (step s o) as [[s1 x]|]; [|reflexivity]. rewrite IH. destruct (play s1 a) as [[s2 xs]|]; [|reflexivity].
    destruct (play s2 b) as [[]|]; reflexivity.
Qed.
Lemma polite_app a b : forall s, polite s (a ++ b) <-> polite s a /\ polite (fst (spec_play s a)) b.
Proof.
  induction a as [|o a IH]; intros s; cbn; [tauto|]. destruct (spec_step s o) as [s1 x]. cbn [fst]. rewrite IH.
  destruct (spec_play s1 a); cbn. tauto.
Qed.
Lemma served_app a b xs ys : length a = length xs -> served (a ++ b) (xs ++ ys) = served a xs ++ served b ys.
Proof.
  revert xs. induction a as [|o a IH]; intros [|x xs] L; try discriminate; [reflexivity|].
  cbn [app]. rewrite served_cons, (served_cons o a), IH, app_assoc by (cbn in L; lia). reflexivity.
Qed.
Lemma spec_len os : forall s, length (snd (spec_play s os)) = length os.
Proof.
  induction os as [|o os IH]; intros s; [reflexivity|]. cbn [spec_play]. destruct (spec_step s o) as [s1 x]. specialize (IH s1).
  destruct (spec_play s1 os). cbn in *. congruence.
Qed.
(** The state after a device got the bus. *)
Lemma served_state a o d : no_recapture o -> (snd a = true -> fst a <> []) -> served [o] [snd (spec_step a o)] = [d] -> exists q, fst (spec_step a o) = (d :: q, false).
Proof.
  destruct a as [q c]. intros NR N. cbn [fst snd] in N. destruct o as [x r i|x i|x|]; cbn [spec_step].
  - destruct r; [elim NR|]. destruct i; [|discriminate]. destruct q as [|h t]; [|discriminate]. cbn. intros [= ->].
    destruct c; [now elim N|]. eauto.
  - destruct i; [|discriminate]. destruct (existsb _ _); [discriminate|]. destruct q as [|h t]; [|discriminate]. cbn. intros [= ->].
    destruct c; [now elim N|]. eauto.
  - destruct q as [|h t]; [discriminate|]. destruct (h =? x)%nat; discriminate.
  - destruct c; [|discriminate]. cbn. destruct q; [discriminate|]. cbn. intros [= ->]. eauto.
Qed.
Lemma hold_play d os : forall q, Forall (keeps d) os -> Forall2 (quiet d) os (snd (spec_play (d :: q, false) os)).
Proof.
  induction os as [|o os IH]; intros q F; [constructor|]. inversion F as [|? ? K F']; subst.
  destruct (hold_step d q o K) as (q' & E & R & L). cbn [spec_play]. destruct (spec_step (d :: q, false) o) as [s1 x]. cbn [fst snd] in *. subst s1.
  specialize (IH q' F'). destruct (spec_play (d :: q', false) os) as [s2 xs]. cbn [snd] in *. constructor; [|exact IH].
  split; [exact R|]. destruct o; auto. intros T. eapply L; eauto.
Qed.
