(** Proofs about blades taking turns. *)
From Coq Require Import ZArith List Bool PeanoNat Lia ZifyBool ZifyNat.
From Verif Require Import Machine ArithModel TurnModel TurnSpec.
Import ListNotations.
Open Scope Z_scope.

Lemma is_me_spec c i : is_me c i = true <-> c = Some i.
Proof. unfold is_me. destruct c as [j|]; [|split; discriminate]. destruct (Nat.eqb_spec i j) as [->|N]; split; congruence. Qed.
Fixpoint last_begin (l : option nat) (tr : list event) : option nat :=
  match tr with [] => l | Begin i :: tr => last_begin (Some i) tr | _ :: tr => last_begin l tr end.
Lemma last_begin_app l a b : last_begin l (a ++ b) = last_begin (last_begin l a) b.
Proof. revert l. induction a as [|[] a IH]; intros; cbn; auto. Qed.
Lemma owned_app l a b : owned l (a ++ b) <-> owned l a /\ owned (last_begin l a) b.
Proof. revert l. induction a as [|[] a IH]; intros; cbn; rewrite ?IH; tauto. Qed.
Definition buffer_run (b : buffer) (tr : list event) : buffer := fold_left buffer_after tr b.
Lemma sends_app b x y : sends_own b (x ++ y) <-> sends_own b x /\ sends_own (buffer_run b x) y.
Proof. revert b. induction x as [|e x IH]; intros; cbn; rewrite ?IH; tauto. Qed.


Definition mine (cur : option nat) (i : nat) : Prop := cur = None \/ cur = Some i.
Lemma top_spec i b cur b' cur' : top i b cur = (b', cur') -> at_ b' = AtTop /\ cur' <> Some i /\ (cur' = cur \/ cur' = None) /\ linked b' = linked b /\ style b' = style b /\ (mine cur i -> cur' = None).
Proof.
  unfold top. intros H. injection H as <- <-. cbn. destruct (is_me cur i) eqn:E; repeat split; auto; try congruence.
  - intros ->. cbn in E. rewrite Nat.eqb_refl in E. discriminate.
  - intros [->| ->]; [reflexivity|]. cbn in E. rewrite Nat.eqb_refl in E. discriminate.
Qed.
Lemma power_spec i b cur v b' cur' ev : Power i b cur v = (b', cur', ev) ->
  at_ b' = at_ b /\ linked b' = linked b /\ style b' = style b /\ on b' = on b /\ allow b' = false /\ powered b' = v /\
  (ev = [] /\ cur' = cur \/ cur' = None) /\
  forall l bu, owned l ev /\ sends_own bu ev.
Proof.
  unfold Power. intros H. destruct (powered b) eqn:EP, v; cbn [negb andb] in H; injection H as <- <- <-; cbn [at_ linked style on allow powered]; repeat split; auto; cbn; rewrite ?Nat.eqb_refl; auto.
Qed.
Lemma power_off_spec d i b cur t b' cur' ev : PowerOff d i b cur t = (b', cur', ev) ->
  at_ b' = at_ b /\ linked b' = linked b /\ style b' = style b /\ on b' = on b /\
  (ev = [] /\ cur' = cur \/ cur' = None) /\
  forall l bu, owned l ev /\ sends_own bu ev.
Proof.
  unfold PowerOff. destruct (u32 (t - _) <? d).
  - intros H. injection H as <- <- <-. cbn. repeat split; auto.
  - destruct (Power i _ cur false) as ((b2, c2), e2) eqn:E. apply power_spec in E. intros H. injection H as <- <- <-. cbn [at_ linked style on] in *. tauto.
Qed.
Lemma try_end_spec d i b cur r t b' cur' ev : try_end d i b cur r t = (b', cur', ev) ->
  linked b' = linked b /\ style b' = style b /\ (cur' = cur \/ cur' = None) /\
  (r = false /\ ev = [] /\ at_ b' = AtEnd /\ cur' = cur \/ r = true /\ at_ b' = AtTop /\ cur' <> Some i /\ (mine cur i -> cur' = None)) /\
  (forall l, l = Some i -> owned l ev) /\
  (forall bu, bu = Full i -> sends_own bu ev).
Proof.
  unfold try_end. destruct r; cbn [negb].
  2: { intros H. injection H as <- <- <-. cbn. repeat split; auto. }
  destruct (powered b && allow b).
  - destruct (PowerOff d i _ cur t) as ((b1, c1), e1) eqn:E1. apply power_off_spec in E1. cbn [linked at_ style on] in E1. destruct E1 as (A1 & A2 & A3 & A4 & A5 & A6).
    destruct (top i b1 c1) as (b2, c2) eqn:E2. apply top_spec in E2 as (B1 & B2 & B3 & B4 & B5 & B6). intros H. injection H as <- <- <-.
    split; [congruence|]. split; [congruence|]. split; [destruct A5 as [(_ & ->)| ->], B3 as [->| ->]; auto|]. split.
    { right. repeat split; auto. intros M. apply B6. destruct A5 as [(_ & ->)| ->]; [exact M|left; reflexivity]. }
    split; [intros l ->; cbn; split; [reflexivity|apply (A6 _ Free)]|intros bu ->; cbn; split; [reflexivity|apply (A6 None)]].
  - destruct (top i b cur) as (b2, c2) eqn:E2. apply top_spec in E2 as (B1 & B2 & B3 & B4 & B5 & B6). intros H. injection H as <- <- <-.
    split; [congruence|]. split; [congruence|]. split; [destruct B3 as [->| ->]; auto|]. split; [right; repeat split; auto|]. split; intros ? ->; cbn; auto.
Qed.
(** A frame begun by try_begin. *)
Lemma try_begin_spec d i b cur w b' cur' ev : mine cur i -> try_begin d i b cur w = (b', cur', ev) ->
  linked b' = linked b /\ style b' = style b /\ mine cur' i /\
  (forall l, owned l ev /\ (at_ b' = AtEnd -> cur' = Some i -> last_begin l ev = Some i)) /\
  (re_up w = false -> style b = true -> forall bu, sends_own bu ev /\ (at_ b' = AtEnd -> cur' = Some i -> buffer_run bu ev = Full i)).
Proof.
  intros M. unfold try_begin. destruct (rb w); cbn [negb].
  2: { intros H. injection H as <- <- <-. cbn. repeat split; auto; discriminate. }
  cbn [powered linked at_ style run_ on allow off_req delay_start].
  destruct (powered b) eqn:EP; cbn [negb].
  - destruct (try_end d i _ cur (re w) (now w)) as ((b3, c3), e3) eqn:E3. apply try_end_spec in E3 as (A1 & A2 & A3 & A4 & A5 & A6). cbn [linked style] in A1, A2.
    intros H. injection H as <- <- <-. split; [exact A1|]. split; [exact A2|]. split; [destruct A3 as [->| ->]; [exact M|left; reflexivity]|]. split.
    + intros l. assert (O : last_begin l (Begin i :: (if style b then [Draw i] else [])) = Some i) by (destruct (style b); reflexivity).
      rewrite app_comm_cons. rewrite owned_app, last_begin_app, O. split; [split; [destruct (style b); cbn; auto|apply A5; reflexivity]|].
      intros PC CUR. destruct A4 as [(_ & -> & _)|(_ & P & _)]; [reflexivity|congruence].
    + intros _ S bu. rewrite S. cbn [app sends_own buffer_after fill]. rewrite Nat.eqb_refl. split; [repeat split; apply A6; reflexivity|].
      intros PC CUR. unfold buffer_run. cbn [fold_left buffer_after fill]. rewrite Nat.eqb_refl. destruct A4 as [(_ & -> & _)|(_ & P & _)]; [reflexivity|congruence].
  - destruct (style b && allows w && negb (on b)) eqn:ED.
    + destruct (top i _ cur) as (b2, c2) eqn:E2. apply top_spec in E2 as (B1 & B2 & B3 & B4 & B5 & B6). intros H. injection H as <- <- <-. cbn [linked style] in B4, B5.
      split; [exact B4|]. split; [exact B5|]. split; [left; auto|]. split.
      * intros l. split; [destruct (style b); cbn; auto|congruence].
      * intros _ S bu. rewrite S. split; [cbn; auto|congruence].
    + destruct (Power i _ cur true) as ((b2, c2), e2) eqn:E2. unfold Power in E2. cbn [powered negb andb linked at_ style run_ on allow off_req delay_start] in E2. rewrite ?EP in E2. injection E2 as <- <- <-.
      destruct (re_up w) eqn:ER.
      * destruct (try_end d i _ None true (now w)) as ((b3, c3), e3) eqn:E3. apply try_end_spec in E3 as (A1 & A2 & A3 & A4 & A5 & A6). cbn [linked style] in A1, A2.
        intros H. injection H as <- <- <-. split; [exact A1|]. split; [exact A2|]. split; [destruct A3 as [->| ->]; left; reflexivity|]. split.
        -- intros l. destruct A4 as [(? & _)|(_ & P & _)]; [discriminate|]. split; [|congruence].
           destruct (style b); cbn; repeat split; auto.
        -- discriminate.
      * intros H. injection H as <- <- <-. cbn [linked style goto at_]. split; [reflexivity|]. split; [reflexivity|]. split; [left; reflexivity|]. split.
        -- intros l. split; [destruct (style b); cbn; auto 10|discriminate].
        -- intros _ S bu. rewrite S. split; [cbn; rewrite ?Nat.eqb_refl; auto 30|discriminate].
Qed.
Definition loop_res (i : nat) (b : blade) (cur : option nat) (w : world) (b' : blade) (cur' : option nat) (ev : list event) : Prop :=
  linked b' = linked b /\ style b' = style b /\
  (forall j, j <> i -> cur' = Some j -> cur = Some j /\ ev = []) /\
  (forall l, (at_ b = AtEnd -> cur = Some i -> l = Some i) -> owned l ev /\ (at_ b' = AtEnd -> cur' = Some i -> last_begin l ev = Some i)) /\
  (re_up w = false -> ((at_ b = AtBegin \/ at_ b = AtEnd) -> cur = Some i -> style b = true) -> forall bu, (at_ b = AtEnd -> cur = Some i -> bu = Full i) ->
     sends_own bu ev /\ (at_ b' = AtEnd -> cur' = Some i -> buffer_run bu ev = Full i) /\ ((at_ b' = AtBegin \/ at_ b' = AtEnd) -> cur' = Some i -> style b' = true)).
Lemma loop_spec d i b cur w b' cur' ev : loop d i b cur w = (b', cur', ev) -> loop_res i b cur w b' cur' ev.
Proof.
  assert (TOP : forall b' cur' ev, (let '(b, cur) := top i b cur in (b, cur, [])) = (b', cur', ev) -> loop_res i b cur w b' cur' ev).
  { clear. intros b' cur' ev H. destruct (top i b cur) as (b1, c1) eqn:E. apply top_spec in E as (B1 & B2 & B3 & B4 & B5 & B6). injection H as <- <- <-.
    split; [exact B4|]. split; [exact B5|]. split; [intros j J C; destruct B3; [split; [congruence|reflexivity]|congruence]|].
    split; [intros l L; split; [exact Logic.I|congruence]|]. intros _ _ bu _. split; [exact Logic.I|]. split; [congruence|]. intros [X|X]; congruence. }
  intros H. unfold loop in H. destruct (at_ b) eqn:EA; [exact (TOP _ _ _ H)| | |].
  - destruct (negb (style b) || negb (run_ b)) eqn:ES; [exact (TOP _ _ _ H)|]. destruct cur as [j|]; [exact (TOP _ _ _ H)|].
    assert (ST : style b = true) by (destruct (style b); [reflexivity|discriminate]).
    destruct (off_req b).
    + destruct (PowerOff d i b (Some i) (now w)) as ((b1, c1), e1) eqn:E1. apply power_off_spec in E1 as (A1 & A2 & A3 & A4 & A5 & A6).
      destruct (top i b1 c1) as (b2, c2) eqn:E2. apply top_spec in E2 as (B1 & B2 & B3 & B4 & B5 & B6). injection H as <- <- <-.
      split; [congruence|]. split; [congruence|]. split.
      { intros j J C. destruct B3 as [->| ->]; [|discriminate]. destruct A5 as [(_ & ->)| ->]; congruence. }
      split; [intros l _; split; [apply (A6 _ Free)|congruence]|]. intros _ _ bu _. split; [apply (A6 None)|]. split; [congruence|]. intros [X|X]; congruence.
    + apply try_begin_spec in H as (A1 & A2 & A3 & A4 & A5); [|right; reflexivity]. split; [exact A1|]. split; [exact A2|]. split.
      { intros j J C. destruct A3 as [->| ->]; congruence. }
      split; [intros l _; apply A4|]. intros R _ bu _. destruct (A5 R ST bu) as (X & Y). split; [exact X|]. split; [exact Y|]. congruence.
  - destruct (is_me cur i) eqn:EM; [|exact (TOP _ _ _ H)]. apply is_me_spec in EM. subst cur.
    apply try_begin_spec in H as (A1 & A2 & A3 & A4 & A5); [|right; reflexivity]. split; [exact A1|]. split; [exact A2|]. split.
    { intros j J C. destruct A3 as [->| ->]; congruence. }
    split; [intros l _; apply A4|]. intros R ST bu _. specialize (ST ltac:(left; exact EA) eq_refl). destruct (A5 R ST bu) as (X & Y). split; [exact X|]. split; [exact Y|]. congruence.
  - destruct (is_me cur i) eqn:EM; [|exact (TOP _ _ _ H)]. apply is_me_spec in EM. subst cur.
    apply try_end_spec in H as (A1 & A2 & A3 & A4 & A5 & A6). split; [exact A1|]. split; [exact A2|]. split.
    { intros j J C. destruct A3 as [->| ->]; congruence. }
    split.
    + intros l L. specialize (L EA eq_refl). split; [apply A5; exact L|]. intros P C. destruct A4 as [(_ & -> & _)|(_ & X & _)]; [exact L|congruence].
    + intros R ST bu BU. specialize (BU EA eq_refl). specialize (ST ltac:(right; exact EA) eq_refl). split; [apply A6; exact BU|]. split; [|congruence].
      intros P C. destruct A4 as [(_ & -> & _)|(_ & X & _)]; [exact BU|congruence].
Qed.

Definition ends_safe (s : state) (l : option nat) : Prop := forall i, at_ (blades s i) = AtEnd -> current s = Some i -> l = Some i.
Definition fills_safe (s : state) (bu : buffer) : Prop :=
  (forall i, at_ (blades s i) = AtEnd -> current s = Some i -> bu = Full i) /\
  (forall i, at_ (blades s i) = AtBegin \/ at_ (blades s i) = AtEnd -> current s = Some i -> style (blades s i) = true).
Lemma put_same bs i b : put bs i b i = b.
Proof. unfold put. rewrite Nat.eqb_refl. reflexivity. Qed.
Lemma put_other bs i b j : j <> i -> put bs i b j = bs j.
Proof. unfold put. destruct (Nat.eqb_spec j i); [contradiction|reflexivity]. Qed.
(** Operations that only change flags of one blade. *)
Lemma flags_owned s i b' l : at_ b' = at_ (blades s i) -> ends_safe s l -> ends_safe (State (put (blades s) i b') (current s)) l.
Proof.
  intros A H j. cbn [blades current]. destruct (Nat.eq_dec j i) as [->|N]; [rewrite put_same, A|rewrite put_other by exact N]; apply H.
Qed.
Lemma flags_fills s i b' bu : at_ b' = at_ (blades s i) -> (style (blades s i) = true -> style b' = true) -> fills_safe s bu -> fills_safe (State (put (blades s) i b') (current s)) bu.
Proof.
  intros A ST (H1 & H2). split; intros j; cbn [blades current]; (destruct (Nat.eq_dec j i) as [->|N]; [rewrite put_same, A|rewrite put_other by exact N]); auto.
Qed.
Lemma step_owned d s o s' ev l : step d s o = (s', ev) -> ends_safe s l -> owned l ev /\ ends_safe s' (last_begin l ev).
Proof.
  intros H S. destruct o as [i w|i|i|i|i|i|i|i idle]; cbn [step] in H.
  - destruct (linked (blades s i)); [|injection H as <- <-; split; [exact Logic.I|exact S]].
    destruct (loop (d i) i (blades s i) (current s) w) as ((b', c'), e) eqn:E. injection H as <- <-. apply loop_spec in E as (_ & _ & J & L & _).
    destruct (L l (S i)) as (A & B). split; [exact A|]. intros j. cbn [blades current]. destruct (Nat.eq_dec j i) as [->|N]; [rewrite put_same; exact B|]. rewrite put_other by exact N.
    intros P C. destruct (J j N C) as (C2 & ->). cbn. apply (S j); assumption.
  - injection H as <- <-. split; [exact Logic.I|]. apply flags_owned; [reflexivity|exact S].
  - destruct (Power i (blades s i) (current s) false) as ((b', c'), e) eqn:E. apply power_spec in E as (A1 & _ & _ & _ & _ & _ & A5 & A6). injection H as <- <-.
    split; [apply (A6 l Free)|]. destruct A5 as [(-> & ->)| ->]; [|intros j; discriminate]. apply flags_owned; [exact A1|exact S].
  - injection H as <- <-. split; [exact Logic.I|]. apply flags_owned; [reflexivity|exact S].
  - injection H as <- <-. split; [exact Logic.I|]. apply flags_owned; [reflexivity|exact S].
  - injection H as <- <-. split; [exact Logic.I|]. apply flags_owned; [reflexivity|exact S].
  - injection H as <- <-. split; [exact Logic.I|]. apply flags_owned; [reflexivity|exact S].
  - injection H as <- <-. split; [exact Logic.I|]. apply flags_owned; [reflexivity|exact S].
Qed.
Lemma step_fills d s o s' ev bu : step d s o = (s', ev) -> keeps_style o -> fills_safe s bu -> sends_own bu ev /\ fills_safe s' (buffer_run bu ev).
Proof.
  intros H K S. destruct o as [i w|i|i|i|i|i|i|i idle]; cbn [step keeps_style] in *.
  - destruct (linked (blades s i)); [|injection H as <- <-; split; [exact Logic.I|exact S]].
    destruct (loop (d i) i (blades s i) (current s) w) as ((b', c'), e) eqn:E. injection H as <- <-. apply loop_spec in E as (_ & _ & J & _ & L). destruct S as (S1 & S2).
    destruct (L K (S2 i) bu (S1 i)) as (A & B & C). split; [exact A|]. split; intros j; cbn [blades current]; (destruct (Nat.eq_dec j i) as [->|N]; [rewrite put_same; assumption|]); rewrite put_other by exact N.
    + intros P Q. destruct (J j N Q) as (C2 & ->). cbn. apply (S1 j); assumption.
    + intros P Q. destruct (J j N Q) as (C2 & ->). apply (S2 j); assumption.
  - injection H as <- <-. split; [exact Logic.I|]. apply flags_fills; auto.
  - destruct (Power i (blades s i) (current s) false) as ((b', c'), e) eqn:E. apply power_spec in E as (A1 & _ & A3 & _ & _ & _ & A5 & A6). injection H as <- <-.
    split; [apply (A6 None bu)|]. destruct A5 as [(-> & ->)| ->]; [|split; intros j; discriminate]. apply flags_fills; [exact A1|cbn; congruence|exact S].
  - injection H as <- <-. split; [exact Logic.I|]. apply flags_fills; auto.
  - contradiction.
  - injection H as <- <-. split; [exact Logic.I|]. apply flags_fills; auto.
  - injection H as <- <-. split; [exact Logic.I|]. apply flags_fills; auto.
  - injection H as <- <-. split; [exact Logic.I|]. apply flags_fills; auto.
Qed.
Lemma run_owned d ops : forall s l, ends_safe s l -> owned l (concat (run_outs (step d) s ops)).
Proof.
  induction ops as [|o ops IH]; intros s l S; [exact Logic.I|]. cbn [run_outs]. destruct (step d s o) as (s', ev) eqn:E. cbn [concat].
  destruct (step_owned d s o s' ev l E S) as (A & B). apply owned_app. split; [exact A|]. apply IH. exact B.
Qed.
Lemma run_fills d ops : forall s bu, Forall keeps_style ops -> fills_safe s bu -> sends_own bu (concat (run_outs (step d) s ops)).
Proof.
  induction ops as [|o ops IH]; intros s l F S; [exact Logic.I|]. inversion F; subst. cbn [run_outs]. destruct (step d s o) as (s', ev) eqn:E. cbn [concat].
  destruct (step_fills d s o s' ev l E) as (A & B); [assumption|exact S|]. apply sends_app. split; [exact A|]. apply IH; assumption.
Qed.

(** ** Power *)
Definition about (i : nat) (e : event) : Prop := match e with Begin j | Draw j | Black j | End j | PinOn j | PinOff j => j = i end.
Lemma power_about i b cur v b' cur' ev : Power i b cur v = (b', cur', ev) -> Forall (about i) ev.
Proof. unfold Power. destruct (powered b), v; cbn [negb andb]; intros H; injection H as _ _ <-; repeat constructor. Qed.
Lemma power_off_about d i b cur t b' cur' ev : PowerOff d i b cur t = (b', cur', ev) -> Forall (about i) ev.
Proof.
  unfold PowerOff. destruct (u32 (t - _) <? d); [intros H; injection H as _ _ <-; constructor|].
  destruct (Power i _ cur false) as ((b2, c2), e2) eqn:E. apply power_about in E. intros H. injection H as _ _ <-. exact E.
Qed.
Lemma try_end_about d i b cur r t b' cur' ev : try_end d i b cur r t = (b', cur', ev) -> Forall (about i) ev.
Proof.
  unfold try_end. destruct r; cbn [negb]; [|intros H; injection H as _ _ <-; constructor]. destruct (powered b && allow b).
  - destruct (PowerOff d i _ cur t) as ((b1, c1), e1) eqn:E. apply power_off_about in E. destruct (top i b1 c1). intros H. injection H as _ _ <-. constructor; [reflexivity|exact E].
  - destruct (top i b cur). intros H. injection H as _ _ <-. repeat constructor.
Qed.
Lemma try_begin_about d i b cur w b' cur' ev : try_begin d i b cur w = (b', cur', ev) -> Forall (about i) ev.
Proof.
  unfold try_begin. destruct (rb w); cbn [negb]; [|intros H; injection H as _ _ <-; constructor]. cbn [powered].
  assert (F1 : Forall (about i) (Begin i :: (if style b then [Draw i] else []))) by (destruct (style b); repeat constructor).
  destruct (powered b); cbn [negb].
  - destruct (try_end d i _ cur (re w) (now w)) as ((b3, c3), e3) eqn:E. apply try_end_about in E. intros H. injection H as _ _ <-. rewrite app_comm_cons. apply Forall_app. auto.
  - destruct (style b && allows w && negb (on b)).
    + destruct (top i _ cur). intros H. injection H as _ _ <-. exact F1.
    + destruct (Power i _ cur true) as ((b2, c2), e2) eqn:E2. apply power_about in E2.
      destruct (re_up w).
      * destruct (try_end d i b2 c2 true (now w)) as ((b3, c3), e3) eqn:E. apply try_end_about in E. intros H. injection H as _ _ <-. rewrite app_comm_cons. apply Forall_app. split; [exact F1|]. apply Forall_app. auto.
      * intros H. injection H as _ _ <-. rewrite app_comm_cons. apply Forall_app. split; [exact F1|]. apply Forall_app. auto.
Qed.
Lemma loop_about d i b cur w b' cur' ev : loop d i b cur w = (b', cur', ev) -> Forall (about i) ev.
Proof.
  unfold loop. assert (T : forall b' cur' ev, (let '(b, cur) := top i b cur in (b, cur, @nil event)) = (b', cur', ev) -> Forall (about i) ev).
  { clear. intros b' cur' ev. destruct (top i b cur). intros H. injection H as _ _ <-. constructor. }
  destruct (at_ b); [apply T| | |].
  - destruct (negb (style b) || negb (run_ b)); [apply T|]. destruct cur; [apply T|]. destruct (off_req b); [|apply try_begin_about].
    destruct (PowerOff d i b (Some i) (now w)) as ((b1, c1), e1) eqn:E. apply power_off_about in E. destruct (top i b1 c1). intros H. injection H as _ _ <-. exact E.
  - destruct (is_me cur i); [apply try_begin_about|apply T].
  - destruct (is_me cur i); [apply try_end_about|apply T].
Qed.
Lemma about_off i j ev : Forall (about j) ev -> In (PinOff i) ev -> i = j.
Proof. rewrite Forall_forall. intros F I. exact (F _ I). Qed.

Lemma try_end_armed d i b cur r t b' cur' ev : on b = true -> off_req b = false -> allow b = false -> try_end d i b cur r t = (b', cur', ev) -> armed b' /\ ~ In (PinOff i) ev.
Proof.
  intros A B C. unfold try_end. rewrite C, andb_false_r. destruct r; cbn [negb].
  - unfold top. intros H. injection H as <- _ <-. cbn. unfold armed. cbn. split; [auto|]. intros [|[]]; discriminate.
  - intros H. injection H as <- _ <-. unfold armed. cbn. auto.
Qed.
Lemma try_begin_armed d i b cur w b' cur' ev : on b = true -> off_req b = false -> try_begin d i b cur w = (b', cur', ev) -> armed b' /\ ~ In (PinOff i) ev.
Proof.
  intros A B. unfold try_begin. destruct (rb w); cbn [negb]; [|intros H; injection H as <- _ <-; unfold armed; cbn; repeat split; auto; discriminate].
  cbn [powered linked at_ style run_ on allow off_req delay_start]. rewrite A. cbn [negb]. rewrite andb_false_r.
  destruct (powered b) eqn:EP; cbn [negb].
  - destruct (try_end d i _ cur (re w) (now w)) as ((b3, c3), e3) eqn:E. apply try_end_armed in E as (X & Y); [|exact eq_refl|exact B|reflexivity].
    intros H. injection H as <- _ <-. split; [exact X|]. cbn. intros [|I]; [discriminate|]. apply in_app_or in I as [I|I]; [destruct (style b); cbn in I; [destruct I as [|[]]; discriminate|contradiction]|contradiction].
  - unfold Power. cbn [powered negb andb linked at_ style run_ on allow off_req delay_start].
    assert (N1 : ~ In (PinOff i) (if style b then [Draw i] else [])) by (destruct (style b); cbn; [intros [|[]]; discriminate|auto]).
    assert (N2 : ~ In (PinOff i) [Begin i; Black i; PinOn i; End i; Begin i; Black i; End i; Begin i; Black i; End i]) by (cbn; intuition discriminate).
    destruct (re_up w).
    + destruct (try_end d i _ None true (now w)) as ((b3, c3), e3) eqn:E. apply try_end_armed in E as (X & Y); [|reflexivity|exact B|reflexivity].
      intros H. injection H as <- _ <-. split; [exact X|]. intros [I|I]; [discriminate|]. apply in_app_or in I as [I|I]; [contradiction|]. cbn in I. intuition discriminate.
    + intros H. injection H as <- _ <-. split; [unfold armed; cbn; auto|]. intros [I|I]; [discriminate|]. apply in_app_or in I as [I|I]; [contradiction|]. cbn in I. intuition discriminate.
Qed.
Lemma loop_armed d i b cur w b' cur' ev : armed b -> loop d i b cur w = (b', cur', ev) -> armed b' /\ ~ In (PinOff i) ev.
Proof.
  intros (A & B & C). unfold loop. assert (T : forall b' cur' ev, (let '(b, cur) := top i b cur in (b, cur, @nil event)) = (b', cur', ev) -> armed b' /\ ~ In (PinOff i) ev).
  { clear - A B. intros b' cur' ev. unfold top. intros H. injection H as <- _ <-. unfold armed. cbn. repeat split; auto. discriminate. }
  destruct (at_ b); [apply T| | |].
  - destruct (negb (style b) || negb (run_ b)); [apply T|]. destruct cur; [apply T|]. rewrite B. apply try_begin_armed; assumption.
  - destruct (is_me cur i); [apply try_begin_armed; assumption|apply T].
  - destruct (is_me cur i); [apply try_end_armed; auto|apply T].
Qed.
Lemma step_armed d i s o s' ev : armed (blades s i) -> ~ turns_off i o -> step d s o = (s', ev) -> armed (blades s' i) /\ ~ In (PinOff i) ev.
Proof.
  intros A T H. destruct o as [j w|j|j|j|j|j|j|j idle]; cbn [step turns_off] in *.
  - destruct (linked (blades s j)); [|injection H as <- <-; auto]. destruct (loop (d j) j (blades s j) (current s) w) as ((b', c'), e) eqn:E. injection H as <- <-. cbn [blades].
    destruct (Nat.eq_dec i j) as [->|N]; [rewrite put_same; apply loop_armed in E; assumption|]. rewrite put_other by exact N. split; [exact A|].
    apply loop_about in E. intros I. apply (about_off i j) in I; [contradiction|exact E].
  - injection H as <- <-. cbn [blades]. destruct (Nat.eq_dec i j) as [->|N]; [rewrite put_same|rewrite put_other by exact N]; auto.
  - destruct (Nat.eq_dec i j) as [->|N]; [exfalso; apply T; reflexivity|]. destruct (Power j (blades s j) (current s) false) as ((b', c'), e) eqn:E. apply power_about in E. injection H as <- <-. cbn [blades].
    rewrite put_other by exact N. split; [exact A|]. intros I. apply (about_off i j) in I; [contradiction|exact E].
  - injection H as <- <-. cbn [blades]. destruct (Nat.eq_dec i j) as [->|N]; [rewrite put_same|rewrite put_other by exact N]; auto.
  - injection H as <- <-. cbn [blades]. destruct (Nat.eq_dec i j) as [->|N]; [rewrite put_same|rewrite put_other by exact N]; auto.
  - injection H as <- <-. cbn [blades]. destruct (Nat.eq_dec i j) as [->|N]; [rewrite put_same|rewrite put_other by exact N]; auto. destruct A as (A1 & A2 & A3). unfold armed. cbn. auto.
  - injection H as <- <-. cbn [blades]. destruct (Nat.eq_dec i j) as [->|N]; [rewrite put_same|rewrite put_other by exact N]; auto. destruct A as (A1 & A2 & A3). unfold armed. cbn. auto.
  - injection H as <- <-. cbn [blades]. destruct (Nat.eq_dec i j) as [->|N]; [exfalso; apply T; reflexivity|]. rewrite put_other by exact N. auto.
Qed.
Lemma run_armed d i ops : forall s, armed (blades s i) -> Forall (fun o => ~ turns_off i o) ops -> ~ In (PinOff i) (concat (run_outs (step d) s ops)).
Proof.
  induction ops as [|o ops IH]; intros s A F; [auto|]. inversion F; subst. cbn [run_outs]. destruct (step d s o) as (s', ev) eqn:E. cbn [concat].
  destruct (step_armed d i s o s' ev A) as (B & C); [assumption|exact E|]. rewrite in_app_iff. intros [I|I]; [contradiction|]. revert I. apply IH; assumption.
Qed.

(** ** The delay before powering off *)
Definition timed (d : Z) (i : nat) (b : blade) (t : Z) (b' : blade) (ev : list event) : Prop :=
  (delay_start b' <> 0 -> delay_start b' = delay_start b \/ delay_start b' = t) /\
  (In (PinOff i) ev -> exists st, (st = delay_start b /\ st <> 0 \/ st = t) /\ d <= u32 (t - st)).
Lemma power_off_timed d i b cur t b' cur' ev : PowerOff d i b cur t = (b', cur', ev) -> timed d i b t b' ev.
Proof.
  unfold PowerOff. destruct (Z.eqb_spec (delay_start b) 0) as [E0|E0].
  - destruct (Z.ltb_spec (u32 (t - t)) d) as [L|L].
    + intros H. injection H as <- _ <-. split; cbn; [auto|contradiction].
    + destruct (Power i _ cur false) as ((b2, c2), e2) eqn:E. intros H. injection H as <- _ <-. split; cbn; [congruence|]. intros _. exists t. auto.
  - destruct (Z.ltb_spec (u32 (t - delay_start b)) d) as [L|L].
    + intros H. injection H as <- _ <-. split; cbn; [auto|contradiction].
    + destruct (Power i _ cur false) as ((b2, c2), e2) eqn:E. intros H. injection H as <- _ <-. split; cbn; [congruence|]. intros _. exists (delay_start b). auto.
Qed.
Lemma try_end_timed d i b cur r t b' cur' ev : try_end d i b cur r t = (b', cur', ev) -> timed d i b t b' ev.
Proof.
  unfold try_end. destruct r; cbn [negb].
  - destruct (powered b && allow b).
    + destruct (PowerOff d i _ cur t) as ((b1, c1), e1) eqn:E1. apply power_off_timed in E1 as (A & B). unfold top. intros H. injection H as <- _ <-. split; [exact A|]. cbn. intros [|I]; [discriminate|]. exact (B I).
    + unfold top. intros H. injection H as <- _ <-. split; cbn; [auto|]. intros [|[]]; discriminate.
  - intros H. injection H as <- _ <-. split; cbn; [auto|contradiction].
Qed.
Lemma try_begin_timed d i b cur w b' cur' ev : try_begin d i b cur w = (b', cur', ev) -> timed d i b (now w) b' ev.
Proof.
  unfold try_begin. destruct (rb w); cbn [negb]; [|intros H; injection H as <- _ <-; split; cbn; [auto|contradiction]].
  cbn [powered linked at_ style run_ on allow off_req delay_start].
  assert (N1 : ~ In (PinOff i) (Begin i :: (if style b then [Draw i] else []))) by (destruct (style b); cbn; intuition discriminate).
  destruct (powered b) eqn:EP; cbn [negb].
  - destruct (try_end d i _ cur (re w) (now w)) as ((b3, c3), e3) eqn:E. apply try_end_timed in E as (A & B). intros H. injection H as <- _ <-. split; [exact A|].
    rewrite app_comm_cons, in_app_iff. intros [I|I]; [contradiction|exact (B I)].
  - destruct (style b && allows w && negb (on b)).
    + unfold top. intros H. injection H as <- _ <-. split; cbn [delay_start goto]; [auto|contradiction].
    + unfold Power. cbn [powered negb andb linked at_ style run_ on allow off_req delay_start].
      assert (N2 : ~ In (PinOff i) [Begin i; Black i; PinOn i; End i; Begin i; Black i; End i; Begin i; Black i; End i]) by (cbn; intuition discriminate).
      destruct (re_up w).
      * destruct (try_end d i _ None true (now w)) as ((b3, c3), e3) eqn:E. apply try_end_timed in E as (A & B). intros H. injection H as <- _ <-. split; [exact A|].
        rewrite app_comm_cons, in_app_iff. intros [I|I]; [contradiction|]. cbn in I. repeat (destruct I as [I|I]; [discriminate|]). exact (B I).
      * intros H. injection H as <- _ <-. split; [cbn; auto|]. rewrite app_comm_cons, in_app_iff. intros [I|I]; [contradiction|]. cbn in I. intuition discriminate.
Qed.
Lemma loop_timed d i b cur w b' cur' ev : loop d i b cur w = (b', cur', ev) -> timed d i b (now w) b' ev.
Proof.
  unfold loop. assert (T : forall b' cur' ev, (let '(b, cur) := top i b cur in (b, cur, @nil event)) = (b', cur', ev) -> timed d i b (now w) b' ev).
  { clear. intros b' cur' ev. unfold top. intros H. injection H as <- _ <-. split; cbn; [auto|contradiction]. }
  destruct (at_ b); [apply T| | |].
  - destruct (negb (style b) || negb (run_ b)); [apply T|]. destruct cur; [apply T|]. destruct (off_req b); [|apply try_begin_timed].
    destruct (PowerOff d i b (Some i) (now w)) as ((b1, c1), e1) eqn:E1. apply power_off_timed in E1 as (A & B). unfold top. intros H. injection H as <- _ <-. split; [exact A|exact B].
  - destruct (is_me cur i); [apply try_begin_timed|apply T].
  - destruct (is_me cur i); [apply try_end_timed|apply T].
Qed.
Lemma asked_snoc i past t o : asked_at i past t -> ~ wakes i o -> asked_at i (past ++ [o]) t.
Proof.
  intros (newer & w & older & -> & N & F) W. exists (newer ++ [o]), w, older. split; [rewrite <- app_assoc; reflexivity|]. split; [exact N|]. apply Forall_app. auto.
Qed.
Lemma delays d past : let s := run_state (step d) state0 past in forall i, delay_start (blades s i) <> 0 -> asked_at i past (delay_start (blades s i)).
Proof.
  cbv zeta. induction past as [|o past IH] using rev_ind; intros i; [cbn; congruence|].
  assert (E : forall (s : state) l o, run_state (step d) s (l ++ [o]) = fst (step d (run_state (step d) s l) o)) by (intros s l; revert s; induction l; intros; cbn; auto).
  rewrite E. clear E. set (s := run_state (step d) state0 past) in *. destruct (step d s o) as (s', ev) eqn:H. cbn [fst].
  assert (SAME : delay_start (blades s' i) = delay_start (blades s i) -> ~ wakes i o -> delay_start (blades s' i) <> 0 -> asked_at i (past ++ [o]) (delay_start (blades s' i))).
  { intros Q W N. rewrite Q in *. apply asked_snoc; [apply IH; exact N|exact W]. }
  destruct o as [j w|j|j|j|j|j|j|j idle]; cbn [step wakes] in *.
  - destruct (linked (blades s j)); [|injection H as <- <-; apply SAME; auto]. destruct (loop (d j) j (blades s j) (current s) w) as ((b', c'), e) eqn:E. injection H as <- <-. cbn [blades] in *.
    destruct (Nat.eq_dec i j) as [->|N]; [|rewrite put_other in * by exact N; apply SAME; auto]. rewrite put_same in *. intros NZ. apply loop_timed in E as (A & _).
    destruct (A NZ) as [Q|Q]; [apply SAME; auto|]. rewrite Q. exists [], w, past. auto.
  - injection H as <- <-. cbn [blades] in *. apply SAME; auto. destruct (Nat.eq_dec i j) as [->|N]; [rewrite put_same|rewrite put_other by exact N]; reflexivity.
  - destruct (Power j (blades s j) (current s) false) as ((b', c'), e) eqn:E. injection H as <- <-. cbn [blades] in *. apply SAME; auto.
    destruct (Nat.eq_dec i j) as [->|N]; [rewrite put_same|rewrite put_other by exact N; reflexivity]. cbn. unfold Power in E. destruct (negb _ && _); [|destruct (_ && _)]; injection E as <- _ _; reflexivity.
  - injection H as <- <-. cbn [blades] in *. apply SAME; auto. destruct (Nat.eq_dec i j) as [->|N]; [rewrite put_same|rewrite put_other by exact N]; reflexivity.
  - injection H as <- <-. cbn [blades] in *. apply SAME; auto. destruct (Nat.eq_dec i j) as [->|N]; [rewrite put_same|rewrite put_other by exact N]; reflexivity.
  - injection H as <- <-. cbn [blades] in *. destruct (Nat.eq_dec i j) as [->|N]; [rewrite put_same; cbn; congruence|]. rewrite put_other in * by exact N. apply SAME; auto.
  - injection H as <- <-. cbn [blades] in *. destruct (Nat.eq_dec i j) as [->|N]; [rewrite put_same; cbn; congruence|]. rewrite put_other in * by exact N. apply SAME; auto.
  - injection H as <- <-. cbn [blades] in *. apply SAME; auto. destruct (Nat.eq_dec i j) as [->|N]; [rewrite put_same|rewrite put_other by exact N]; reflexivity.
Qed.

Lemma try_end_ready d i b cur t : mine cur i -> snd (fst (try_end d i b cur true t)) = None.
Proof.
  intros M. destruct (try_end d i b cur true t) as ((b', c'), ev) eqn:E. apply try_end_spec in E as (_ & _ & _ & [(? & _)|(_ & _ & _ & X)] & _); [discriminate|]. apply X. exact M.
Qed.
Lemma try_begin_ready d i b cur w : ready w -> mine cur i -> snd (fst (try_begin d i b cur w)) = None /\ In (Begin i) (snd (try_begin d i b cur w)).
Proof.
  intros (R1 & R2 & R3) M. unfold try_begin. rewrite R1, R2, R3. cbn [negb powered linked at_ style run_ on allow off_req delay_start].
  destruct (powered b); cbn [negb].
  - match goal with |- context [try_end d i ?x cur true ?t] => pose proof (try_end_ready d i x cur t M) as T; destruct (try_end d i x cur true t) as ((b3, c3), e3) end. cbn [fst snd] in *. split; [exact T|left; reflexivity].
  - destruct (style b && allows w && negb (on b)).
    + match goal with |- context [top i ?x cur] => destruct (top i x cur) as (b2, c2) eqn:E end. apply top_spec in E as (_ & _ & _ & _ & _ & X). cbn [fst snd]. split; [apply X; exact M|left; reflexivity].
    + unfold Power. cbn [powered negb andb linked at_ style run_ on allow off_req delay_start].
      match goal with |- context [try_end d i ?x None true ?t] => pose proof (try_end_ready d i x None t ltac:(left; reflexivity)) as T; destruct (try_end d i x None true t) as ((b3, c3), e3) end.
      cbn [fst snd] in *. split; [exact T|left; reflexivity].
Qed.
Lemma loop_ready d i b cur w : ready w -> mine cur i -> snd (fst (loop d i b cur w)) = None.
Proof.
  intros R M. unfold loop. assert (T : snd (fst (let '(b, cur) := top i b cur in (b, cur, @nil event))) = None).
  { destruct (top i b cur) as (b2, c2) eqn:E. apply top_spec in E as (_ & _ & _ & _ & _ & X). cbn. apply X. exact M. }
  destruct (at_ b); [exact T| | |].
  - destruct (negb (style b) || negb (run_ b)); [exact T|]. destruct cur as [j|]; [exact T|]. destruct (off_req b).
    + destruct (PowerOff d i b (Some i) (now w)) as ((b1, c1), e1) eqn:E1. apply power_off_spec in E1 as (_ & _ & _ & _ & C & _). destruct (top i b1 c1) as (b2, c2) eqn:E. apply top_spec in E as (_ & _ & _ & _ & _ & X).
      cbn. apply X. destruct C as [(_ & ->)| ->]; [right|left]; reflexivity.
    + apply try_begin_ready; [exact R|right; reflexivity].
  - destruct (is_me cur i); [apply try_begin_ready; assumption|exact T].
  - destruct (is_me cur i) eqn:EM; [|exact T]. destruct R as (_ & -> & _). apply try_end_ready. exact M.
Qed.

Lemma step_ready_none d s j w : ready w -> current s = None -> current (fst (step d s (Loop j w))) = None.
Proof.
  intros R C. cbn [step]. destruct (linked (blades s j)); [|exact C]. destruct (loop (d j) j (blades s j) (current s) w) as ((b', c'), e) eqn:E. cbn [fst current].
  rewrite C in E. pose proof (loop_ready (d j) j (blades s j) None w R ltac:(left; reflexivity)) as Q. rewrite E in Q. exact Q.
Qed.
Lemma loop_turn d i b w : ready w -> waits_turn b -> In (Begin i) (snd (loop d i b None w)) \/ at_ b <> AtTop /\ waits_turn (fst (fst (loop d i b None w))) /\ at_ (fst (fst (loop d i b None w))) = AtTop.
Proof.
  intros R (L & ST & RU & OF). unfold loop. destruct (at_ b) eqn:EA; cbn [is_me].
  - right. cbn. unfold waits_turn, goto. cbn. auto 10 using Logic.I. split; [discriminate|auto].
  - rewrite ST, RU, OF. cbn [negb orb]. left. apply try_begin_ready; [exact R|right; reflexivity].
  - right. cbn. unfold waits_turn, goto. cbn. split; [discriminate|auto].
  - right. cbn. unfold waits_turn, goto. cbn. split; [discriminate|auto].
Qed.
Lemma others_ready d i ops : forall s, Forall (other_ready i) ops -> current s = None ->
  current (run_state (step d) s ops) = None /\ blades (run_state (step d) s ops) i = blades s i.
Proof.
  induction ops as [|o ops IH]; intros s F C; [auto|]. inversion F as [|? ? (j & w & -> & N & R) F']; subst. cbn [run_state].
  destruct (IH (fst (step d s (Loop j w))) F' (step_ready_none d s j w R C)) as (A & B). split; [exact A|]. rewrite B.
  cbn [step]. destruct (linked (blades s j)); [|reflexivity]. destruct (loop (d j) j (blades s j) (current s) w) as ((b', c'), e). cbn [fst blades]. apply put_other. congruence.
Qed.
Lemma run_outs_app {S' I' O'} (st : S' -> I' -> S' * O') l : forall s l', run_outs st s (l ++ l') = run_outs st s l ++ run_outs st (run_state st s l) l'.
Proof. induction l as [|a l IH]; intros; [reflexivity|]. cbn. destruct (st s a) as (s', o) eqn:E. cbn. rewrite IH. reflexivity. Qed.
Lemma turn_comes d i s w ops w' : current s = None -> waits_turn (blades s i) -> ready w -> Forall (other_ready i) ops -> ready w' ->
  In (Begin i) (concat (run_outs (step d) s (Loop i w :: ops ++ [Loop i w']))).
Proof.
  intros C T R F R'. cbn [run_outs]. destruct (step d s (Loop i w)) as (s1, ev1) eqn:E1. cbn [concat]. apply in_or_app.
  pose proof (step_ready_none d s i w R C) as C1. rewrite E1 in C1. cbn [fst] in C1.
  destruct (loop_turn (d i) i (blades s i) w R T) as [B|(_ & T1 & A1)].
  - left. cbn [step] in E1. destruct T as (L & _). rewrite L, C in E1. destruct (loop (d i) i (blades s i) None w) as ((b', c'), e). injection E1 as _ <-. exact B.
  - right. rewrite run_outs_app, concat_app. apply in_or_app. right. destruct (others_ready d i ops s1 F C1) as (C2 & B2). cbn [run_outs].
    assert (Q : blades s1 i = fst (fst (loop (d i) i (blades s i) None w))).
    { cbn [step] in E1. destruct T as (L & _). rewrite L, C in E1. destruct (loop (d i) i (blades s i) None w) as ((b', c'), e). injection E1 as <- _. cbn. apply put_same. }
    destruct (step d (run_state (step d) s1 ops) (Loop i w')) as (s3, ev3) eqn:E3. cbn [concat]. rewrite app_nil_r. cbn [step] in E3. rewrite B2, C2, Q in E3.
    destruct (loop_turn (d i) i _ w' R' T1) as [B|(N & _)]; [|contradiction]. destruct T1 as (L1 & _). rewrite L1 in E3.
    destruct (loop (d i) i (fst (fst (loop (d i) i (blades s i) None w))) None w') as ((b', c'), e). injection E3 as _ <-. exact B.
Qed.

Lemma stuck d i ops : forall s, current s = Some i -> linked (blades s i) = false -> Forall (no_power_change i) ops -> concat (run_outs (step d) s ops) = [].
Proof.
  induction ops as [|o ops IH]; intros s C L F; [reflexivity|]. inversion F as [|? ? N F']; subst. cbn [run_outs].
  assert (K : exists s', step d s o = (s', []) /\ current s' = Some i /\ linked (blades s' i) = false).
  { destruct o as [j w|j|j|j|j|j|j|j idle]; cbn [step no_power_change] in *; try contradiction; try (eexists; split; [reflexivity|]; split; [exact C|]; cbn [blades];
      destruct (Nat.eq_dec i j) as [->|NE]; [rewrite put_same|rewrite put_other by exact NE]; cbn [linked]; congruence).
    destruct (linked (blades s j)) eqn:EL; [|exists s; auto]. assert (NE : i <> j) by congruence.
    rewrite C. assert (Q : loop (d j) j (blades s j) (Some i) w = (goto (blades s j) AtTop, Some i, [])).
    { unfold loop, top. replace (is_me (Some i) j) with false by (symmetry; apply Nat.eqb_neq; congruence). destruct (at_ (blades s j)); try reflexivity. destruct (_ || _); reflexivity. }
    rewrite Q. eexists. split; [reflexivity|]. split; [reflexivity|]. cbn [blades]. rewrite put_other by exact NE. exact L. }
  destruct K as (s' & -> & C' & L'). cbn. apply IH; assumption.
Qed.

(** ** Power pins and frames *)
Lemma supply_app i a b : forall p, supply_run i p (a ++ b) = match supply_run i p a with None => None | Some p => supply_run i p b end.
Proof. induction a as [|e a IH]; intros p; [reflexivity|]. cbn [app supply_run]. destruct (supply_step i p e); [apply IH|reflexivity]. Qed.
Lemma supply_other i j ev p : i <> j -> Forall (about j) ev -> supply_run i p ev = Some p.
Proof.
  intros N F. revert p. induction F as [|e ev A F IH]; intros p; [reflexivity|]. cbn [supply_run].
  assert (E : supply_step i p e = Some p); [|rewrite E; apply IH].
  destruct e; cbn [about] in A; subst; cbn [supply_step]; destruct (Nat.eqb_spec i j); try congruence; reflexivity.
Qed.
Definition matches (p : supply) (b : blade) : Prop := pins p = powered b /\ (powered b = true -> (3 <= TurnSpec.frames p)%nat).
Definition okay (i : nat) (p : supply) (b' : blade) (ev : list event) : Prop := exists p', supply_run i p ev = Some p' /\ matches p' b'.
Lemma power_okay i b cur v b' cur' ev p : Power i b cur v = (b', cur', ev) -> matches p b -> okay i p b' ev /\ powered b' = v /\ at_ b' = at_ b.
Proof.
  intros H (M1 & M2). unfold Power in H. destruct p as [pn bg ls fr]. cbn [pins TurnSpec.frames] in *.
  destruct (powered b) eqn:P, v; cbn [negb andb] in H; injection H as <- <- <-; (split; [|split; reflexivity]); unfold okay; cbn [supply_run supply_step]; rewrite ?Nat.eqb_refl; cbn [pins begun last_sent TurnSpec.frames]; rewrite M1; cbn [andb];
  eexists; (split; [reflexivity|]); unfold matches; cbn; auto.
Qed.
Lemma power_off_okay d i b cur t b' cur' ev p : PowerOff d i b cur t = (b', cur', ev) -> matches p b -> okay i p b' ev.
Proof.
  unfold PowerOff. intros H M. destruct (_ <? d).
  - injection H as <- <- <-. exists p. split; [reflexivity|exact M].
  - destruct (Power i _ cur false) as ((b2, c2), e2) eqn:E. apply (power_okay _ _ _ _ _ _ _ p) in E as ((p' & R & M') & _); [|exact M]. injection H as <- <- <-. exists p'. auto.
Qed.
Lemma try_end_okay d i b cur r t b' cur' ev p : try_end d i b cur r t = (b', cur', ev) -> matches p b -> powered b = true ->
  okay i p b' ev /\ (at_ b' = AtEnd -> powered b' = true).
Proof.
  unfold try_end. intros H M P. destruct r; cbn [negb] in H.
  - assert (E1 : exists p1, supply_step i p (End i) = Some p1 /\ matches p1 b).
    { destruct M as (M1 & M2). cbn [supply_step]. rewrite Nat.eqb_refl, M1, P. cbn [andb]. specialize (M2 P). apply Nat.leb_le in M2. rewrite M2.
      assert (X : match begun p with Dark => true | _ => true end = true) by (destruct (begun p); reflexivity). rewrite X. eexists. split; [reflexivity|]. split; cbn; [congruence|]. intros _. apply Nat.leb_le in M2. lia. }
    destruct E1 as (p1 & E1 & MP1). destruct (powered b && allow b).
    + destruct (PowerOff d i _ cur t) as ((b1, c1), e1) eqn:E. apply (power_off_okay _ _ _ _ _ _ _ _ p1) in E as (p' & R & M'); [|exact MP1]. unfold top in H. injection H as <- <- <-.
      split; [|discriminate]. exists p'. split; [cbn [supply_run]; rewrite E1; exact R|exact M'].
    + unfold top in H. injection H as <- <- <-. split; [|discriminate]. exists p1. split; [cbn [supply_run]; rewrite E1; reflexivity|exact MP1].
  - injection H as <- <- <-. split; [|intros _; exact P]. exists p. split; [reflexivity|exact M].
Qed.
Lemma try_begin_okay d i b cur w b' cur' ev p : try_begin d i b cur w = (b', cur', ev) -> matches p b -> okay i p b' ev /\ (at_ b' = AtEnd -> powered b' = true).
Proof.
  unfold try_begin. intros H M. destruct (rb w); cbn [negb] in H.
  2:{ injection H as <- <- <-. split; [|discriminate]. exists p. split; [reflexivity|exact M]. }
  cbv zeta in H. set (b1 := Blade (linked b) (at_ b) (style b) (run_ b) (on b) (powered b) (style b && allows w && negb (on b)) (off_req b) (delay_start b)) in H.
  assert (E1 : exists p1, supply_run i p (Begin i :: (if style b then [Draw i] else [])) = Some p1 /\ matches p1 b1).
  { destruct (style b); cbn [supply_run supply_step]; rewrite !Nat.eqb_refl; eexists; (split; [reflexivity|exact M]). }
  destruct E1 as (p1 & E1 & M1). assert (PB : powered b1 = powered b) by reflexivity. set (dis := style b && allows w && negb (on b)) in H.
  set (bq := Blade (linked b1) (at_ b1) (style b1) false (on b1) (powered b1) dis (off_req b1) (delay_start b1)) in H. assert (MQ : matches p1 bq) by exact M1. clearbody bq dis b1. rewrite PB in H. destruct (powered b) eqn:P; cbn [negb] in H.
  - destruct (try_end d i b1 cur (re w) (now w)) as ((b3, c3), e3) eqn:E. apply (try_end_okay _ _ _ _ _ _ _ _ _ p1) in E as ((p' & R & M') & A); [|exact M1|exact PB].
    injection H as <- <- <-. split; [|exact A]. exists p'. rewrite app_comm_cons, supply_app, E1. auto.
  - destruct dis.
    + unfold top in H. injection H as <- <- <-. split; [|discriminate]. exists p1. split; [exact E1|exact MQ].
    + destruct (Power i b1 cur true) as ((b2, c2), e2) eqn:E2. apply (power_okay _ _ _ _ _ _ _ p1) in E2 as ((p2 & R2 & M2) & P2 & _); [|exact M1].
      destruct (re_up w).
      * destruct (try_end d i b2 c2 true (now w)) as ((b3, c3), e3) eqn:E. apply (try_end_okay _ _ _ _ _ _ _ _ _ p2) in E as ((p' & R & M') & A); [|exact M2|exact P2].
        injection H as <- <- <-. split; [|exact A]. exists p'. rewrite app_comm_cons, supply_app, E1, supply_app, R2. auto.
      * injection H as <- <- <-. split; [|intros _; exact P2]. exists p2. rewrite app_nil_r, app_comm_cons, supply_app, E1. split; [exact R2|exact M2].
Qed.
Definition at_end_ok (b : blade) (cur : option nat) (i : nat) : Prop := at_ b = AtEnd -> cur = Some i -> powered b = true.
Lemma loop_okay d i b cur w b' cur' ev p : loop d i b cur w = (b', cur', ev) -> matches p b -> at_end_ok b cur i ->
  okay i p b' ev /\ at_end_ok b' cur' i.
Proof.
  intros H M A. unfold loop in H.
  assert (T : forall b' cur' ev, (let '(b, cur) := top i b cur in (b, cur, @nil event)) = (b', cur', ev) -> okay i p b' ev /\ at_end_ok b' cur' i).
  { clear - M. intros b' cur' ev. unfold top. intros H. injection H as <- <- <-. split; [exists p; split; [reflexivity|exact M]|]. intros X; discriminate. }
  destruct (at_ b) eqn:AT; [apply (T _ _ _ H)| | |].
  - destruct (negb (style b) || negb (run_ b)); [apply (T _ _ _ H)|]. destruct cur; [apply (T _ _ _ H)|]. destruct (off_req b).
    + destruct (PowerOff d i b (Some i) (now w)) as ((b1, c1), e1) eqn:E. apply (power_off_okay _ _ _ _ _ _ _ _ p) in E as (p' & R & M'); [|exact M]. unfold top in H. injection H as <- <- <-.
      split; [exists p'; auto|]. intros X; discriminate.
    + apply (try_begin_okay _ _ _ _ _ _ _ _ p) in H as (X & Y); [|exact M]. split; [exact X|]. intros Q _. exact (Y Q).
  - destruct (is_me cur i); [|apply (T _ _ _ H)]. apply (try_begin_okay _ _ _ _ _ _ _ _ p) in H as (X & Y); [|exact M]. split; [exact X|]. intros Q _. exact (Y Q).
  - destruct (is_me cur i) eqn:ME; [|apply (T _ _ _ H)]. assert (C : cur = Some i) by (unfold is_me in ME; destruct cur; [apply Nat.eqb_eq in ME; congruence|discriminate]).
    apply (try_end_okay _ _ _ _ _ _ _ _ _ p) in H as (X & Y); [|exact M|apply A; assumption]. split; [exact X|]. intros Q _. exact (Y Q).
Qed.
(** The turn passes to another blade only with its own Loop. *)
Lemma power_cur i b cur v b' cur' ev : Power i b cur v = (b', cur', ev) -> cur' = None \/ cur' = cur.
Proof. unfold Power. destruct (powered b), v; cbn [negb andb]; intros H; injection H as _ <- _; auto. Qed.
Lemma power_off_cur d i b cur t b' cur' ev : PowerOff d i b cur t = (b', cur', ev) -> cur' = None \/ cur' = cur.
Proof.
  unfold PowerOff. destruct (_ <? d); [intros H; injection H as _ <- _; auto|]. destruct (Power i _ cur false) as ((b2, c2), e2) eqn:E. apply power_cur in E. intros H. injection H as _ <- _. exact E.
Qed.
Lemma try_end_cur d i b cur r t b' cur' ev : try_end d i b cur r t = (b', cur', ev) -> cur' = None \/ cur' = cur.
Proof.
  unfold try_end, top. destruct r; cbn [negb]; [|intros H; injection H as _ <- _; auto]. destruct (powered b && allow b).
  - destruct (PowerOff d i _ cur t) as ((b1, c1), e1) eqn:E. apply power_off_cur in E. intros H. injection H as _ <- _. destruct (is_me c1 i); [auto|exact E].
  - intros H. injection H as _ <- _. destruct (is_me cur i); auto.
Qed.
Lemma try_begin_cur d i b cur w b' cur' ev : try_begin d i b cur w = (b', cur', ev) -> cur' = None \/ cur' = cur.
Proof.
  unfold try_begin, top. destruct (rb w); cbn [negb]; [|intros H; injection H as _ <- _; auto]. cbv zeta. cbn [powered]. destruct (powered b); cbn [negb].
  - destruct (try_end d i _ cur (re w) (now w)) as ((b3, c3), e3) eqn:E. apply try_end_cur in E. intros H. injection H as _ <- _. exact E.
  - destruct (style b && allows w && negb (on b)).
    + intros H. injection H as _ <- _. destruct (is_me cur i); auto.
    + destruct (Power i _ cur true) as ((b2, c2), e2) eqn:E2. apply power_cur in E2. destruct (re_up w).
      * destruct (try_end d i b2 c2 true (now w)) as ((b3, c3), e3) eqn:E. apply try_end_cur in E. intros H. injection H as _ <- _. destruct E as [->| ->]; auto.
      * intros H. injection H as _ <- _. exact E2.
Qed.
Lemma loop_cur d i b cur w b' cur' ev : loop d i b cur w = (b', cur', ev) -> cur' = None \/ cur' = cur \/ cur' = Some i.
Proof.
  unfold loop. assert (T : forall b' cur' ev, (let '(b, cur) := top i b cur in (b, cur, @nil event)) = (b', cur', ev) -> cur' = None \/ cur' = cur \/ cur' = Some i).
  { intros b1 c1 e1. unfold top. intros H. injection H as _ <- _. destruct (is_me cur i); auto. }
  destruct (at_ b); [apply T| | |].
  - destruct (negb (style b) || negb (run_ b)); [apply T|]. destruct cur; [apply T|]. destruct (off_req b).
    + destruct (PowerOff d i b (Some i) (now w)) as ((b1, c1), e1) eqn:E. apply power_off_cur in E. unfold top. intros H. injection H as _ <- _. destruct (is_me c1 i); [auto|]. destruct E; auto.
    + intros H. apply try_begin_cur in H. tauto.
  - destruct (is_me cur i); [intros H; apply try_begin_cur in H; tauto|apply T].
  - destruct (is_me cur i); [intros H; apply try_end_cur in H; tauto|apply T].
Qed.
Lemma step_okay d i s o s' ev p : step d s o = (s', ev) -> matches p (blades s i) -> at_end_ok (blades s i) (current s) i ->
  okay i p (blades s' i) ev /\ at_end_ok (blades s' i) (current s') i.
Proof.
  intros H M A. assert (K : okay i p (blades s i) []) by (exists p; split; [reflexivity|exact M]).
  destruct o as [j w|j|j|j|j|j|j|j idle]; cbn [step] in H.
  - destruct (linked (blades s j)); [|injection H as <- <-; auto]. destruct (loop (d j) j (blades s j) (current s) w) as ((b', c'), e) eqn:E. injection H as <- <-. cbn [blades current].
    destruct (Nat.eq_dec i j) as [->|N]; [rewrite put_same; apply (loop_okay _ _ _ _ _ _ _ _ p) in E; assumption|]. rewrite put_other by exact N.
    split; [exists p; split; [apply (supply_other i j); [exact N|apply loop_about in E; exact E]|exact M]|].
    apply loop_cur in E. intros X Y. apply A; [exact X|]. destruct E as [E|[E|E]]; congruence.
  - injection H as <- <-. cbn [blades current]. destruct (Nat.eq_dec i j) as [->|N]; [rewrite put_same|rewrite put_other by exact N]; auto.
  - destruct (Power j (blades s j) (current s) false) as ((b', c'), e) eqn:E. injection H as <- <-. cbn [blades current]. destruct (Nat.eq_dec i j) as [->|N].
    + rewrite put_same. pose proof E as E'. apply (power_okay _ _ _ _ _ _ _ p) in E as ((p' & R & M') & P & AT); [|exact M]. split; [exists p'; auto|]. intros X Y. cbn [at_ powered] in *. rewrite AT in X.
      unfold Power in E'. destruct (powered (blades s j)) eqn:PW; cbn [negb andb] in E'; injection E' as _ <- _; [discriminate|]. specialize (A X Y). congruence.
    + rewrite put_other by exact N. split; [exists p; split; [apply (supply_other i j); [exact N|apply power_about in E; exact E]|exact M]|].
      apply power_cur in E. intros X Y. apply A; [exact X|]. destruct E; congruence.
  - injection H as <- <-. cbn [blades current]. destruct (Nat.eq_dec i j) as [->|N]; [rewrite put_same|rewrite put_other by exact N]; auto.
  - injection H as <- <-. cbn [blades current]. destruct (Nat.eq_dec i j) as [->|N]; [rewrite put_same|rewrite put_other by exact N]; auto.
  - injection H as <- <-. cbn [blades current]. destruct (Nat.eq_dec i j) as [->|N]; [rewrite put_same|rewrite put_other by exact N]; auto.
  - injection H as <- <-. cbn [blades current]. destruct (Nat.eq_dec i j) as [->|N]; [rewrite put_same|rewrite put_other by exact N]; auto.
  - injection H as <- <-. cbn [blades current]. destruct (Nat.eq_dec i j) as [->|N]; [rewrite put_same|rewrite put_other by exact N]; auto.
Qed.
Lemma run_okay d i ops : forall s p, matches p (blades s i) -> at_end_ok (blades s i) (current s) i ->
  exists p', supply_run i p (concat (run_outs (step d) s ops)) = Some p' /\ pins p' = powered (blades (run_state (step d) s ops) i).
Proof.
  induction ops as [|o ops IH]; intros s p M A.
  - exists p. split; [reflexivity|]. apply M.
  - cbn [run_outs run_state]. destruct (step d s o) as (s', ev) eqn:E. destruct (step_okay d i s o s' ev p E M A) as ((p1 & R & M1) & A1). cbn [concat].
    rewrite supply_app, R. apply IH; assumption.
Qed.
