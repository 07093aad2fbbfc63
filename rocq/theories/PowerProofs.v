From Coq Require Import ZArith List Bool Lia ZifyBool.
From Verif Require Import Machine PowerModel PowerSpec.
Import ListNotations.
Open Scope Z_scope.

Lemma run_state_app a b s : run_state step s (a ++ b) = run_state step (run_state step s a) b.
Proof. revert s. induction a; intros; cbn; auto. Qed.
Lemma run_outs_app a b s : run_outs step s (a ++ b) = run_outs step s a ++ run_outs step (run_state step s a) b.
Proof. revert s. induction a as [|x a IH]; intros; cbn; auto. destruct (step s x) eqn:E. cbn. f_equal. apply IH. Qed.
Lemma none_spec a : none a = true <-> forall b, 0 <= b -> Z.testbit a b = false.
Proof.
  unfold none. rewrite Z.eqb_eq. split.
  - intros -> b _. apply Z.testbit_0_l.
  - intros H. apply Z.bits_inj. intros b. rewrite Z.testbit_0_l. destruct (Z_lt_dec b 0); [apply Z.testbit_neg_r; auto|apply H; lia].
Qed.
Lemma dark_0 s : dark s <-> on s = 0.
Proof. unfold dark, lit. rewrite <- none_spec. unfold none. lia. Qed.
Lemma without_bit a b i : 0 <= i -> Z.testbit (without a b) i = Z.testbit a i && negb (Z.testbit b i).
Proof. intros. unfold without. apply Z.ldiff_spec. Qed.
Lemma land_all a : Z.land (-1) a = a.
Proof. apply Z.land_m1_l. Qed.
Lemma ldiff_all a : Z.ldiff a a = 0.
Proof. apply Z.ldiff_diag. Qed.

(** What each function does to the fields that matter. *)
Arguments mono : simpl never.
Arguments mono_lock : simpl never.
Ltac brk := repeat (match goal with |- context[match ?x with _ => _ end] => lazymatch x with context[match _ with _ => _ end] => fail | _ => destruct x eqn:? end end; cbn in * ).
Ltac open s := let f := fresh "f" in destruct s as [? ? f ? ? ? ? ? ? ? ? ? ?]; destruct f.
Definition rest_same (s t : state) : Prop :=
  lockup t = lockup s /\ lock_player t = lock_player s /\ volume t = volume s /\ muted_volume t = muted_volume s /\ unmute_off t = unmute_off s /\ stored t = stored s.
Lemma SB_On_on s fr : on (SB_On s fr) = on s.
Proof. open s. unfold SB_On, PlayMonophonic. cbn. brk; reflexivity. Qed.
Lemma SB_On_pending s fr : pending (SB_On s fr) = false.
Proof. open s. unfold SB_On, PlayMonophonic. cbn. brk; reflexivity. Qed.
Lemma SB_On_active s fr : humming (fst_ (SB_On s fr)).
Proof. open s. unfold SB_On, PlayMonophonic, humming. cbn. brk; auto. Qed.
Lemma SB_On_rest s fr : rest_same s (SB_On s fr).
Proof. open s. unfold SB_On, PlayMonophonic, rest_same. cbn. brk; repeat split; reflexivity. Qed.
Lemma SB_Off_on s ty loc fr : on (fst (SB_Off s ty loc fr)) = on s /\ pending (fst (SB_Off s ty loc fr)) = pending s.
Proof. open s. unfold SB_Off, PlayMonophonic. destruct ty; cbn; brk; split; reflexivity. Qed.
Lemma SB_Off_rest s ty loc fr : rest_same s (fst (SB_Off s ty loc fr)).
Proof. open s. unfold SB_Off, PlayMonophonic, rest_same. destruct ty; cbn; brk; repeat split; reflexivity. Qed.
Lemma SB_Off_out s ty loc fr o : In o (snd (SB_Off s ty loc fr)) -> o = Crash.
Proof. open s. unfold SB_Off, PlayMonophonic. destruct ty; cbn; brk; intuition. Qed.
Lemma SB_Preon_on s loc fr : on (SB_Preon s loc fr) = on s /\ fst_ (SB_Preon s loc fr) = STATE_WAIT_FOR_ON /\ saved (SB_Preon s loc fr) = loc /\ rest_same s (SB_Preon s loc fr).
Proof. open s. unfold SB_Preon, rest_same. cbn. brk; repeat split; reflexivity. Qed.
Lemma SetMute_same s m : on (fst (SetMute s m)) = on s /\ pending (fst (SetMute s m)) = pending s /\ fst_ (fst (SetMute s m)) = fst_ s /\ saved (fst (SetMute s m)) = saved s /\
  fnt (fst (SetMute s m)) = fnt s /\ hum (fst (SetMute s m)) = hum s /\ check_postoff (fst (SetMute s m)) = check_postoff s /\ lockup (fst (SetMute s m)) = lockup s /\ lock_player (fst (SetMute s m)) = lock_player s.
Proof. open s. unfold SetMute. cbn. brk; repeat split; reflexivity. Qed.

(** * Each blade's light *)
Lemma tell_none b os : fold_left (tell b) os None = None.
Proof. induction os; auto. Qed.
Lemma tell_app b x y l : fold_left (tell b) (x ++ y) l = fold_left (tell b) y (fold_left (tell b) x l).
Proof. apply fold_left_app. Qed.
Lemma tell_other b os l : Forall (fun o => light_effect o = false) os -> fold_left (tell b) os l = l.
Proof. intros H. revert l. induction H as [|o os H _ IH]; intros l; [auto|]. cbn. rewrite IH. destruct o, l; try discriminate H; reflexivity. Qed.
Lemma quiet_off s ty loc fr : Forall (fun o => light_effect o = false) (snd (SB_Off s ty loc fr)).
Proof. apply Forall_forall. intros o I. apply SB_Off_out in I. subst. reflexivity. Qed.

Lemma TurnOn_tell b s loc fr : 0 <= b ->
  fold_left (tell b) (snd (TurnOn s loc fr)) (Some (lit s b)) = Some (lit (fst (TurnOn s loc fr)) b) /\
  lit (fst (TurnOn s loc fr)) b = lit s b || Z.testbit loc b.
Proof.
  intros B. unfold TurnOn. destruct (none (without loc (on s))) eqn:N.
  - cbn. split; [auto|]. rewrite none_spec in N. specialize (N b B). rewrite without_bit in N by auto. unfold lit. destruct (Z.testbit (on s) b), (Z.testbit loc b); auto; discriminate.
  - cbn [fst snd]. unfold lit. rewrite SB_On_on. cbn [on set_on]. rewrite Z.lor_spec. cbn. rewrite without_bit by auto.
    destruct (Z.testbit (on s) b), (Z.testbit loc b); auto.
Qed.
Lemma TurnOff_lit b s ty loc fr : 0 <= b -> lit (fst (TurnOff s ty loc fr)) b = lit s b && negb (Z.testbit loc b).
Proof.
  intros B. unfold TurnOff. destruct (none (Z.land loc (on s))) eqn:N.
  - rewrite none_spec in N. specialize (N b B). rewrite Z.land_spec in N. cbn. unfold lit. destruct (Z.testbit (on s) b), (Z.testbit loc b); auto; discriminate.
  - destruct (SB_Off _ _ _ _) as [s1 o1] eqn:E. pose proof (SB_Off_on (set_on s (without (on s) (Z.land loc (on s)))) ty (Z.land loc (on s)) fr) as [P _]. rewrite E in P. cbn in *.
    unfold lit. rewrite P. cbn. rewrite without_bit, Z.land_spec by auto. destruct (Z.testbit (on s) b), (Z.testbit loc b); auto.
Qed.
Lemma TurnOff_tell b s ty loc fr : 0 <= b -> ty = OFF_NORMAL \/ ty = OFF_FAST \/ ty = OFF_BLAST ->
  fold_left (tell b) (snd (TurnOff s ty loc fr)) (Some (lit s b)) = Some (lit (fst (TurnOff s ty loc fr)) b).
Proof.
  intros B T. rewrite TurnOff_lit by auto. unfold TurnOff. destruct (none (Z.land loc (on s))) eqn:N.
  - rewrite none_spec in N. specialize (N b B). rewrite Z.land_spec in N. cbn. unfold lit. destruct (Z.testbit (on s) b), (Z.testbit loc b); auto; discriminate.
  - pose proof (quiet_off (set_on s (without (on s) (Z.land loc (on s)))) ty (Z.land loc (on s)) fr) as Q.
    destruct (SB_Off _ _ _ _) as [s1 o1]. cbn [snd] in *. rewrite tell_app, (tell_other b o1) by exact Q.
    unfold lit. destruct T as [->|[->| ->]]; cbn; rewrite Z.land_spec; destruct (Z.testbit (on s) b), (Z.testbit loc b); auto.
Qed.
Lemma end_lockup_same s fr : on (fst (end_lockup s fr)) = on s /\ pending (fst (end_lockup s fr)) = pending s /\ fst_ (fst (end_lockup s fr)) = fst_ s /\ saved (fst (end_lockup s fr)) = saved s /\
  fnt (fst (end_lockup s fr)) = fnt s /\ check_postoff (fst (end_lockup s fr)) = check_postoff s /\ lockup (fst (end_lockup s fr)) = 0 /\ lock_player (fst (end_lockup s fr)) = None /\
  volume (fst (end_lockup s fr)) = volume s /\ muted_volume (fst (end_lockup s fr)) = muted_volume s /\ unmute_off (fst (end_lockup s fr)) = unmute_off s /\ stored (fst (end_lockup s fr)) = stored s.
Proof. open s. unfold end_lockup, PlayMonophonic. cbn. brk; repeat split; reflexivity. Qed.

(** [do_off] in parts. *)
Definition off_lock (s : state) (fr : bool) : state := if lockup s =? 0 then s else fst (end_lockup s fr).
Definition off_lock_out (s : state) : list out := if lockup s =? 0 then [] else [LOCKUP_END (lockup s)].
Definition off_mute (s : state) : state := if unmute_off s then fst (SetMute (set_vol s (volume s) (muted_volume s) false) false) else s.
Lemma do_off_eq s ty loc fr : pending s = false -> on s <> 0 ->
  do_off s ty loc fr = (off_mute (fst (TurnOff (off_lock s fr) ty loc fr)), off_lock_out s ++ snd (TurnOff (off_lock s fr) ty loc fr)).
Proof.
  intros P O. unfold do_off, off_lock, off_lock_out, off_mute, end_lockup. rewrite P. replace (none (on s)) with false by (unfold none; lia).
  destruct (lockup s =? 0); destruct (TurnOff _ _ _ _); reflexivity.
Qed.
Lemma off_mute_same s : on (off_mute s) = on s /\ pending (off_mute s) = pending s /\ fst_ (off_mute s) = fst_ s /\ saved (off_mute s) = saved s /\ fnt (off_mute s) = fnt s /\
  hum (off_mute s) = hum s /\ check_postoff (off_mute s) = check_postoff s /\ lockup (off_mute s) = lockup s /\ lock_player (off_mute s) = lock_player s.
Proof. unfold off_mute. destruct (unmute_off s); [|repeat split]. apply (SetMute_same (set_vol s (volume s) (muted_volume s) false) false). Qed.
Lemma off_lock_same s fr : on (off_lock s fr) = on s /\ pending (off_lock s fr) = pending s /\ fst_ (off_lock s fr) = fst_ s /\ saved (off_lock s fr) = saved s /\ fnt (off_lock s fr) = fnt s /\
  check_postoff (off_lock s fr) = check_postoff s /\ lockup (off_lock s fr) = 0.
Proof. unfold off_lock. destruct (lockup s =? 0) eqn:E; [repeat split; lia|]. destruct (end_lockup_same s fr) as (? & ? & ? & ? & ? & ? & ? & _). repeat split; assumption. Qed.

Lemma do_off_tell b s ty loc fr : 0 <= b -> ty = OFF_NORMAL \/ ty = OFF_FAST \/ ty = OFF_BLAST -> (pending s = true -> on s = 0) ->
  fold_left (tell b) (snd (do_off s ty loc fr)) (Some (lit s b)) = Some (lit (fst (do_off s ty loc fr)) b).
Proof.
  intros B T P. destruct (pending s) eqn:EP.
  - specialize (P eq_refl). unfold do_off. rewrite EP.
    pose proof (quiet_off (set_on (set_pending s false) 0) OFF_CANCEL_PREON all fr) as Q. pose proof (SB_Off_on (set_on (set_pending s false) 0) OFF_CANCEL_PREON all fr) as [O _].
    destruct (SB_Off _ _ _ _) as [s1 o1]. cbn [fst snd] in *. rewrite (tell_other b o1) by exact Q. unfold lit. rewrite P, O. reflexivity.
  - destruct (Z.eq_dec (on s) 0) as [Z0|NZ].
    + unfold do_off. rewrite EP. replace (none (on s)) with true by (unfold none; lia). reflexivity.
    + rewrite do_off_eq by auto. cbn [fst snd]. rewrite tell_app. rewrite (tell_other b (off_lock_out s)) by (unfold off_lock_out; destruct (lockup s =? 0); repeat constructor).
      destruct (off_lock_same s fr) as (LO & _). replace (lit s b) with (lit (off_lock s fr) b) by (unfold lit; rewrite LO; auto).
      rewrite TurnOff_tell by auto. destruct (off_mute_same (fst (TurnOff (off_lock s fr) ty loc fr))) as (MO & _). unfold lit. rewrite MO. reflexivity.
Qed.
Lemma do_fast_on_tell b s loc r fr : 0 <= b ->
  fold_left (tell b) (snd (do_fast_on s loc r fr)) (Some (lit s b)) = Some (lit (fst (do_fast_on s loc r fr)) b).
Proof.
  intros B. unfold do_fast_on. destruct (CommonIgnition s loc r); [|reflexivity]. destruct (TurnOn s loc fr) as [s1 o1] eqn:E.
  destruct (TurnOn_tell b s loc fr B) as [T _]. rewrite E in T. cbn [fst snd] in *. rewrite tell_app, T. reflexivity.
Qed.
Lemma do_on_same s loc r fr : on (fst (do_on s loc r fr)) = on s /\ Forall (fun o => light_effect o = false) (snd (do_on s loc r fr)).
Proof.
  unfold do_on. destruct (CommonIgnition s loc r); [|repeat split; constructor]. cbn [fst snd]. split; [|repeat constructor].
  cbn [on set_pending]. apply SB_Preon_on.
Qed.

Definition plain (o : op) : Prop := match o with On _ _ _ | FastOn _ _ _ | Off _ _ _ | Loop _ _ _ | SetPreset _ _ _ _ => False | _ => True end.
Lemma plain_same s o : plain o -> on (fst (step s o)) = on s /\ pending (fst (step s o)) = pending s /\ Forall (fun x => light_effect x = false) (snd (step s o)).
Proof.
  intros P. open s. destruct o; try contradiction; unfold step, chdir, begin_lockup, end_lockup, PlayMonophonic, SetMute, SB_Off; cbn; brk; repeat apply conj; auto; repeat constructor.
Qed.
Lemma TurnOn_pending s loc fr : pending (fst (TurnOn s loc fr)) = true -> pending s = true /\ on (fst (TurnOn s loc fr)) = on s.
Proof. unfold TurnOn. destruct (none _); cbn [fst]; [auto|]. rewrite SB_On_pending. discriminate. Qed.
Lemma do_off_pending s ty loc fr : pending (fst (do_off s ty loc fr)) = false.
Proof.
  unfold do_off. destruct (pending s) eqn:P.
  - pose proof (SB_Off_on (set_on (set_pending s false) 0) OFF_CANCEL_PREON all fr) as [_ Q]. destruct (SB_Off _ _ _ _). cbn in *. auto.
  - destruct (none (on s)) eqn:N; [auto|].
    destruct (off_lock_same s fr) as (_ & LP & _).
    assert (E : pending (fst (do_off s ty loc fr)) = false).
    { rewrite do_off_eq by (auto; unfold none in N; lia). cbn [fst]. destruct (off_mute_same (fst (TurnOff (off_lock s fr) ty loc fr))) as (_ & -> & _).
      unfold TurnOff. destruct (none (Z.land loc (on (off_lock s fr)))); [cbn; congruence|].
      pose proof (SB_Off_on (set_on (off_lock s fr) (without (on (off_lock s fr)) (Z.land loc (on (off_lock s fr))))) ty (Z.land loc (on (off_lock s fr))) fr) as [_ Q].
      destruct (SB_Off _ _ _ _). cbn [fst pending set_on] in *. congruence. }
    unfold do_off in E. rewrite P, N in E. exact E.
Qed.
Lemma do_off_all s ty fr : on (fst (do_off s ty all fr)) = 0.
Proof.
  unfold do_off. destruct (pending s) eqn:P.
  - pose proof (SB_Off_on (set_on (set_pending s false) 0) OFF_CANCEL_PREON all fr) as [Q _]. destruct (SB_Off _ _ _ _). cbn in *. auto.
  - destruct (none (on s)) eqn:N; [unfold none in N; cbn; lia|].
    assert (E : on (fst (do_off s ty all fr)) = 0).
    { rewrite do_off_eq by (auto; unfold none in N; lia). cbn [fst]. destruct (off_mute_same (fst (TurnOff (off_lock s fr) ty all fr))) as (-> & _).
      apply Z.bits_inj. intros b. rewrite Z.testbit_0_l. destruct (Z_lt_dec b 0); [apply Z.testbit_neg_r; auto|].
      change (lit (fst (TurnOff (off_lock s fr) ty all fr)) b = false). rewrite TurnOff_lit by lia. unfold all. rewrite Z.bits_m1 by lia. apply andb_false_r. }
    unfold do_off in E. rewrite P, N in E. exact E.
Qed.

Lemma do_preset_cases s f r slow fr : exists s1 o1,
  (IsOn s = false /\ s1 = s /\ o1 = [] \/ IsOn s = true /\ s1 = fst (do_off s OFF_NORMAL all fr) /\ o1 = snd (do_off s OFF_NORMAL all fr)) /\
  on s1 = 0 /\ pending s1 = false /\
  let q := if IsOn s && none (on s) then all else on s in
  do_preset s f r slow fr =
    (fst (if none q then (chdir s1 f, []) else if slow then do_on (chdir s1 f) q r fr else do_fast_on (chdir s1 f) q r fr),
     o1 ++ snd (if none q then (chdir s1 f, []) else if slow then do_on (chdir s1 f) q r fr else do_fast_on (chdir s1 f) q r fr)).
Proof.
  unfold do_preset. destruct (IsOn s) eqn:I.
  - exists (fst (do_off s OFF_NORMAL all fr)), (snd (do_off s OFF_NORMAL all fr)). repeat apply conj; auto.
    + apply do_off_all.
    + apply do_off_pending.
    + destruct (do_off s OFF_NORMAL all fr) as [s1 o1]. cbn [fst snd andb]. destruct (none (on s)); cbn [andb]; brk; reflexivity.
  - exists s, []. unfold IsOn in I. apply orb_false_iff in I. destruct I as [N P]. repeat apply conj; auto.
    + unfold none in N. lia.
    + cbn [andb]. rewrite negb_false_iff in N. rewrite N. reflexivity.
Qed.

Lemma step_tell b s o : 0 <= b -> usual o -> (pending s = true -> on s = 0) ->
  fold_left (tell b) (snd (step s o)) (Some (lit s b)) = Some (lit (fst (step s o)) b).
Proof.
  intros B U P. assert (Q : plain o \/ ~ plain o) by (destruct o; cbn; tauto). destruct Q as [Q|Q].
  - destruct (plain_same s o Q) as (E & _ & F). rewrite tell_other by exact F. unfold lit. rewrite E. reflexivity.
  - destruct o; try (exfalso; apply Q; exact Logic.I); cbn [step].
    + destruct (do_on_same s loc refuse free) as [E F]. rewrite tell_other by exact F. unfold lit. rewrite E. reflexivity.
    + apply do_fast_on_tell; auto.
    + apply do_off_tell; auto. cbn in U. destruct ty; auto; contradiction.
    + destruct (fst_ s); [| destruct preon_playing; [|apply TurnOn_tell; auto] | | | |];
        (destruct (check_postoff s && negb off_playing); reflexivity).
    + destruct (do_preset_cases s f refuse slow free) as (s1 & o1 & C & O1 & P1 & E). cbv zeta in E. rewrite E. clear E. cbn [fst snd]. rewrite tell_app.
      assert (T : fold_left (tell b) o1 (Some (lit s b)) = Some (lit (chdir s1 f) b)).
      { destruct C as [(I0 & -> & ->)|(I1 & -> & ->)]; [reflexivity|]. rewrite do_off_tell by auto. reflexivity. }
      rewrite T. destruct (none _); [reflexivity|]. destruct slow; [|apply do_fast_on_tell; auto].
      match goal with |- context[do_on ?a ?b ?c ?d] => destruct (do_on_same a b c d) as [E F] end. rewrite tell_other by exact F. unfold lit. rewrite E. reflexivity.
Qed.
Lemma step_dark_pending s o : (forall loc r fr, o = On loc r fr -> on s = 0) -> (pending s = true -> on s = 0) -> pending (fst (step s o)) = true -> on (fst (step s o)) = 0.
Proof.
  intros D P. assert (Q : plain o \/ ~ plain o) by (destruct o; cbn; tauto). destruct Q as [Q|Q].
  - destruct (plain_same s o Q) as (-> & -> & _). auto.
  - destruct o; try (exfalso; apply Q; exact Logic.I); cbn [step].
    + intros _. destruct (do_on_same s loc refuse free) as [-> _]. apply (D _ _ _ eq_refl).
    + unfold do_fast_on. destruct (CommonIgnition _ _ _); [|auto]. destruct (TurnOn s loc free) eqn:E. cbn. intros X. pose proof (TurnOn_pending s loc free) as T. rewrite E in T. cbn in T. destruct (T X) as [A ->]. auto.
    + rewrite do_off_pending. discriminate.
    + destruct (fst_ s); [| destruct preon_playing | | | |]; try (destruct (check_postoff s && negb off_playing); exact P).
      intros X. destruct (TurnOn_pending _ _ _ X) as [A ->]. auto.
    + destruct (do_preset_cases s f refuse slow free) as (s1 & o1 & C & O1 & P1 & E). cbv zeta in E. rewrite E. clear E C. cbn [fst].
      destruct (none _); [cbn; congruence|]. destruct slow.
      * intros _. match goal with |- context[do_on ?a ?b ?c ?d] => destruct (do_on_same a b c d) as [-> _] end. exact O1.
      * unfold do_fast_on. destruct (CommonIgnition _ _ _); [|cbn; congruence].
        match goal with |- context[TurnOn ?a ?b ?c] => pose proof (TurnOn_pending a b c) as T; destruct (TurnOn a b c) end. cbn in *. intros X. destruct (T X). congruence.
Qed.
Lemma effects ops f v b : Forall usual ops -> from_dark (state0 f v) ops -> 0 <= b ->
  told b (concat (run_outs step (state0 f v) ops)) = Some (lit (run_state step (state0 f v) ops) b) /\
  (pending (run_state step (state0 f v) ops) = true -> on (run_state step (state0 f v) ops) = 0).
Proof.
  intros U D B. unfold told. induction ops as [|o ops IH] using rev_ind.
  - cbn. unfold lit. cbn. rewrite Z.testbit_0_l. auto.
  - apply Forall_app in U. destruct U as [U1 U2]. inversion U2; subst.
    assert (D1 : from_dark (state0 f v) ops). { intros a loc r fr c E. apply (D a loc r fr (c ++ [o])). rewrite E, <- app_assoc. reflexivity. }
    destruct (IH U1 D1) as [T P]. rewrite run_outs_app, run_state_app, concat_app, tell_app, T. cbn [run_outs run_state].
    pose proof (step_tell b (run_state step (state0 f v) ops) o B H1 P) as X.
    pose proof (step_dark_pending (run_state step (state0 f v) ops) o) as Y.
    destruct (step _ o) as [s2 o2]. cbn in *. rewrite app_nil_r. split; [exact X|]. apply Y; auto.
    intros loc r fr ->. apply dark_0. apply (D ops loc r fr []). reflexivity.
Qed.

(** * Waiting for the preon sound *)
Definition silent (os : list out) : Prop := Forall (fun x => light_effect x = false) os.
Lemma wait_step s o : waiting o -> fst_ s = STATE_WAIT_FOR_ON ->
  on (fst (step s o)) = on s /\ pending (fst (step s o)) = pending s /\ fst_ (fst (step s o)) = STATE_WAIT_FOR_ON /\ saved (fst (step s o)) = saved s /\ silent (snd (step s o)).
Proof.
  intros W F. open s. cbn in F. subst fst_.
  destruct o; try contradiction; cbn in W; try subst; unfold step, chdir, begin_lockup, end_lockup, PlayMonophonic, SetMute, SB_Off, silent; cbn; brk; try discriminate; repeat apply conj; auto; repeat constructor.
Qed.
Lemma wait_run ws s : Forall waiting ws -> fst_ s = STATE_WAIT_FOR_ON ->
  on (run_state step s ws) = on s /\ pending (run_state step s ws) = pending s /\ fst_ (run_state step s ws) = STATE_WAIT_FOR_ON /\ saved (run_state step s ws) = saved s /\
  silent (concat (run_outs step s ws)).
Proof.
  intros H. revert s. induction H as [|o ws W _ IH]; intros s F; [cbn; repeat apply conj; auto; constructor|].
  destruct (wait_step s o W F) as (A & B & C & D & E). cbn [run_state run_outs]. destruct (step s o) as [s1 o1]. cbn [fst snd] in *.
  destruct (IH s1 C) as (A1 & B1 & C1 & D1 & E1). cbn [concat]. repeat apply conj; try congruence. apply Forall_app. auto.
Qed.
Lemma accepted s loc b : 0 <= b -> Z.testbit loc b = true -> lit s b = false -> none (without loc (on s)) = false.
Proof.
  intros B L D. destruct (none _) eqn:N; [|auto]. rewrite none_spec in N. specialize (N b B). rewrite without_bit in N by auto. unfold lit in D. rewrite L, D in N. discriminate.
Qed.
Lemma do_on_accepted s loc fr : none (without loc (on s)) = false ->
  on (fst (do_on s loc false fr)) = on s /\ pending (fst (do_on s loc false fr)) = true /\ fst_ (fst (do_on s loc false fr)) = STATE_WAIT_FOR_ON /\ saved (fst (do_on s loc false fr)) = loc /\
  snd (do_on s loc false fr) = [PREON loc].
Proof. intros N. unfold do_on, CommonIgnition. rewrite N. cbn [negb andb fst snd]. destruct (SB_Preon_on s loc fr) as (A & B & C & _). repeat split; auto. Qed.
Lemma preon_lights s loc fr ws off_playing fr2 b0 : 0 <= b0 -> Z.testbit loc b0 = true -> lit s b0 = false -> Forall waiting ws ->
  let s1 := run_state step s (On loc false fr :: ws) in
  let s2 := fst (step s1 (Loop false off_playing fr2)) in
  IsOn s1 = true /\ (forall b, 0 <= b -> lit s1 b = lit s b) /\ silent (concat (run_outs step s (On loc false fr :: ws))) /\
  IsOn s2 = true /\ pending s2 = false /\ (forall b, 0 <= b -> lit s2 b = lit s b || Z.testbit loc b) /\
  exists d, snd (step s1 (Loop false off_playing fr2)) = [IGNITION d] /\ forall b, 0 <= b -> Z.testbit d b = Z.testbit loc b && negb (lit s b).
Proof.
  intros B L D W. pose proof (accepted s loc b0 B L D) as N. destruct (do_on_accepted s loc fr N) as (A1 & A2 & A3 & A4 & A5).
  cbv zeta. cbn [run_state run_outs step]. destruct (do_on s loc false fr) as [s1 o1]. cbn [fst snd] in *.
  destruct (wait_run ws s1 W A3) as (R1 & R2 & R3 & R4 & R5). set (t := run_state step s1 ws) in *.
  assert (OT : on t = on s) by congruence.
  assert (E : step t (Loop false off_playing fr2) = TurnOn t loc fr2). { cbn [step]. rewrite R3, R4, A4. reflexivity. }
  pose proof (fun b H => proj2 (TurnOn_tell b t loc fr2 H)) as LT. cbn [step] in E. rewrite E.
  assert (ET : TurnOn t loc fr2 = (SB_On (set_on t (Z.lor (on t) (without loc (on t)))) fr2, [IGNITION (without loc (on t))])). { unfold TurnOn. rewrite OT, N. reflexivity. }
  repeat apply conj.
  - unfold IsOn. rewrite R2, A2. apply orb_true_r.
  - intros b _. unfold lit. rewrite OT. reflexivity.
  - subst o1. cbn [concat app]. constructor; [reflexivity|exact R5].
  - unfold IsOn. apply orb_true_iff. left. destruct (none (PowerModel.on (fst (TurnOn t loc fr2)))) eqn:N2; [|auto]. rewrite none_spec in N2. specialize (N2 b0 B). specialize (LT b0 B). unfold lit in LT at 1. rewrite N2, L in LT. rewrite orb_true_r in LT. discriminate.
  - rewrite ET. cbn [fst]. apply SB_On_pending.
  - intros b Hb. rewrite LT by auto. unfold lit. rewrite OT. reflexivity.
  - exists (without loc (on t)). rewrite ET. split; [reflexivity|]. intros b Hb. rewrite without_bit by auto. unfold lit. rewrite OT. reflexivity.
Qed.

(** * Staying dark *)
Definition no_light (s : state) : Prop := on s = 0 /\ pending s = false /\ fst_ s <> STATE_WAIT_FOR_ON.
Lemma no_light_step s o : no_ask o -> no_light s -> no_light (fst (step s o)) /\ silent (snd (step s o)).
Proof.
  intros A (O & P & F). unfold no_light, silent. open s. cbn in O, P, F. subst on pending.
  destruct o; try contradiction; unfold step, do_off, chdir, begin_lockup, end_lockup, PlayMonophonic, SetMute, SB_Off; cbn; brk; try congruence; repeat apply conj; auto; try discriminate; repeat constructor.
Qed.
Lemma no_light_run ops s : Forall no_ask ops -> no_light s -> no_light (run_state step s ops) /\ silent (concat (run_outs step s ops)).
Proof.
  intros H. revert s. induction H as [|o ops A _ IH]; intros s N; [split; [auto|constructor]|].
  destruct (no_light_step s o A N) as [N1 Q1]. cbn [run_state run_outs]. destruct (step s o). cbn [fst snd concat] in *. destruct (IH _ N1). split; [auto|]. apply Forall_app. auto.
Qed.

(** Waiting for the preon sound goes with a pending ignition. *)
Definition wait_ok (s : state) : Prop := fst_ s = STATE_WAIT_FOR_ON -> pending s = true /\ without (saved s) (on s) <> 0.
Lemma TurnOn_not_wait s loc fr : none (without loc (on s)) = false -> fst_ (fst (TurnOn s loc fr)) <> STATE_WAIT_FOR_ON.
Proof. intros N. unfold TurnOn. rewrite N. cbn [fst]. destruct (SB_On_active (set_on s (Z.lor (on s) (without loc (on s)))) fr) as [H|[H|H]]; rewrite H; discriminate. Qed.
Lemma SB_Off_wait s ty loc fr : fst_ (fst (SB_Off s ty loc fr)) = STATE_WAIT_FOR_ON -> fst_ s = STATE_WAIT_FOR_ON.
Proof. open s. unfold SB_Off, PlayMonophonic. destruct ty; cbn; brk; congruence. Qed.
Lemma do_off_not_wait s ty loc fr : wait_ok s -> fst_ (fst (do_off s ty loc fr)) <> STATE_WAIT_FOR_ON.
Proof.
  intros W F. destruct (pending s) eqn:P.
  - unfold do_off in F. rewrite P in F. unfold SB_Off in F. cbn in F. destruct (fst_ s) eqn:E; cbn in F; congruence.
  - destruct (Z.eq_dec (on s) 0) as [Z0|NZ].
    + unfold do_off in F. rewrite P in F. replace (none (on s)) with true in F by (unfold none; lia). cbn in F. destruct (W F). congruence.
    + rewrite do_off_eq in F by auto. cbn [fst] in F. destruct (off_mute_same (fst (TurnOff (off_lock s fr) ty loc fr))) as (_ & _ & E & _). rewrite E in F. clear E.
      unfold TurnOff in F. destruct (off_lock_same s fr) as (LO & LP & LF & _). 
      assert (G : fst_ s = STATE_WAIT_FOR_ON).
      { rewrite <- LF. destruct (none (Z.land loc (on (off_lock s fr)))); [exact F|].
        destruct (SB_Off _ _ _ _) as [s1 o1] eqn:ES. cbn [fst] in F.
        pose proof (SB_Off_wait (set_on (off_lock s fr) (without (on (off_lock s fr)) (Z.land loc (on (off_lock s fr))))) ty (Z.land loc (on (off_lock s fr))) fr) as X. rewrite ES in X. apply X. exact F. }
      destruct (W G). congruence.
Qed.
Lemma do_on_wait s loc r fr : wait_ok s -> wait_ok (fst (do_on s loc r fr)).
Proof.
  intros W. unfold do_on. destruct (CommonIgnition s loc r) eqn:C; [|exact W]. unfold CommonIgnition in C. apply andb_true_iff in C. destruct C as [C _].
  destruct (SB_Preon_on s loc fr) as (A & _ & D & _). intros _. cbn [fst pending set_pending saved on]. split; [auto|]. rewrite A, D. unfold none in C. lia.
Qed.
Lemma TurnOn_wait s loc fr : wait_ok s -> wait_ok (fst (TurnOn s loc fr)).
Proof. intros W F. unfold TurnOn in *. destruct (none (without loc (on s))) eqn:N; [exact (W F)|]. exfalso. apply (TurnOn_not_wait s loc fr N). unfold TurnOn. rewrite N. exact F. Qed.
Lemma do_fast_on_fst s loc r fr : fst (do_fast_on s loc r fr) = if CommonIgnition s loc r then fst (TurnOn s loc fr) else s.
Proof. unfold do_fast_on. destruct (CommonIgnition s loc r); [|auto]. destruct (TurnOn s loc fr). reflexivity. Qed.
Lemma chdir_wait s f : wait_ok (chdir s f).
Proof. intros F. discriminate F. Qed.
Lemma plain_wait s o : plain o -> wait_ok s -> wait_ok (fst (step s o)).
Proof.
  unfold wait_ok. intros P W. open s. cbn in W. destruct o; try contradiction; unfold step, chdir, begin_lockup, end_lockup, PlayMonophonic, SetMute, SB_Off; cbn; brk; intros F; try discriminate; auto.
Qed.
Lemma step_wait s o : wait_ok s -> wait_ok (fst (step s o)).
Proof.
  intros W. assert (Q : plain o \/ ~ plain o) by (destruct o; cbn; tauto). destruct Q as [Q|Q]; [apply plain_wait; auto|].
  destruct o; try (exfalso; apply Q; exact Logic.I); cbn [step].
  - apply do_on_wait; auto.
  - rewrite do_fast_on_fst. destruct (CommonIgnition _ _ _); [apply TurnOn_wait|]; auto.
  - intros F. exfalso. revert F. apply do_off_not_wait. auto.
  - assert (L : wait_ok (fst (if check_postoff s && negb off_playing then (set_post s false (saved s), [POSTOFF (saved s)]) else (s, [])))) by (destruct (_ && _); exact W).
    destruct (fst_ s) eqn:E; try exact L. destruct preon_playing; [exact L|apply TurnOn_wait; auto].
  - destruct (do_preset_cases s f refuse slow free) as (s1 & o1 & C & O1 & P1 & E). cbv zeta in E. rewrite E. clear E C. cbn [fst].
    destruct (none _); [apply chdir_wait|]. destruct slow; [apply do_on_wait, chdir_wait|]. rewrite do_fast_on_fst. destruct (CommonIgnition _ _ _); [apply TurnOn_wait|]; apply chdir_wait.
Qed.
Lemma wait_ok_run ops f v : wait_ok (run_state step (state0 f v) ops).
Proof.
  induction ops as [|o ops IH] using rev_ind; [intros F; discriminate F|]. rewrite run_state_app. cbn [run_state]. pose proof (step_wait _ o IH) as W. destruct (step _ o). exact W.
Qed.
Lemma off_dark ops f v ty loc fr : let s := run_state step (state0 f v) ops in loc = -1 \/ IsOn s = true /\ dark s -> no_light (fst (step s (Off ty loc fr))).
Proof.
  cbv zeta. set (s := run_state _ _ _). intros H. cbn [step]. split; [|split; [apply do_off_pending|apply do_off_not_wait, wait_ok_run]].
  destruct H as [->|[H D]]; [apply do_off_all|]. apply dark_0 in D. assert (P : pending s = true). { unfold IsOn in H. rewrite D in H. exact H. }
  unfold do_off. rewrite P. pose proof (SB_Off_on (set_on (set_pending s false) 0) OFF_CANCEL_PREON all fr) as [Q _]. destruct (SB_Off _ _ _ _). exact Q.
Qed.

(** A pending ignition waits for the preon sound, unless the font was changed by cd. *)
Definition pend_ok (s : state) : Prop := pending s = true -> fst_ s = STATE_WAIT_FOR_ON.
Lemma do_on_pend s loc r fr : pend_ok s -> pend_ok (fst (do_on s loc r fr)).
Proof. intros P. unfold do_on. destruct (CommonIgnition _ _ _); [|exact P]. intros _. destruct (SB_Preon_on s loc fr) as (_ & F & _). exact F. Qed.
Lemma TurnOn_pend s loc fr : pend_ok s -> pend_ok (fst (TurnOn s loc fr)).
Proof. intros P F. unfold TurnOn in *. destruct (none (without loc (on s))); [exact (P F)|]. cbn [fst] in F. rewrite SB_On_pending in F. discriminate. Qed.
Lemma plain_pend s o : plain o -> is_chdir o = false -> pend_ok s -> pend_ok (fst (step s o)).
Proof.
  unfold pend_ok. intros P C W. open s. cbn in W. destruct o; try contradiction; try discriminate C; unfold step, begin_lockup, end_lockup, PlayMonophonic, SetMute, SB_Off; cbn; brk; intros F; try discriminate; auto; specialize (W F); discriminate.
Qed.
Lemma step_pend s o : is_chdir o = false -> pend_ok s -> pend_ok (fst (step s o)).
Proof.
  intros C W. assert (Q : plain o \/ ~ plain o) by (destruct o; cbn; tauto). destruct Q as [Q|Q]; [apply plain_pend; auto|].
  destruct o; try (exfalso; apply Q; exact Logic.I); cbn [step].
  - apply do_on_pend; auto.
  - rewrite do_fast_on_fst. destruct (CommonIgnition _ _ _); [apply TurnOn_pend|]; auto.
  - intros F. rewrite do_off_pending in F. discriminate.
  - assert (L : pend_ok (fst (if check_postoff s && negb off_playing then (set_post s false (saved s), [POSTOFF (saved s)]) else (s, [])))) by (destruct (_ && _); exact W).
    destruct (fst_ s) eqn:E; try exact L. destruct preon_playing; [exact L|apply TurnOn_pend; auto].
  - destruct (do_preset_cases s f refuse slow free) as (s1 & o1 & D & O1 & P1 & E). cbv zeta in E. rewrite E. clear E D. cbn [fst].
    assert (X : pend_ok (chdir s1 f)) by (intros F; cbn in F; congruence).
    destruct (none _); [exact X|]. destruct slow; [apply do_on_pend; auto|]. rewrite do_fast_on_fst. destruct (CommonIgnition _ _ _); [apply TurnOn_pend|]; auto.
Qed.
Lemma pend_ok_run ops f v : Forall (fun o => is_chdir o = false) ops -> pend_ok (run_state step (state0 f v) ops).
Proof.
  induction ops as [|o ops IH] using rev_ind; intros H; [intros F; discriminate F|]. apply Forall_app in H. destruct H as [H1 H2]. inversion H2; subst.
  rewrite run_state_app. cbn [run_state]. pose proof (step_pend _ o H3 (IH H1)) as W. destruct (step _ o). exact W.
Qed.
Lemma resolves ops f v off_playing fr : Forall (fun o => is_chdir o = false) ops -> let s := run_state step (state0 f v) ops in pending s = true ->
  let s1 := fst (step s (Loop false off_playing fr)) in
  pending s1 = false /\ IsOn s1 = true /\ exists d, snd (step s (Loop false off_playing fr)) = [IGNITION d] /\ d <> 0 /\ forall b, 0 <= b -> lit s1 b = lit s b || Z.testbit d b.
Proof.
  cbv zeta. intros H P. pose proof (pend_ok_run ops f v H P) as F. destruct (wait_ok_run ops f v F) as [_ N]. set (s := run_state _ _ _) in *.
  cbn [step]. rewrite F. unfold TurnOn. replace (none (without (saved s) (on s))) with false by (unfold none; lia). cbn [fst snd].
  repeat apply conj.
  - apply SB_On_pending.
  - unfold IsOn. rewrite SB_On_on, SB_On_pending. cbn [on set_on]. rewrite orb_false_r. apply negb_true_iff. destruct (none (Z.lor _ _)) eqn:E; [|auto].
    exfalso. apply N. unfold none in E. apply Z.eqb_eq in E. apply Z.lor_eq_0_iff in E. tauto.
  - exists (without (saved s) (on s)). repeat apply conj; auto. intros b B. unfold lit. rewrite SB_On_on. cbn [on set_on]. rewrite Z.lor_spec. reflexivity.
Qed.

(** * Off *)
Lemma off_blades s ty loc fr : pending s = false -> (forall b, 0 <= b -> lit (fst (step s (Off ty loc fr))) b = lit s b && negb (Z.testbit loc b)).
Proof.
  intros P b B. cbn [step]. destruct (Z.eq_dec (on s) 0) as [Z0|NZ].
  - unfold do_off. rewrite P. replace (none (on s)) with true by (unfold none; lia). cbn. unfold lit. rewrite Z0, Z.testbit_0_l. reflexivity.
  - rewrite do_off_eq by auto. cbn [fst]. destruct (off_mute_same (fst (TurnOff (off_lock s fr) ty loc fr))) as (E & _). unfold lit at 1. rewrite E. change (Z.testbit (on (fst (TurnOff (off_lock s fr) ty loc fr))) b) with (lit (fst (TurnOff (off_lock s fr) ty loc fr)) b).
    rewrite TurnOff_lit by auto. unfold lit. destruct (off_lock_same s fr) as (-> & _). reflexivity.
Qed.
Lemma off_lockup s ty loc fr b0 : pending s = false -> 0 <= b0 -> lit s b0 = true -> lockup (fst (step s (Off ty loc fr))) = 0 /\ (lockup s <> 0 -> lock_player (fst (step s (Off ty loc fr))) = None).
Proof.
  intros P B L. cbn [step]. rewrite do_off_eq; [|auto|intros Z0; unfold lit in L; rewrite Z0, Z.testbit_0_l in L; discriminate].
  cbn [fst]. destruct (off_mute_same (fst (TurnOff (off_lock s fr) ty loc fr))) as (_ & _ & _ & _ & _ & _ & _ & -> & ->).
  unfold TurnOff. destruct (off_lock_same s fr) as (_ & _ & _ & _ & _ & _ & LL).
  assert (LK : lockup s <> 0 -> lock_player (off_lock s fr) = None). { intros K. unfold off_lock. replace (lockup s =? 0) with false by lia. apply end_lockup_same. }
  destruct (none (Z.land loc (on (off_lock s fr)))); [auto|].
  pose proof (SB_Off_rest (set_on (off_lock s fr) (without (on (off_lock s fr)) (Z.land loc (on (off_lock s fr))))) ty (Z.land loc (on (off_lock s fr))) fr) as (R1 & R2 & _).
  destruct (SB_Off _ _ _ _). cbn [fst set_on lockup lock_player] in *. split; intros; [congruence|]. rewrite R2. auto.
Qed.
Lemma filter_crash s ty loc fr : filter light_effect (snd (SB_Off s ty loc fr)) = [].
Proof. pose proof (quiet_off s ty loc fr) as Q. induction Q as [|o os H _ IH]; [auto|]. cbn. rewrite H. exact IH. Qed.
Lemma off_effects s ty loc fr : pending s = false -> ty = OFF_NORMAL \/ ty = OFF_FAST ->
  filter light_effect (snd (step s (Off ty loc fr))) = [] /\ (forall b, 0 <= b -> lit s b && Z.testbit loc b = false) \/
  exists d, filter light_effect (snd (step s (Off ty loc fr))) = [RETRACTION d] /\ d <> 0 /\ forall b, 0 <= b -> Z.testbit d b = lit s b && Z.testbit loc b.
Proof.
  intros P T. cbn [step]. destruct (Z.eq_dec (on s) 0) as [Z0|NZ].
  - left. unfold do_off. rewrite P. replace (none (on s)) with true by (unfold none; lia). split; [reflexivity|]. intros b B. unfold lit. rewrite Z0, Z.testbit_0_l. reflexivity.
  - rewrite do_off_eq by auto. cbn [snd]. rewrite filter_app. replace (filter light_effect (off_lock_out s)) with (@nil out) by (unfold off_lock_out; destruct (lockup s =? 0); reflexivity). cbn [app].
    unfold TurnOff. destruct (off_lock_same s fr) as (-> & _). destruct (none (Z.land loc (on s))) eqn:N.
    + left. split; [reflexivity|]. rewrite none_spec in N. intros b B. specialize (N b B). rewrite Z.land_spec in N. unfold lit. rewrite andb_comm. exact N.
    + right. exists (Z.land loc (on s)). pose proof (filter_crash (set_on (off_lock s fr) (without (on s) (Z.land loc (on s)))) ty (Z.land loc (on s)) fr) as C.
      destruct (SB_Off _ _ _ _) as [s1 o1]. cbn [snd] in *. rewrite filter_app, C. repeat apply conj.
      * destruct T as [-> | ->]; reflexivity.
      * unfold none in N. lia.
      * intros b B. rewrite Z.land_spec. unfold lit. apply andb_comm.
Qed.

(** * Changing presets *)
Lemma all_lit_again s f slow fr loc b0 : on s = 0 -> pending s = false -> 0 <= b0 -> Z.testbit loc b0 = true ->
  slow = false -> (forall b, 0 <= b -> lit (fst (do_fast_on (chdir s f) loc false fr)) b = Z.testbit loc b) .
Proof.
  intros O P B L _ b Hb. rewrite do_fast_on_fst. unfold CommonIgnition. rewrite (accepted (chdir s f) loc b0 B L) by (unfold lit; cbn; rewrite O; apply Z.testbit_0_l).
  cbn [negb andb]. destruct (TurnOn_tell b (chdir s f) loc fr Hb) as [_ ->]. unfold lit. cbn. rewrite O, Z.testbit_0_l. reflexivity.
Qed.
Lemma preset_fast s f fr b : pending s = false -> 0 <= b -> lit (fst (step s (SetPreset f false false fr))) b = lit s b.
Proof.
  intros P B. cbn [step]. destruct (do_preset_cases s f false false fr) as (s1 & o1 & D & O1 & P1 & E). cbv zeta in E. rewrite E. clear E. cbn [fst].
  unfold IsOn. rewrite P. rewrite orb_false_r. destruct (none (on s)) eqn:N; cbn [negb andb].
  - rewrite N. unfold lit. cbn. apply none_spec with (b := b) in N; auto. rewrite O1, N. apply Z.testbit_0_l.
  - rewrite N. assert (X : exists b0, 0 <= b0 /\ Z.testbit (on s) b0 = true).
    { assert (NZ : on s <> 0) by (unfold none in N; lia). destruct (Z_lt_dec (on s) 0).
      - exists (Z.log2 (- on s) + 1). split; [pose proof (Z.log2_nonneg (- on s)); lia|]. apply (Z.bits_iff_neg (on s) (Z.log2 (- on s) + 1)); [rewrite Z.abs_neq by lia|]; lia.
      - exists (Z.log2 (on s)). split; [apply Z.log2_nonneg|]. apply Z.bit_log2. lia. }
    destruct X as (b0 & B0 & L). apply (all_lit_again s1 f false fr (on s) b0); auto.
Qed.
Lemma preset_slow s f fr ws off_playing fr2 b : pending s = false -> Forall waiting ws -> 0 <= b -> lit s b = true ->
  let s1 := run_state step s (SetPreset f false true fr :: ws) in
  dark s1 /\ IsOn s1 = true /\ forall c, 0 <= c -> lit (fst (step s1 (Loop false off_playing fr2))) c = lit s c.
Proof.
  intros P W B L. cbv zeta. cbn [run_state].
  assert (N : none (on s) = false). { destruct (none (on s)) eqn:N; [|auto]. rewrite none_spec in N. specialize (N b B). unfold lit in L. congruence. }
  destruct (do_preset_cases s f false true fr) as (s1 & o1 & D & O1 & P1 & E). cbv zeta in E. unfold IsOn in E. rewrite P, N in E. cbn [negb orb andb] in E. rewrite N in E.
  assert (X : run_state step (fst (do_preset s f false true fr)) ws = run_state step (chdir s1 f) (On (on s) false fr :: ws)).
  { rewrite E. cbn [fst run_state step]. destruct (do_on _ _ _ _). reflexivity. }
  change (step s (SetPreset f false true fr)) with (do_preset s f false true fr). destruct (do_preset s f false true fr) as [s2 o2]. cbn [fst] in *. rewrite X.
  assert (DK : dark (chdir s1 f)) by (apply dark_0; exact O1).
  destruct (preon_lights (chdir s1 f) (on s) fr ws off_playing fr2 b B L (DK b B) W) as (R1 & R2 & _ & _ & _ & R6 & _).
  repeat apply conj; auto.
  - intros c C. rewrite R2 by auto. apply DK. auto.
  - intros c C. cbn [step] in R6. rewrite R6 by auto. rewrite DK by auto. reflexivity.
Qed.

(** * All blades together: the font and the blades agree *)
Definition J (s : state) : Prop :=
  (on s = 0 \/ on s = -1) /\ (fst_ s = STATE_WAIT_FOR_ON -> on s = 0 /\ saved s = -1) /\ (pending s = true -> on s = 0) /\
  (on s = 0 -> fst_ s = STATE_OFF \/ fst_ s = STATE_WAIT_FOR_ON \/ fst_ s = STATE_HUM_FADE_OUT).
Ltac solveJ := repeat apply conj; intros; try congruence; auto; try discriminate; try tauto; try (exfalso; intuition congruence).
Lemma J_TurnOn s loc fr : J s -> loc = -1 -> J (fst (TurnOn s loc fr)).
Proof.
  intros (A & B & C & D) ->. open s. cbn in *. unfold J. destruct A as [-> | ->]; cbn; [|solveJ].
  unfold SB_On, PlayMonophonic; cbn. brk; solveJ.
Qed.
Lemma J_do_on s loc r fr : J s -> loc = -1 -> J (fst (do_on s loc r fr)).
Proof.
  intros (A & B & C & D) ->. open s. cbn in *. unfold J. unfold do_on, CommonIgnition. cbn. destruct A as [-> | ->]; cbn; [|solveJ].
  unfold SB_Preon; cbn. brk; solveJ.
Qed.
Lemma SB_Off_most s ty fr : ty = OFF_NORMAL \/ ty = OFF_FAST -> fst_ (fst (SB_Off s ty (-1) fr)) = STATE_OFF \/ fst_ (fst (SB_Off s ty (-1) fr)) = STATE_HUM_FADE_OUT.
Proof. intros T. open s. unfold SB_Off, PlayMonophonic. destruct T as [-> | ->]; cbn; brk; auto. Qed.
(** Switching all off, in parts. *)
Definition off_sound (s : state) (ty : off_type) (fr : bool) : state * list out := SB_Off (set_on (off_lock s fr) 0) ty (-1) fr.
Lemma do_off_lit s ty fr : pending s = false -> on s = -1 ->
  do_off s ty (-1) fr = (off_mute (fst (off_sound s ty fr)), off_lock_out s ++ snd (off_sound s ty fr) ++ off_effect ty (-1)).
Proof.
  intros P O. rewrite do_off_eq by (auto; lia). destruct (off_lock_same s fr) as (L & _). unfold TurnOff, off_sound. rewrite L, O. cbn [Z.land none Z.eqb without Z.ldiff].
  destruct (SB_Off _ _ _ _). reflexivity.
Qed.
Lemma do_off_cancel s ty loc fr : pending s = true -> do_off s ty loc fr = (match fst_ s with STATE_WAIT_FOR_ON => set_fst (set_on (set_pending s false) 0) STATE_OFF | _ => set_on (set_pending s false) 0 end, []).
Proof. intros P. unfold do_off. rewrite P. cbn. destruct (fst_ s); reflexivity. Qed.
Lemma do_off_nothing s ty loc fr : pending s = false -> on s = 0 -> do_off s ty loc fr = (s, []).
Proof. intros P O. unfold do_off. rewrite P, O. reflexivity. Qed.
Lemma J_do_off s ty fr : J s -> ty = OFF_NORMAL \/ ty = OFF_FAST -> J (fst (do_off s ty (-1) fr)) /\ on (fst (do_off s ty (-1) fr)) = 0.
Proof.
  intros (A & B & C & D) T. split; [|apply do_off_all]. destruct (pending s) eqn:P.
  - rewrite do_off_cancel by auto. specialize (C eq_refl). specialize (D C). unfold J. destruct (fst_ s) eqn:E; cbn; solveJ.
  - destruct A as [A|A]; [rewrite do_off_nothing by auto; unfold J; solveJ|]. rewrite do_off_lit by auto. cbn [fst].
    destruct (off_mute_same (fst (off_sound s ty fr))) as (M1 & M2 & M3 & M4 & _). unfold J. rewrite M1, M2, M3, M4. unfold off_sound.
    destruct (SB_Off_on (set_on (off_lock s fr) 0) ty (-1) fr) as [-> ->]. pose proof (SB_Off_most (set_on (off_lock s fr) 0) ty fr T) as X. destruct (off_lock_same s fr) as (_ & LP & _).
    cbn [on pending set_on]. rewrite LP, P. repeat apply conj; auto; try discriminate; try (intros F; destruct X; congruence). intros _. tauto.
Qed.
Lemma J_plain s o : plain o -> J s -> J (fst (step s o)).
Proof.
  intros P (A & B & C & D). open s. cbn in *. unfold J.
  destruct o; try contradiction; unfold step, begin_lockup, end_lockup, SB_Off, PlayMonophonic, SetMute, chdir; cbn; brk; solveJ.
Qed.
Lemma J_chdir s f : J s -> J (chdir s f).
Proof. intros (A & B & C & D). unfold J. cbn. solveJ. Qed.
Lemma J_was s : J s -> (if IsOn s && none (on s) then all else on s) = (if IsOn s then -1 else 0).
Proof. intros (A & B & C & D). unfold IsOn. destruct A as [-> | ->]; cbn; [destruct (pending s)|]; reflexivity. Qed.
Lemma J_preset_cases s f r slow fr : J s -> exists s1 o1,
  (IsOn s = false /\ s1 = s /\ o1 = [] \/ IsOn s = true /\ s1 = fst (do_off s OFF_NORMAL (-1) fr) /\ o1 = snd (do_off s OFF_NORMAL (-1) fr)) /\ J s1 /\ on s1 = 0 /\ pending s1 = false /\
  do_preset s f r slow fr =
    let t := if IsOn s then if slow then do_on (chdir s1 f) (-1) r fr else do_fast_on (chdir s1 f) (-1) r fr else (chdir s1 f, []) in (fst t, o1 ++ snd t).
Proof.
  intros Q. destruct (do_preset_cases s f r slow fr) as (s1 & o1 & C & O1 & P1 & E). cbv zeta in E. rewrite (J_was s Q) in E. exists s1, o1. refine (conj C (conj _ (conj O1 (conj P1 _)))).
  - destruct C as [(_ & -> & _)|(_ & -> & _)]; [auto|]. apply J_do_off; auto.
  - rewrite E. cbv zeta. destruct (IsOn s); cbn [none Z.eqb]; reflexivity.
Qed.
Lemma J_step s o : together o -> J s -> J (fst (step s o)).
Proof.
  intros T H. assert (Q : plain o \/ ~ plain o) by (destruct o; cbn; tauto). destruct Q as [Q|Q]; [apply J_plain; auto|].
  destruct o; try (exfalso; apply Q; exact Logic.I); cbn [step]; cbn in T.
  - apply J_do_on; auto.
  - rewrite do_fast_on_fst. destruct (CommonIgnition _ _ _); [apply J_TurnOn|]; auto.
  - destruct T as [-> T]. apply J_do_off; auto.
  - assert (L : J (fst (if check_postoff s && negb off_playing then (set_post s false (saved s), [POSTOFF (saved s)]) else (s, [])))) by (destruct (_ && _); exact H).
    destruct (fst_ s) eqn:E; try exact L. destruct preon_playing; [exact L|apply J_TurnOn; auto]. apply H. auto.
  - destruct (J_preset_cases s f refuse slow free H) as (s1 & o1 & _ & J1 & _ & _ & ->). cbv zeta. cbn [fst].
    destruct (IsOn s); [|apply J_chdir; auto]. destruct slow; [apply J_do_on; auto; apply J_chdir; auto|].
    rewrite do_fast_on_fst. destruct (CommonIgnition _ _ _); [apply J_TurnOn|]; auto; apply J_chdir; auto.
Qed.
Lemma J_run ops f v : Forall together ops -> J (run_state step (state0 f v) ops).
Proof.
  induction ops as [|o ops IH] using rev_ind; intros T; [unfold J; cbn; solveJ|]. apply Forall_app in T. destruct T as [T1 T2]. inversion T2; subst.
  rewrite run_state_app. cbn [run_state]. pose proof (J_step _ o H1 (IH T1)) as X. destruct (step _ o). exact X.
Qed.
Lemma J_lit s b : J s -> 0 <= b -> lit s b = true <-> on s = -1.
Proof. intros (A & _) B. unfold lit. destruct A as [-> | ->]; [rewrite Z.testbit_0_l; split; intros; lia||discriminate|rewrite Z.bits_m1 by auto; tauto]. Qed.

(** Without cd, the hum is on exactly while lit. *)
Definition Hm (s : state) : Prop := on s = -1 -> humming (fst_ s).
Lemma H_TurnOn s loc fr : Hm s -> Hm (fst (TurnOn s loc fr)).
Proof. intros H. unfold TurnOn. destruct (none _); [exact H|]. intros _. cbn [fst]. apply SB_On_active. Qed.
Lemma H_do_on s loc r fr : J s -> loc = -1 -> Hm s -> Hm (fst (do_on s loc r fr)).
Proof.
  intros (A & _) -> H. unfold do_on, CommonIgnition. destruct A as [A|A]; rewrite A; [|exact H]. destruct (_ && _); [|exact H]. intros X. cbn [fst] in X. cbn [on set_pending] in X. destruct (SB_Preon_on s (-1) fr) as (E & _). rewrite E in X. lia.
Qed.
Lemma H_plain s o : plain o -> is_chdir o = false -> Hm s -> Hm (fst (step s o)).
Proof.
  unfold Hm, humming. intros P C H. open s. cbn in H. destruct o; try contradiction; try discriminate C; unfold step, begin_lockup, end_lockup, SB_Off, PlayMonophonic, SetMute; cbn; brk; auto; intros X; specialize (H X); intuition discriminate.
Qed.
Lemma H_step s o : together o -> is_chdir o = false -> J s -> Hm s -> Hm (fst (step s o)).
Proof.
  intros T C Q H. assert (P : plain o \/ ~ plain o) by (destruct o; cbn; tauto). destruct P as [P|P]; [apply H_plain; auto|].
  destruct o; try (exfalso; apply P; exact Logic.I); cbn [step]; cbn in T.
  - apply H_do_on; auto.
  - rewrite do_fast_on_fst. destruct (CommonIgnition _ _ _); [apply H_TurnOn|]; auto.
  - destruct T as [-> T]. intros X. change (-1) with all in X at 1. rewrite (do_off_all s ty free) in X. discriminate.
  - assert (L : Hm (fst (if check_postoff s && negb off_playing then (set_post s false (saved s), [POSTOFF (saved s)]) else (s, [])))) by (destruct (_ && _); exact H).
    destruct (fst_ s) eqn:E; try exact L. destruct preon_playing; [exact L|apply H_TurnOn; auto].
  - destruct (J_preset_cases s f refuse slow free Q) as (s1 & o1 & _ & J1 & O1 & _ & ->). cbv zeta. cbn [fst].
    assert (HC : Hm (chdir s1 f)) by (intros X; cbn in X; congruence).
    destruct (IsOn s); [|exact HC]. destruct slow; [apply H_do_on; auto; apply J_chdir; auto|].
    rewrite do_fast_on_fst. destruct (CommonIgnition _ _ _); [apply H_TurnOn|]; auto.
Qed.
Lemma H_run ops f v : Forall together ops -> Forall (fun o => is_chdir o = false) ops -> Hm (run_state step (state0 f v) ops).
Proof.
  induction ops as [|o ops IH] using rev_ind; intros T C; [intros X; discriminate X|]. pose proof T as T0. pose proof C as C0. apply Forall_app in T, C. destruct T as [T1 T2], C as [C1 C2]. inversion T2; inversion C2; subst.
  rewrite run_state_app. cbn [run_state]. pose proof (H_step _ o ltac:(eassumption) ltac:(eassumption) (J_run ops f v T1) (IH T1 C1)) as X. destruct (step _ o). exact X.
Qed.
Lemma hum_lit ops f v b : Forall together ops -> Forall (fun o => is_chdir o = false) ops -> 0 <= b ->
  let s := run_state step (state0 f v) ops in lit s b = true <-> humming (fst_ s).
Proof.
  intros T C B. cbv zeta. pose proof (J_run ops f v T) as Q. pose proof (H_run ops f v T C) as H. set (s := run_state _ _ _) in *. rewrite (J_lit s b Q B). split; [exact H|].
  destruct Q as (A & _ & _ & D). destruct A as [A|A]; [|auto]. specialize (D A). unfold humming. intuition congruence.
Qed.
Lemma fades_out ops f v : Forall together ops -> let s := run_state step (state0 f v) ops in dark s -> active (fst_ s) = true ->
  fst_ s = STATE_HUM_FADE_OUT /\ (mono (fnt s) = false -> let t := fst (step s (Hum true true)) in fst_ t = STATE_OFF /\ hum t = false).
Proof.
  intros T. cbv zeta. pose proof (J_run ops f v T) as (A & B & C & D). set (s := run_state _ _ _) in *. intros K F. apply dark_0 in K.
  assert (E : fst_ s = STATE_HUM_FADE_OUT). { destruct (D K) as [E|[E|E]]; rewrite E in F; try discriminate; exact E. }
  split; [exact E|]. intros M. clearbody s. open s. cbn in E, M. subst. unfold step. cbn. rewrite M. destruct hum; cbn; auto.
Qed.

(** No null pointer. *)
Definition Kp (s : state) : Prop := mono (fnt s) = true -> (on s = -1 -> hum s = true) /\ (fst_ s = STATE_WAIT_FOR_ON -> preon (fnt s) = true -> hum s = true).
Lemma K_TurnOn s loc : Kp s -> Kp (fst (TurnOn s loc true)).
Proof.
  intros K. unfold TurnOn. destruct (none _) eqn:N; [exact K|]. unfold Kp in *. cbn [fst]. open s. cbn in K. unfold SB_On, PlayMonophonic. cbn.
  destruct (mono _) eqn:M; cbn; [|brk; intros; congruence]. specialize (K eq_refl). intros _. destruct fst_; cbn; brk; split; intros; try discriminate; auto. apply K; auto.
Qed.
Lemma K_do_on s loc r : Kp s -> J s -> loc = -1 -> Kp (fst (do_on s loc r true)).
Proof.
  intros K (A & _) ->. unfold do_on, CommonIgnition. destruct A as [A|A]; rewrite A; [|exact K]. destruct (_ && _); [|exact K]. unfold Kp in *. cbn [fst]. open s. cbn in K, A. subst. unfold SB_Preon. cbn.
  destruct (mono _) eqn:M; [|destruct preon; cbn; intros; congruence]. intros _. destruct preon; cbn; split; intros; try discriminate; auto.
Qed.
Lemma K_plain s o : plain o -> is_chdir o = false -> players o -> Kp s -> Kp (fst (step s o)).
Proof.
  unfold Kp. intros P C F K. open s. cbn in K. destruct o; try contradiction; try discriminate C; cbn in F; try subst; unfold step, begin_lockup, end_lockup, SB_Off, PlayMonophonic, SetMute; cbn; brk; intros M; try congruence; first [specialize (K M)|specialize (K eq_refl)]; auto; split; intros; try discriminate; auto; apply K; auto.
Qed.
Lemma SB_Off_crash s ty loc fr : (mono (fnt s) = true -> hum s = true) -> ~ In Crash (snd (SB_Off s ty loc fr)).
Proof. open s. unfold SB_Off, PlayMonophonic. cbn. destruct (mono _) eqn:M; destruct ty; cbn; intros H; try (specialize (H eq_refl); subst); cbn; rewrite ?M; brk; intuition discriminate. Qed.
Lemma off_lock_hum s : hum s = true -> hum (off_lock s true) = true.
Proof. intros H. unfold off_lock, end_lockup, PlayMonophonic. open s. cbn in *. subst. brk; reflexivity. Qed.
Lemma K_do_off s ty : Kp s -> J s -> ty = OFF_NORMAL \/ ty = OFF_FAST -> Kp (fst (do_off s ty (-1) true)) /\ ~ In Crash (snd (do_off s ty (-1) true)).
Proof.
  intros K Q T. pose proof (do_off_all s ty true) as Z0. change all with (-1) in Z0. destruct (pending s) eqn:P.
  - split; [|rewrite do_off_cancel by auto; intros []]. intros M. split; [rewrite Z0; discriminate|]. rewrite do_off_cancel by auto. destruct (fst_ s) eqn:E; cbn; congruence.
  - destruct Q as (A & B & C & D). destruct A as [A|A]; [rewrite do_off_nothing by auto; split; [exact K|intros []]|]. rewrite do_off_lit in * by auto. cbn [fst snd] in *. split.
    + intros M. split; [rewrite Z0; discriminate|]. destruct (off_mute_same (fst (off_sound s ty true))) as (_ & _ & -> & _). unfold off_sound. destruct (SB_Off_most (set_on (off_lock s true) 0) ty true T) as [-> | ->]; discriminate.
    + intros X. apply in_app_or in X. destruct X as [X|X]; [unfold off_lock_out in X; destruct (lockup s =? 0); cbn in X; intuition discriminate|]. apply in_app_or in X. destruct X as [X|X].
      * revert X. unfold off_sound. apply SB_Off_crash. cbn [fnt hum set_on]. destruct (off_lock_same s true) as (_ & _ & _ & _ & -> & _). intros M. apply off_lock_hum. exact (proj1 (K M) A).
      * destruct T as [-> | ->]; cbn in X; intuition discriminate.
Qed.
Lemma no_crash_do_on s loc r fr : ~ In Crash (snd (do_on s loc r fr)).
Proof. unfold do_on. destruct (CommonIgnition _ _ _); cbn; intuition discriminate. Qed.
Lemma no_crash_TurnOn s loc fr : ~ In Crash (snd (TurnOn s loc fr)).
Proof. unfold TurnOn. destruct (none _); cbn; intuition discriminate. Qed.
Lemma no_crash_do_fast_on s loc r fr : ~ In Crash (snd (do_fast_on s loc r fr)).
Proof.
  unfold do_fast_on. destruct (CommonIgnition _ _ _); [|intros []]. pose proof (no_crash_TurnOn s loc fr) as N. destruct (TurnOn s loc fr). cbn [snd] in *. intros X. apply in_app_or in X. cbn in X. intuition discriminate.
Qed.
Lemma no_crash_plain s o : plain o -> ~ In Crash (snd (step s o)).
Proof. intros P. open s. destruct o; try contradiction; unfold step, begin_lockup, end_lockup, SB_Off, PlayMonophonic, SetMute; cbn; brk; intuition discriminate. Qed.
Lemma K_step s o : together o -> is_chdir o = false -> players o -> J s -> Kp s -> Kp (fst (step s o)) /\ ~ In Crash (snd (step s o)).
Proof.
  intros T C F Q K. assert (P : plain o \/ ~ plain o) by (destruct o; cbn; tauto). destruct P as [P|P]; [split; [apply K_plain; auto|apply no_crash_plain; auto]|].
  destruct o; try (exfalso; apply P; exact Logic.I); cbn [step]; cbn in T, F; subst.
  - split; [apply K_do_on; auto|apply no_crash_do_on].
  - split; [|apply no_crash_do_fast_on]. rewrite do_fast_on_fst. destruct (CommonIgnition _ _ _); [apply K_TurnOn|]; auto.
  - destruct T as [-> T]. apply K_do_off; auto.
  - assert (L : Kp (fst (if check_postoff s && negb off_playing then (set_post s false (saved s), [POSTOFF (saved s)]) else (s, []))) /\ ~ In Crash (snd (if check_postoff s && negb off_playing then (set_post s false (saved s), [POSTOFF (saved s)]) else (s, [])))) by (destruct (_ && _); split; try exact K; cbn; intuition discriminate).
    destruct (fst_ s) eqn:E; try exact L. destruct preon_playing; [exact L|split; [apply K_TurnOn; auto|apply no_crash_TurnOn]].
  - destruct (J_preset_cases s f refuse slow true Q) as (s1 & o1 & O & J1 & O1 & P1 & ->). cbv zeta. cbn [fst snd].
    assert (KC : Kp (chdir s1 f)) by (intros M; cbn; rewrite O1; split; intros; discriminate).
    assert (N1 : ~ In Crash o1). { destruct O as [(_ & _ & ->)|(_ & _ & ->)]; [intros []|]. apply K_do_off; auto. }
    split.
    + destruct (IsOn s); [|exact KC]. destruct slow; [apply K_do_on; auto; apply J_chdir; auto|]. rewrite do_fast_on_fst. destruct (CommonIgnition _ _ _); [apply K_TurnOn|]; auto.
    + intros X. apply in_app_or in X. destruct X as [X|X]; [auto|]. destruct (IsOn s); [|destruct X]. destruct slow; [eapply no_crash_do_on|eapply no_crash_do_fast_on]; exact X.
Qed.
Lemma no_crash ops f v : Forall together ops -> Forall (fun o => is_chdir o = false) ops -> Forall players ops ->
  Kp (run_state step (state0 f v) ops) /\ ~ In Crash (concat (run_outs step (state0 f v) ops)).
Proof.
  induction ops as [|o ops IH] using rev_ind; intros T C F; [split; [intros _; cbn; split; intros; discriminate|intros []]|].
  apply Forall_app in T, C, F. destruct T as [T1 T2], C as [C1 C2], F as [F1 F2]. inversion T2; inversion C2; inversion F2; subst. destruct (IH T1 C1 F1) as [K N].
  rewrite run_state_app, run_outs_app, concat_app. cbn [run_state run_outs]. pose proof (K_step _ o ltac:(eassumption) ltac:(eassumption) ltac:(eassumption) (J_run ops f v T1) K) as [X Y]. destruct (step _ o). cbn [fst snd concat] in *. rewrite app_nil_r. split; [exact X|]. intros Z. apply in_app_or in Z. tauto.
Qed.

(** * Post-off sounds *)
Definition due (s : state) : nat := if check_postoff s then 1%nat else 0%nat.
Lemma count_app p x y : count p (x ++ y) = (count p x + count p y)%nat.
Proof. unfold count. rewrite filter_app, app_length. reflexivity. Qed.
Definition fair (s t : state) (os : list out) : Prop := (count is_postoff os + due t <= due s + count is_retraction os)%nat.
Lemma fair_refl s : fair s s [].
Proof. unfold fair. cbn. lia. Qed.
Lemma fair_trans s t u x y : fair s t x -> fair t u y -> fair s u (x ++ y).
Proof. unfold fair. rewrite !count_app. lia. Qed.
Lemma fair_SB_On s fr : check_postoff (SB_On s fr) = check_postoff s.
Proof. open s. unfold SB_On, PlayMonophonic. cbn. brk; reflexivity. Qed.
Lemma fair_TurnOn s loc fr : fair s (fst (TurnOn s loc fr)) (snd (TurnOn s loc fr)).
Proof. unfold TurnOn. destruct (none _); [apply fair_refl|]. unfold fair, due. cbn [fst snd]. rewrite fair_SB_On. cbn. lia. Qed.
Lemma fair_do_on s loc r fr : fair s (fst (do_on s loc r fr)) (snd (do_on s loc r fr)).
Proof. unfold do_on. destruct (CommonIgnition _ _ _); [|apply fair_refl]. unfold fair, due, SB_Preon. cbn [fst snd]. open s. cbn. brk; cbn; lia. Qed.
Lemma fair_do_fast_on s loc r fr : fair s (fst (do_fast_on s loc r fr)) (snd (do_fast_on s loc r fr)).
Proof.
  unfold do_fast_on. destruct (CommonIgnition _ _ _); [|apply fair_refl]. pose proof (fair_TurnOn s loc fr) as F. destruct (TurnOn s loc fr) as [t o]. cbn [fst snd] in *. eapply fair_trans; [exact F|]. unfold fair. cbn. lia.
Qed.
Lemma fair_SB_Off s ty loc fr : fair s (fst (SB_Off s ty loc fr)) (snd (SB_Off s ty loc fr) ++ off_effect ty loc).
Proof.
  assert (N : count is_postoff (snd (SB_Off s ty loc fr) ++ off_effect ty loc) = 0%nat).
  { rewrite count_app. assert (X : count is_postoff (snd (SB_Off s ty loc fr)) = 0%nat).
    { pose proof (SB_Off_out s ty loc fr) as O. induction (snd (SB_Off s ty loc fr)) as [|o os IH]; [reflexivity|]. rewrite (O o (or_introl eq_refl)). apply IH. intros x X. apply O. right. exact X. }
    rewrite X. destruct ty; reflexivity. }
  assert (R : check_postoff (fst (SB_Off s ty loc fr)) = check_postoff s \/ (ty = OFF_NORMAL \/ ty = OFF_FAST)).
  { destruct ty; auto; left; open s; unfold SB_Off, PlayMonophonic; cbn; brk; reflexivity. }
  unfold fair. rewrite N. destruct R as [R|R]; [unfold due; rewrite R; lia|]. rewrite count_app. assert (E : count is_retraction (off_effect ty loc) = 1%nat) by (destruct R as [-> | ->]; reflexivity). rewrite E. unfold due. destruct (check_postoff (fst _)); lia.
Qed.
Lemma fair_same s t os : check_postoff t = check_postoff s -> count is_postoff os = 0%nat -> fair s t os.
Proof. unfold fair, due. intros -> ->. lia. Qed.
Lemma fair_plain s o : plain o -> fair s (fst (step s o)) (snd (step s o)).
Proof. intros P. open s. apply fair_same; destruct o; try contradiction; unfold step, begin_lockup, end_lockup, SB_Off, PlayMonophonic, SetMute; cbn; brk; reflexivity. Qed.
Lemma fair_do_off s ty loc fr : fair s (fst (do_off s ty loc fr)) (snd (do_off s ty loc fr)).
Proof.
  destruct (pending s) eqn:P.
  - rewrite do_off_cancel by auto. apply fair_same; [destruct (fst_ s); reflexivity|reflexivity].
  - destruct (Z.eq_dec (on s) 0) as [Z0|NZ]; [rewrite do_off_nothing by auto; apply fair_refl|]. rewrite do_off_eq by auto. cbn [fst snd].
    destruct (off_lock_same s fr) as (_ & _ & _ & _ & _ & LC & _).
    apply fair_trans with (t := off_lock s fr); [apply fair_same; [exact LC|unfold off_lock_out; destruct (lockup s =? 0); reflexivity]|].
    assert (X : fair (off_lock s fr) (fst (TurnOff (off_lock s fr) ty loc fr)) (snd (TurnOff (off_lock s fr) ty loc fr))).
    { unfold TurnOff. destruct (none _); [apply fair_refl|].
      pose proof (fair_SB_Off (set_on (off_lock s fr) (without (on (off_lock s fr)) (Z.land loc (on (off_lock s fr))))) ty (Z.land loc (on (off_lock s fr))) fr) as X.
      destruct (SB_Off _ _ _ _). exact X. }
    destruct (off_mute_same (fst (TurnOff (off_lock s fr) ty loc fr))) as (_ & _ & _ & _ & _ & _ & MC & _). unfold fair, due in *. rewrite MC. exact X.
Qed.
Lemma fair_step s o : fair s (fst (step s o)) (snd (step s o)).
Proof.
  assert (P : plain o \/ ~ plain o) by (destruct o; cbn; tauto). destruct P as [P|P]; [apply fair_plain; auto|].
  destruct o; try (exfalso; apply P; exact Logic.I); cbn [step].
  - apply fair_do_on.
  - apply fair_do_fast_on.
  - apply fair_do_off.
  - assert (L : fair s (fst (if check_postoff s && negb off_playing then (set_post s false (saved s), [POSTOFF (saved s)]) else (s, []))) (snd (if check_postoff s && negb off_playing then (set_post s false (saved s), [POSTOFF (saved s)]) else (s, [])))).
    { destruct (check_postoff s) eqn:E; [|apply fair_refl]. destruct off_playing; [apply fair_refl|]. unfold fair, due. rewrite E. cbn. lia. }
    destruct (fst_ s) eqn:E; try exact L. destruct preon_playing; [exact L|apply fair_TurnOn].
  - destruct (do_preset_cases s f refuse slow free) as (s1 & o1 & O & _ & _ & E). cbv zeta in E. rewrite E. clear E. cbn [fst snd].
    apply fair_trans with (t := s1).
    + destruct O as [(_ & -> & ->)|(_ & -> & ->)]; [apply fair_refl|apply fair_do_off].
    + change (fair s1) with (fair (chdir s1 f)). destruct (none _); [apply fair_refl|]. destruct slow; [apply fair_do_on|apply fair_do_fast_on].
Qed.
Lemma postoffs ops f v : (count is_postoff (concat (run_outs step (state0 f v) ops)) <= count is_retraction (concat (run_outs step (state0 f v) ops)))%nat.
Proof.
  assert (X : fair (state0 f v) (run_state step (state0 f v) ops) (concat (run_outs step (state0 f v) ops))).
  { induction ops as [|o ops IH] using rev_ind; [apply fair_refl|]. rewrite run_state_app, run_outs_app, concat_app. eapply fair_trans; [exact IH|]. cbn [run_state run_outs].
    pose proof (fair_step (run_state step (state0 f v) ops) o) as Y. destruct (step _ o). cbn [fst snd concat] in *. rewrite app_nil_r. exact Y. }
  unfold fair, due in X. cbn [state0 check_postoff] in X. lia.
Qed.

(** * Lockups *)
Definition lock_ok (s t : state) (os : list out) : Prop := fold_left lock_tell os (Some (lockup s)) = Some (lockup t) /\ (forall x, lock_player t = Some x -> x = lockup t /\ x <> 0).
Definition lock_inv (s : state) : Prop := forall x, lock_player s = Some x -> x = lockup s /\ x <> 0.
Lemma lock_trans s t u x y : lock_ok s t x -> lock_ok t u y -> lock_ok s u (x ++ y).
Proof. unfold lock_ok. intros [A _] [B C]. rewrite fold_left_app, A. auto. Qed.
Lemma lock_same s t os : lock_inv s -> lockup t = lockup s -> lock_player t = lock_player s \/ lock_player t = None -> (forall k, ~ In (LOCKUP_BEGIN k) os) -> (forall k, ~ In (LOCKUP_END k) os) -> lock_ok s t os.
Proof.
  intros I L P B E. split.
  - rewrite L. clear - B E. induction os as [|o os IH]; [auto|]. cbn [fold_left]. assert (X : lock_tell (Some (lockup s)) o = Some (lockup s)).
    { destruct o; try reflexivity; exfalso; [apply (B k)|apply (E k)]; left; reflexivity. }
    rewrite X. apply IH; intros k H; [apply (B k)|apply (E k)]; right; exact H.
  - intros x H. rewrite L. destruct P as [P|P]; rewrite P in H; [|discriminate]. apply I. exact H.
Qed.
Ltac noin := intros ? HIN; cbn in HIN; intuition discriminate.
Lemma lock_SB_On s fr : lockup (SB_On s fr) = lockup s /\ lock_player (SB_On s fr) = lock_player s.
Proof. destruct (SB_On_rest s fr) as (A & B & _). auto. Qed.
Lemma lock_TurnOn s loc fr : lock_inv s -> lock_ok s (fst (TurnOn s loc fr)) (snd (TurnOn s loc fr)).
Proof. intros I. unfold TurnOn. destruct (none _); cbn [fst snd]; apply lock_same; auto; try noin; [apply (lock_SB_On (set_on s _) fr)|left; apply (lock_SB_On (set_on s _) fr)]. Qed.
Lemma lock_do_on s loc r fr : lock_inv s -> lock_ok s (fst (do_on s loc r fr)) (snd (do_on s loc r fr)).
Proof. intros I. unfold do_on. destruct (SB_Preon_on s loc fr) as (_ & _ & _ & R1 & R2 & _). destruct (CommonIgnition _ _ _); cbn [fst snd]; apply lock_same; auto; noin. Qed.
Lemma lock_do_fast_on s loc r fr : lock_inv s -> lock_ok s (fst (do_fast_on s loc r fr)) (snd (do_fast_on s loc r fr)).
Proof.
  intros I. unfold do_fast_on. destruct (CommonIgnition _ _ _); [|apply lock_same; auto; noin]. pose proof (lock_TurnOn s loc fr I) as F. destruct (TurnOn s loc fr) as [t o]. cbn [fst snd] in *. eapply lock_trans; [exact F|].
  apply lock_same; auto; try noin. exact (proj2 F).
Qed.
Lemma lock_do_off s ty loc fr : lock_inv s -> lock_ok s (fst (do_off s ty loc fr)) (snd (do_off s ty loc fr)).
Proof.
  intros I. destruct (pending s) eqn:P.
  - rewrite do_off_cancel by auto. apply lock_same; auto; try noin; destruct (fst_ s); auto.
  - destruct (Z.eq_dec (on s) 0) as [Z0|NZ]; [rewrite do_off_nothing by auto; apply lock_same; auto; noin|]. rewrite do_off_eq by auto. cbn [fst snd].
    assert (A : lock_ok s (off_lock s fr) (off_lock_out s)).
    { unfold off_lock, off_lock_out. destruct (lockup s =? 0) eqn:E; [apply lock_same; auto; noin|]. destruct (end_lockup_same s fr) as (_ & _ & _ & _ & _ & _ & L1 & L2 & _). split.
      - rewrite L1. cbn. rewrite E, Z.eqb_refl. reflexivity.
      - rewrite L2. discriminate. }
    eapply lock_trans; [exact A|]. destruct A as [_ A].
    assert (R : lockup (fst (TurnOff (off_lock s fr) ty loc fr)) = lockup (off_lock s fr) /\ lock_player (fst (TurnOff (off_lock s fr) ty loc fr)) = lock_player (off_lock s fr) /\
      (forall k, ~ In (LOCKUP_BEGIN k) (snd (TurnOff (off_lock s fr) ty loc fr))) /\ (forall k, ~ In (LOCKUP_END k) (snd (TurnOff (off_lock s fr) ty loc fr)))).
    { unfold TurnOff. destruct (none _); [repeat split; auto; noin|].
      pose proof (SB_Off_rest (set_on (off_lock s fr) (without (on (off_lock s fr)) (Z.land loc (on (off_lock s fr))))) ty (Z.land loc (on (off_lock s fr))) fr) as (R1 & R2 & _).
      pose proof (fun o => SB_Off_out (set_on (off_lock s fr) (without (on (off_lock s fr)) (Z.land loc (on (off_lock s fr))))) ty (Z.land loc (on (off_lock s fr))) fr o) as R3.
      destruct (SB_Off _ _ _ _). cbn [fst snd] in *. cbn [lockup lock_player set_on] in *. repeat split; auto; intros k X; apply in_app_or in X; destruct X as [X|X]; try (apply R3 in X; discriminate); destruct ty; cbn in X; intuition discriminate. }
    destruct R as (R1 & R2 & R3 & R4). destruct (off_mute_same (fst (TurnOff (off_lock s fr) ty loc fr))) as (_ & _ & _ & _ & _ & _ & _ & M1 & M2).
    apply lock_same; auto; [congruence|left; congruence].
Qed.
Lemma lock_plain s o : plain o -> good_lock s o -> lock_inv s -> lock_ok s (fst (step s o)) (snd (step s o)).
Proof.
  intros P G I. assert (B : forall k fr, k <> 0 -> lockup s = 0 -> lock_ok s (fst (begin_lockup s k fr)) (snd (begin_lockup s k fr))).
  { intros k fr K L. unfold lock_ok, begin_lockup. cbn. rewrite L. cbn. split; [reflexivity|]. assert (N : lock_player s = None). { destruct (lock_player s) eqn:E; [|auto]. destruct (I _ E). congruence. } rewrite N. brk; intros x X; try discriminate; inversion X; subst; auto. }
  assert (E : forall fr, lockup s <> 0 -> lock_ok s (fst (end_lockup s fr)) (snd (end_lockup s fr))).
  { intros fr L. destruct (end_lockup_same s fr) as (_ & _ & _ & _ & _ & _ & L1 & L2 & _). split.
    - rewrite L1. cbn. rewrite Z.eqb_refl. replace (lockup s =? 0) with false by lia. reflexivity.
    - rewrite L2. discriminate. }
  destruct o; try contradiction; cbn [step].
  - apply lock_same; auto; try noin; open s; cbn; brk; auto; intros ? ?; cbn in *; intuition discriminate.
  - apply lock_same; auto; noin.
  - destruct (lockup s =? 0) eqn:L; [apply B; auto; lia|apply E; lia].
  - destruct (IsOn s); cbn [andb]; [|apply lock_same; auto; noin]. destruct (lockup s =? 0) eqn:L; [apply B; auto; lia|apply lock_same; auto; noin].
  - destruct (IsOn s); [|apply lock_same; auto; noin]. apply B; auto. discriminate.
  - destruct (IsOn s); cbn [andb]; [|apply lock_same; auto; noin]. destruct (lockup s =? 0) eqn:L; cbn [negb]; [apply lock_same; auto; noin|apply E; lia].
  - cbn [fst snd]. destruct (SetMute_same s true) as (_ & _ & _ & _ & _ & _ & _ & M1 & M2). apply lock_same; auto; noin.
  - cbn [fst snd]. destruct (SetMute_same s false) as (_ & _ & _ & _ & _ & _ & _ & M1 & M2). apply lock_same; auto; noin.
  - destruct (SetMute_same s true) as (_ & _ & _ & _ & _ & _ & _ & M1 & M2). destruct (SetMute_same s false) as (_ & _ & _ & _ & _ & _ & _ & N1 & N2). destruct (SetMute s true) as [t ok]. cbn [fst snd] in *. destruct ok; apply lock_same; auto; noin.
  - cbn [fst snd]. destruct (_ && _); apply lock_same; auto; noin.
  - destruct (IsOn s); [|apply lock_same; auto; noin]. destruct (SetMute_same s true) as (_ & _ & _ & _ & _ & _ & _ & M1 & M2). destruct (SetMute s true) as [t ok]. cbn [fst snd] in *. destruct ok; apply lock_same; auto; noin.
  - apply lock_same; auto; noin.
  - apply lock_same; auto; noin.
Qed.
Lemma lock_step s o : good_lock s o -> lock_inv s -> lock_ok s (fst (step s o)) (snd (step s o)).
Proof.
  intros G I. assert (P : plain o \/ ~ plain o) by (destruct o; cbn; tauto). destruct P as [P|P]; [apply lock_plain; auto|].
  destruct o; try (exfalso; apply P; exact Logic.I); cbn [step].
  - apply lock_do_on; auto.
  - apply lock_do_fast_on; auto.
  - apply lock_do_off; auto.
  - assert (L : lock_ok s (fst (if check_postoff s && negb off_playing then (set_post s false (saved s), [POSTOFF (saved s)]) else (s, []))) (snd (if check_postoff s && negb off_playing then (set_post s false (saved s), [POSTOFF (saved s)]) else (s, [])))).
    { destruct (_ && _); apply lock_same; auto; noin. }
    destruct (fst_ s) eqn:E; try exact L. destruct preon_playing; [exact L|apply lock_TurnOn; auto].
  - destruct (do_preset_cases s f refuse slow free) as (s1 & o1 & O & _ & _ & E). cbv zeta in E. rewrite E. clear E. cbn [fst snd].
    assert (A : lock_ok s s1 o1). { destruct O as [(_ & -> & ->)|(_ & -> & ->)]; [apply lock_same; auto; noin|apply lock_do_off; auto]. }
    eapply lock_trans; [exact A|]. assert (I1 : lock_inv (chdir s1 f)) by (intros x X; discriminate X).
    assert (Y : forall u os, lock_ok (chdir s1 f) u os -> lock_ok s1 u os) by (intros u os Y; exact Y). apply Y.
    destruct (none _); [apply lock_same; auto; noin|]. destruct slow; [apply lock_do_on; auto|apply lock_do_fast_on; auto].
Qed.
Lemma lock_run ops f v : all_along good_lock (state0 f v) ops -> lock_ok (state0 f v) (run_state step (state0 f v) ops) (concat (run_outs step (state0 f v) ops)).
Proof.
  induction ops as [|o ops IH] using rev_ind; intros G; [apply lock_same; auto; try noin; intros x X; discriminate X|].
  assert (G1 : all_along good_lock (state0 f v) ops). { intros a x c E. apply (G a x (c ++ [o])). rewrite E, <- app_assoc. reflexivity. }
  specialize (IH G1). rewrite run_state_app, run_outs_app, concat_app. eapply lock_trans; [exact IH|]. cbn [run_state run_outs].
  pose proof (lock_step (run_state step (state0 f v) ops) o (G ops o [] eq_refl) (proj2 IH)) as Y. destruct (step _ o). cbn [fst snd concat] in *. rewrite app_nil_r. exact Y.
Qed.

(** * Muting *)
Definition mute_inv (v : Z) (s : state) : Prop := volume s = v /\ muted_volume s = 0 \/ volume s = 0 /\ muted_volume s = v.
Lemma mute_SetMute v s m : 0 < v -> mute_inv v s -> mute_inv v (fst (SetMute s m)) /\ (m = false -> volume (fst (SetMute s m)) = v) /\ (m = true -> volume (fst (SetMute s m)) = 0).
Proof.
  unfold mute_inv, SetMute. intros V [[A B]|[A B]]; destruct m; rewrite ?A, ?B; try (replace (v =? 0) with false by lia); cbn; rewrite ?A, ?B; repeat apply conj; auto; try discriminate.
Qed.
Lemma mute_rest v s t : rest_same s t -> mute_inv v s -> mute_inv v t.
Proof. intros (_ & _ & A & B & _). unfold mute_inv. rewrite A, B. auto. Qed.
Lemma rest_TurnOn s loc fr : rest_same s (fst (TurnOn s loc fr)).
Proof. unfold TurnOn. destruct (none _); [repeat split|]. destruct (SB_On_rest (set_on s (Z.lor (on s) (without loc (on s)))) fr) as (A & B & C & D & E & F). repeat split; auto. Qed.
Lemma rest_do_on s loc r fr : rest_same s (fst (do_on s loc r fr)).
Proof. unfold do_on. destruct (CommonIgnition _ _ _); [|repeat split]. destruct (SB_Preon_on s loc fr) as (_ & _ & _ & A & B & C & D & E & F). repeat split; auto. Qed.
Lemma rest_do_fast_on s loc r fr : rest_same s (fst (do_fast_on s loc r fr)).
Proof. rewrite do_fast_on_fst. destruct (CommonIgnition _ _ _); [apply rest_TurnOn|repeat split]. Qed.
Definition vol_same (s t : state) : Prop := volume t = volume s /\ muted_volume t = muted_volume s /\ unmute_off t = unmute_off s.
Lemma vol_off_sound s ty loc fr : vol_same s (fst (TurnOff (off_lock s fr) ty loc fr)).
Proof.
  assert (L : vol_same s (off_lock s fr)). { unfold off_lock. destruct (lockup s =? 0); [repeat split|]. destruct (end_lockup_same s fr) as (_ & _ & _ & _ & _ & _ & _ & _ & A & B & C & _). repeat split; auto. }
  unfold TurnOff. destruct (none _); [exact L|].
  pose proof (SB_Off_rest (set_on (off_lock s fr) (without (on (off_lock s fr)) (Z.land loc (on (off_lock s fr))))) ty (Z.land loc (on (off_lock s fr))) fr) as (_ & _ & A & B & C & _).
  destruct (SB_Off _ _ _ _). cbn [fst] in *. cbn [volume muted_volume unmute_off set_on] in *. destruct L as (L1 & L2 & L3). repeat split; congruence.
Qed.
Lemma mute_do_off v s ty loc fr : 0 < v -> mute_inv v s -> mute_inv v (fst (do_off s ty loc fr)) /\ (pending s = false -> on s <> 0 -> unmute_off s = true -> volume (fst (do_off s ty loc fr)) = v /\ unmute_off (fst (do_off s ty loc fr)) = false).
Proof.
  intros V M. destruct (pending s) eqn:P.
  - rewrite do_off_cancel by auto. split; [|discriminate]. destruct (fst_ s); exact M.
  - destruct (Z.eq_dec (on s) 0) as [Z0|NZ]; [rewrite do_off_nothing by auto; split; [exact M|intros; contradiction]|]. rewrite do_off_eq by auto. cbn [fst].
    destruct (vol_off_sound s ty loc fr) as (A & B & C). unfold off_mute. rewrite C. destruct (unmute_off s) eqn:U.
    + set (t := set_vol _ _ _ _). assert (MT : mute_inv v t) by (unfold mute_inv, t; cbn; rewrite A, B; exact M). destruct (mute_SetMute v t false V MT) as (X & Y & _). split; [exact X|]. intros _ _ _. split; [auto|].
      unfold SetMute. destruct (muted_volume t =? 0); reflexivity.
    + split; [unfold mute_inv; rewrite A, B; exact M|discriminate].
Qed.
Lemma mute_step v s o : 0 < v -> no_set_volume o -> mute_inv v s -> mute_inv v (fst (step s o)).
Proof.
  intros V N M. destruct o; try contradiction; cbn [step].
  - eapply mute_rest; [apply rest_do_on|exact M].
  - eapply mute_rest; [apply rest_do_fast_on|exact M].
  - apply mute_do_off; auto.
  - assert (L : mute_inv v (fst (if check_postoff s && negb off_playing then (set_post s false (saved s), [POSTOFF (saved s)]) else (s, [])))) by (destruct (_ && _); exact M).
    destruct (fst_ s) eqn:E; try exact L. destruct preon_playing; [exact L|]. eapply mute_rest; [apply rest_TurnOn|exact M].
  - open s. unfold mute_inv in *. cbn in *. brk; auto.
  - exact M.
  - destruct (do_preset_cases s f refuse slow free) as (s1 & o1 & O & _ & _ & E). cbv zeta in E. rewrite E. clear E. cbn [fst snd].
    assert (M1 : mute_inv v (chdir s1 f)). { destruct O as [(_ & -> & ->)|(_ & -> & ->)]; [exact M|]. apply (mute_do_off v s OFF_NORMAL all free V M). }
    destruct (none _); [exact M1|]. destruct slow; eapply mute_rest; try exact M1; [apply rest_do_on|apply rest_do_fast_on].
  - destruct (lockup s =? 0).
    + unfold begin_lockup, PlayMonophonic. cbn [fst]. destruct (mono_lock _), free; exact M.
    + destruct (end_lockup_same s free) as (_ & _ & _ & _ & _ & _ & _ & _ & A & B & _). unfold mute_inv. rewrite A, B. exact M.
  - destruct (_ && _); [|exact M]. unfold begin_lockup, PlayMonophonic. cbn [fst]. destruct (mono_lock _), free; exact M.
  - destruct (IsOn s); [|exact M]. unfold begin_lockup, PlayMonophonic. cbn [fst]. destruct (mono_lock _), free; exact M.
  - destruct (_ && _); [|exact M]. destruct (end_lockup_same s free) as (_ & _ & _ & _ & _ & _ & _ & _ & A & B & _). unfold mute_inv. rewrite A, B. exact M.
  - apply mute_SetMute; auto.
  - apply mute_SetMute; auto.
  - destruct (SetMute s true) as [t ok] eqn:E. destruct ok; cbn [fst]; [|apply mute_SetMute; auto]. pose proof (mute_SetMute v s true V M) as (X & _). rewrite E in X. exact X.
  - destruct (IsOn s); [|exact M]. pose proof (mute_SetMute v s true V M) as (X & _). destruct (SetMute s true) as [t ok]. destruct ok; exact X.
  - exact M.
  - exact M.
Qed.
Lemma mute_run ops f v : 0 < v -> Forall no_set_volume ops -> mute_inv v (run_state step (state0 f v) ops).
Proof.
  intros V. induction ops as [|o ops IH] using rev_ind; intros N; [left; cbn; auto|]. apply Forall_app in N. destruct N as [N1 N2]. inversion N2; subst.
  rewrite run_state_app. cbn [run_state]. pose proof (mute_step v _ o V H1 (IH N1)) as X. destruct (step _ o). exact X.
Qed.
Lemma unmute_step s o : no_off o -> unmute_off s = true -> unmute_off (fst (step s o)) = true.
Proof.
  intros N U. destruct o; try contradiction; cbn [step].
  - destruct (rest_do_on s loc refuse free) as (_ & _ & _ & _ & -> & _). exact U.
  - destruct (rest_do_fast_on s loc refuse free) as (_ & _ & _ & _ & -> & _). exact U.
  - destruct (rest_TurnOn s (saved s) free) as (_ & _ & _ & _ & E & _).
    destruct (fst_ s); [|destruct preon_playing; [|congruence]| | | |]; (destruct (_ && _); exact U).
  - open s. cbn in *. brk; auto.
  - exact U.
  - open s. unfold begin_lockup, end_lockup, PlayMonophonic. cbn in *. brk; auto.
  - open s. unfold begin_lockup, end_lockup, PlayMonophonic. cbn in *. brk; auto.
  - open s. unfold begin_lockup, end_lockup, PlayMonophonic. cbn in *. brk; auto.
  - open s. unfold begin_lockup, end_lockup, PlayMonophonic. cbn in *. brk; auto.
  - unfold SetMute. destruct (volume s =? 0); exact U.
  - unfold SetMute. destruct (muted_volume s =? 0); exact U.
  - unfold SetMute. destruct (volume s =? 0); [destruct (muted_volume s =? 0)|]; exact U.
  - destruct (_ && _); exact U.
  - destruct (IsOn s); [|exact U]. unfold SetMute. destruct (volume s =? 0); [exact U|reflexivity].
  - exact U.
  - exact U.
Qed.
Lemma unmute_run ops s : Forall no_off ops -> unmute_off s = true -> unmute_off (run_state step s ops) = true.
Proof.
  intros H. revert s. induction H as [|o ops N _ IH]; intros s U; [exact U|]. cbn [run_state]. pose proof (unmute_step s o N U) as X. destruct (step s o). apply IH. exact X.
Qed.
Lemma double_click ops more f v ty loc fr b : 0 < v -> Forall no_set_volume ops -> Forall no_set_volume more -> Forall no_off more ->
  let s := run_state step (state0 f v) ops in volume s = v -> IsOn s = true ->
  let t := run_state step s (DoubleClick :: more) in
  volume (fst (step s DoubleClick)) = 0 /\ (pending t = false -> 0 <= b -> lit t b = true -> volume (fst (step t (Off ty loc fr))) = v).
Proof.
  intros V N1 N2 N3. cbv zeta. intros A O. pose proof (mute_run ops f v V N1) as M. set (s := run_state step (state0 f v) ops) in *.
  assert (E : step s DoubleClick = (set_vol s 0 v true, [])). { unfold step. rewrite O. unfold SetMute. replace (volume s =? 0) with false by lia. rewrite A. reflexivity. }
  split; [rewrite E; reflexivity|]. intros P B L. pose proof (mute_run (ops ++ DoubleClick :: more) f v V) as M2. rewrite run_state_app in M2. fold s in M2.
  assert (N : Forall no_set_volume (ops ++ DoubleClick :: more)) by (apply Forall_app; split; [exact N1|constructor; [exact Logic.I|exact N2]]). specialize (M2 N).
  assert (U : unmute_off (run_state step s (DoubleClick :: more)) = true).
  { cbn [run_state]. rewrite E. apply unmute_run; auto. }
  set (t := run_state step s (DoubleClick :: more)) in *. apply (mute_do_off v t ty loc fr V M2); auto.
  intros Z0. unfold lit in L. rewrite Z0, Z.testbit_0_l in L. discriminate.
Qed.

(** * What goes wrong *)
Lemma run_inv (I : state -> Prop) (p : op -> Prop) : (forall s o, p o -> I s -> I (fst (step s o))) -> forall ops s, Forall p ops -> I s -> I (run_state step s ops).
Proof. intros H ops. induction ops as [|o ops IH]; intros s F X; [exact X|]. inversion F; subst. cbn [run_state]. pose proof (H s o H2 X) as Y. destruct (step s o). apply IH; auto. Qed.
Definition stuck (s : state) : Prop := on s = 0 /\ pending s = true /\ fst_ s = STATE_OFF.
Lemma stuck_step s o : no_ask o /\ no_off o -> stuck s -> stuck (fst (step s o)).
Proof.
  intros [A B] (O & P & F). unfold stuck. open s. cbn in O, P, F. subst.
  destruct o; try contradiction; unfold step, begin_lockup, end_lockup, SB_Off, PlayMonophonic, SetMute; cbn; brk; auto.
Qed.
Definition hums_on (s : state) : Prop := on s = 0 /\ pending s = false /\ fst_ s = STATE_HUM_ON.
Lemma hums_on_step s o : no_ask o /\ is_chdir o = false -> hums_on s -> hums_on (fst (step s o)).
Proof.
  intros [A B] (O & P & F). unfold hums_on. open s. cbn in O, P, F. subst.
  destruct o; try contradiction; try discriminate B; unfold step, do_off, begin_lockup, end_lockup, SB_Off, PlayMonophonic, SetMute; cbn; brk; auto.
Qed.
Definition mute_lit (s : state) : Prop := on s = -1 /\ pending s = false /\ fst_ s = STATE_OFF.
Lemma mute_lit_step s o : no_off o -> together o -> mute_lit s -> mute_lit (fst (step s o)).
Proof.
  intros A T (O & P & F). unfold mute_lit. open s. cbn in O, P, F, T. subst.
  destruct o; try contradiction; cbn in T; try subst; unfold step, do_on, do_fast_on, begin_lockup, end_lockup, SB_Off, PlayMonophonic, SetMute; cbn; brk; auto.
Qed.

(** ** Where a post-off effect comes from *)
Lemma post_SB_Off s ty loc fr : check_postoff (fst (SB_Off s ty loc fr)) = true -> check_postoff s = true \/ (ty = OFF_NORMAL /\ pstoff (fnt s) = true).
Proof. open s. unfold SB_Off, PlayMonophonic. destruct ty; cbn; brk; auto; try discriminate; destruct pstoff; auto; discriminate. Qed.
Lemma post_do_off s ty loc fr : check_postoff (fst (do_off s ty loc fr)) = true ->
  check_postoff s = true \/ (ty = OFF_NORMAL /\ pstoff (fnt s) = true /\ exists l, In (RETRACTION l) (snd (do_off s ty loc fr))).
Proof.
  unfold do_off. destruct (pending s).
  - pose proof (post_SB_Off (set_on (set_pending s false) 0) OFF_CANCEL_PREON all fr) as X. destruct (SB_Off _ _ _ _). cbn [fst snd] in *. intros H. destruct (X H) as [Y|[Y _]]; [left; exact Y|discriminate].
  - destruct (none (on s)); [auto|].
    assert (A : exists s1 o1, (if lockup s =? 0 then (s, []) else end_lockup s fr) = (s1, o1) /\ check_postoff s1 = check_postoff s /\ fnt s1 = fnt s).
    { destruct (lockup s =? 0); [eauto|]. unfold end_lockup. eexists _, _. split; [reflexivity|].
      destruct (lock_player s), (lockup_snd (fnt s)), fr; auto. }
    destruct A as (s1 & o1 & -> & A1 & A2). unfold TurnOff. destruct (none _) eqn:N.
    + cbn [fst snd]. intros H. left. rewrite <- A1, <- H. destruct (unmute_off s1); [|reflexivity]. symmetry. apply (SetMute_same (set_vol s1 (volume s1) (muted_volume s1) false) false).
    + pose proof (post_SB_Off (set_on s1 (without (on s1) (Z.land loc (on s1)))) ty (Z.land loc (on s1)) fr) as X.
      destruct (SB_Off _ _ _ _) as [s2 o2]. cbn [fst snd] in *. intros H.
      assert (H2 : check_postoff s2 = true) by (rewrite <- H; destruct (unmute_off s2); [symmetry; apply (SetMute_same (set_vol s2 (volume s2) (muted_volume s2) false) false)|reflexivity]).
      destruct (X H2) as [Y|[-> Y]]; [left; cbn in Y; congruence|right]. cbn in Y. rewrite A2 in Y. refine (conj eq_refl (conj Y _)). exists (Z.land loc (on s1)).
      apply in_or_app. right. apply in_or_app. right. now left.
Qed.
Lemma post_on s loc fr : check_postoff (fst (TurnOn s loc fr)) = check_postoff s.
Proof. unfold TurnOn. destruct (none _); [reflexivity|]. cbn [fst]. now rewrite fair_SB_On. Qed.
Lemma post_step s o : check_postoff (fst (step s o)) = true -> check_postoff s = true \/ tells_off s o.
Proof.
  assert (ON : forall s loc r fr, check_postoff (fst (do_on s loc r fr)) = check_postoff s).
  { intros s0 loc r fr. unfold do_on. destruct (CommonIgnition _ _ _); [|reflexivity]. unfold SB_Preon. open s0. cbn. brk; reflexivity. }
  assert (FO : forall s loc r fr, check_postoff (fst (do_fast_on s loc r fr)) = check_postoff s).
  { intros s0 loc r fr. unfold do_fast_on. destruct (CommonIgnition _ _ _); [|reflexivity]. pose proof (post_on s0 loc fr) as E. destruct (TurnOn s0 loc fr). exact E. }
  assert (P : plain o \/ ~ plain o) by (destruct o; cbn; tauto). destruct P as [P|P].
  { intros H. left. rewrite <- H. clear H. open s. destruct o; try contradiction; unfold step, begin_lockup, end_lockup, SB_Off, PlayMonophonic, SetMute; cbn; brk; reflexivity. }
  destruct o; try (exfalso; apply P; exact Logic.I).
  - cbn [step]. rewrite ON. auto.
  - cbn [step]. rewrite FO. auto.
  - intros H. cbn [step] in H. destruct (post_do_off _ _ _ _ H) as [Q|(-> & Q1 & Q2)]; [auto|right]. exact (conj Logic.I (conj Q1 Q2)).
  - cbn [step]. intros H. left. destruct (fst_ s) eqn:E; [| destruct preon_playing; [|rewrite post_on in H; exact H] | | | |];
      destruct (check_postoff s) eqn:C; auto; cbn in H; congruence.
  - intros H. cbn [step] in H. destruct (do_preset_cases s f refuse slow free) as (s1 & o1 & O & _ & _ & E). cbv zeta in E.
    assert (H1 : check_postoff s1 = true).
    { rewrite E in H. cbn [fst] in H. destruct (none _); [exact H|]. destruct slow; [rewrite ON in H; exact H|rewrite FO in H; exact H]. }
    destruct O as [(_ & -> & ->)|(_ & -> & ->)]; [auto|]. destruct (post_do_off _ _ _ _ H1) as [Q|(_ & Q1 & l & Q2)]; [auto|right].
    refine (conj Logic.I (conj Q1 _)). exists l. cbn [step]. rewrite E. cbn [snd]. apply in_or_app. now left.
Qed.
Lemma no_post_off s ty loc fr l : ~ In (POSTOFF l) (snd (do_off s ty loc fr)).
Proof.
  unfold do_off. destruct (pending s).
  - pose proof (SB_Off_out (set_on (set_pending s false) 0) OFF_CANCEL_PREON all fr (POSTOFF l)) as X. destruct (SB_Off _ _ _ _). cbn [snd] in *. intros I. specialize (X I). discriminate.
  - destruct (none (on s)); [intros []|].
    assert (A : exists s1 o1, (if lockup s =? 0 then (s, []) else end_lockup s fr) = (s1, o1) /\ ~ In (POSTOFF l) o1).
    { destruct (lockup s =? 0); eexists _, _; (split; [reflexivity|]); cbn; intuition discriminate. }
    destruct A as (s1 & o1 & -> & A). unfold TurnOff. destruct (none _); cbn [snd]; [rewrite app_nil_r; exact A|].
    pose proof (SB_Off_out (set_on s1 (without (on s1) (Z.land loc (on s1)))) ty (Z.land loc (on s1)) fr (POSTOFF l)) as X. destruct (SB_Off _ _ _ _). cbn [snd] in *.
    intros I. apply in_app_or in I. destruct I as [I|I]; [exact (A I)|]. apply in_app_or in I. destruct I as [I|I]; [specialize (X I); discriminate|].
    destruct ty; cbn in I; intuition discriminate.
Qed.
Lemma no_post_on s loc fr l : ~ In (POSTOFF l) (snd (TurnOn s loc fr)).
Proof. unfold TurnOn. destruct (none _); cbn; intuition discriminate. Qed.
Lemma post_out s o l : In (POSTOFF l) (snd (step s o)) -> check_postoff s = true.
Proof.
  assert (ON : forall s loc r fr, ~ In (POSTOFF l) (snd (do_on s loc r fr))).
  { intros s0 loc r fr. unfold do_on. destruct (CommonIgnition _ _ _); cbn; intuition discriminate. }
  assert (FO : forall s loc r fr, ~ In (POSTOFF l) (snd (do_fast_on s loc r fr))).
  { intros s0 loc r fr. unfold do_fast_on. destruct (CommonIgnition _ _ _); [|intros []]. pose proof (no_post_on s0 loc fr l) as E. destruct (TurnOn s0 loc fr). cbn [snd] in *.
    intros I. apply in_app_or in I. cbn in I. intuition discriminate. }
  assert (P : plain o \/ ~ plain o) by (destruct o; cbn; tauto). destruct P as [P|P].
  { intros H. exfalso. revert H. open s. destruct o; try contradiction; unfold step, begin_lockup, end_lockup, SB_Off, PlayMonophonic, SetMute; cbn; brk; cbn; intuition discriminate. }
  destruct o; try (exfalso; apply P; exact Logic.I); cbn [step].
  - intros I. destruct (ON _ _ _ _ I).
  - intros I. destruct (FO _ _ _ _ I).
  - intros I. destruct (no_post_off _ _ _ _ _ I).
  - destruct (fst_ s); [| destruct preon_playing; [|intros I; destruct (no_post_on _ _ _ _ I)] | | | |]; destruct (check_postoff s); auto; cbn; intuition.
  - intros I. destruct (do_preset_cases s f refuse slow free) as (s1 & o1 & O & _ & _ & E). cbv zeta in E. rewrite E in I. cbn [snd] in I.
    apply in_app_or in I. destruct I as [I|I].
    + destruct O as [(_ & -> & ->)|(_ & -> & ->)]; [destruct I|destruct (no_post_off _ _ _ _ _ I)].
    + destruct (none _); [destruct I|]. destruct slow; [destruct (ON _ _ _ _ I)|destruct (FO _ _ _ _ I)].
Qed.
Lemma post_history ops f v o l : In (POSTOFF l) (snd (step (run_state step (state0 f v) ops) o)) ->
  exists a o' b, ops = a ++ o' :: b /\ tells_off (run_state step (state0 f v) a) o'.
Proof.
  intros I. apply post_out in I. revert I. induction ops as [|x ops IH] using rev_ind; [discriminate|]. intros I. rewrite run_state_app in I. cbn [run_state] in I.
  destruct (post_step _ _ I) as [Q|Q].
  - destruct (IH Q) as (a & o' & b & E & T). exists a, o', (b ++ [x]). rewrite E, <- app_assoc. auto.
  - exists ops, x, []. auto.
Qed.
Lemma blast_fades s loc fr : mono (fnt s) = false -> pending s = false -> Z.land loc (on s) <> 0 ->
  fst_ (fst (step s (Off OFF_BLAST loc fr))) = STATE_HUM_FADE_OUT.
Proof.
  intros M P L. cbn [step]. assert (NZ : on s <> 0) by (intros Z0; rewrite Z0, Z.land_0_r in L; congruence). rewrite do_off_eq by auto. cbn [fst].
  destruct (off_mute_same (fst (TurnOff (off_lock s fr) OFF_BLAST loc fr))) as (_ & _ & F & _). rewrite F.
  destruct (off_lock_same s fr) as (O1 & _ & _ & _ & O5 & _). unfold TurnOff, none. rewrite O1. replace (Z.land loc (on s) =? 0) with false by lia.
  unfold SB_Off. cbn [fnt set_on]. rewrite O5, M. reflexivity.
Qed.
Lemma blast_silent s loc fr b : mono (fnt s) = false -> pending s = false -> 0 <= b -> lit s b = true -> Z.testbit loc b = true ->
  let t := fst (step s (Off OFF_BLAST loc fr)) in let u := fst (step t (Hum true true)) in fst_ u = STATE_OFF /\ hum u = false.
Proof.
  intros M P B L T. cbv zeta. assert (N : Z.land loc (on s) <> 0).
  { intros E. assert (X : Z.testbit (Z.land loc (on s)) b = true) by (rewrite Z.land_spec, T; exact L). rewrite E, Z.bits_0 in X. discriminate. }
  pose proof (blast_fades s loc fr M P N) as F. set (t := fst (step s (Off OFF_BLAST loc fr))) in *.
  assert (FT : fnt t = fnt s).
  { subst t. cbn [step]. assert (NZ : on s <> 0) by (intros Z0; rewrite Z0, Z.land_0_r in N; congruence). rewrite do_off_eq by auto. cbn [fst].
    destruct (off_mute_same (fst (TurnOff (off_lock s fr) OFF_BLAST loc fr))) as (_ & _ & _ & _ & E & _). rewrite E.
    destruct (off_lock_same s fr) as (_ & _ & _ & _ & O5 & _). unfold TurnOff. destruct (none _); [exact O5|]. unfold SB_Off. cbn [fnt set_on]. rewrite O5, M. exact O5. }
  cbn [step]. rewrite FT, M. rewrite F. cbn [active andb]. destruct (hum t) eqn:H; cbn [negb].
  - rewrite H. cbn [negb]. rewrite F. auto.
  - cbn [hum set_hum negb fst_]. rewrite F. auto.
Qed.
