From Coq Require Import ZArith List Bool Lia ZifyBool.
From Verif Require Import Machine ArithModel PowerModel PowerSpec PowerProofs ShotModel ShotSpec.
Import ListNotations.
Open Scope Z_scope.

Section Runs.
  Context {A I O : Type}.
  Variable f : A -> I -> A * list O.
  Lemma rs_app a b s : run_state f s (a ++ b) = run_state f (run_state f s a) b.
  Proof. revert s; induction a; cbn; auto. Qed.
  Lemma ro_app a b s : run_outs f s (a ++ b) = run_outs f s a ++ run_outs f (run_state f s a) b.
  Proof. revert s; induction a as [|x a IH]; intros; cbn; auto. destruct (f s x) eqn:E. cbn. rewrite IH. reflexivity. Qed.
  Lemma ro_snoc a x s : concat (run_outs f s (a ++ [x])) = concat (run_outs f s a) ++ snd (f (run_state f s a) x).
  Proof. rewrite ro_app, concat_app. cbn. destruct (f _ x). cbn. rewrite app_nil_r. reflexivity. Qed.
End Runs.

(** ** Lockups in the power model *)
Definition lockfx (o : out) : bool := match o with LOCKUP_BEGIN _ | LOCKUP_END _ => true | _ => false end.
Definition nolock (os : list out) : Prop := Forall (fun o => lockfx o = false) os.
Definition lrel (s s' : state) (os : list out) : Prop :=
  (nolock os /\ lockup s' = lockup s) \/ (exists k r, os = LOCKUP_END k :: r /\ nolock r /\ lockup s' = 0).
Lemma nolock_app a b : nolock a -> nolock b -> nolock (a ++ b).
Proof. intros; apply Forall_app; auto. Qed.
Lemma nolock_off s ty loc fr : nolock (snd (SB_Off s ty loc fr)).
Proof. apply Forall_forall. intros o H. apply SB_Off_out in H. subst; reflexivity. Qed.
Lemma nolock_eff ty loc : nolock (off_effect ty loc).
Proof. destruct ty; cbn; repeat constructor. Qed.
Lemma lock_TurnOn s loc fr : nolock (snd (TurnOn s loc fr)) /\ lockup (fst (TurnOn s loc fr)) = lockup s.
Proof.
  unfold TurnOn. destruct (none _); cbn; [split; [constructor|auto]|]. split; [repeat constructor|].
  unfold SB_On, PlayMonophonic, set_fst, set_hum, set_pending, set_on. cbn.
  destruct (mono (fnt s)), (fst_ s), (preon (fnt s)), fr, (hum s); reflexivity.
Qed.
Lemma lock_SB_Off s ty loc fr : lockup (fst (SB_Off s ty loc fr)) = lockup s.
Proof. destruct (SB_Off_rest s ty loc fr) as (A&B&C). exact A. Qed.
Lemma lock_TurnOff s ty loc fr : nolock (snd (TurnOff s ty loc fr)) /\ lockup (fst (TurnOff s ty loc fr)) = lockup s.
Proof.
  unfold TurnOff. destruct (none _); cbn; [split; [constructor|auto]|].
  pose proof (nolock_off (set_on s (without (on s) (Z.land loc (on s)))) ty (Z.land loc (on s)) fr) as N.
  pose proof (lock_SB_Off (set_on s (without (on s) (Z.land loc (on s)))) ty (Z.land loc (on s)) fr) as L.
  destruct (SB_Off _ _ _ _) as [x o]. cbn in *. split; [|exact L].
  apply nolock_app; [exact N|apply nolock_eff].
Qed.
Lemma lock_do_on s loc r fr : nolock (snd (do_on s loc r fr)) /\ lockup (fst (do_on s loc r fr)) = lockup s.
Proof.
  unfold do_on. destruct (CommonIgnition _ _ _); cbn; [|split; [constructor|auto]]. split; [repeat constructor|].
  unfold SB_Preon, set_fst, set_hum, set_post. cbn. destruct (preon (fnt s)), (mono (fnt s)); reflexivity.
Qed.
Lemma lock_fast s loc r fr : nolock (snd (do_fast_on s loc r fr)) /\ lockup (fst (do_fast_on s loc r fr)) = lockup s.
Proof.
  unfold do_fast_on. destruct (CommonIgnition _ _ _); cbn; [|split; [constructor|auto]].
  destruct (lock_TurnOn s loc fr) as [N L]. destruct (TurnOn _ _ _) as [x o]. cbn in *. split; auto.
  apply nolock_app; auto. repeat constructor.
Qed.
Lemma lock_end s fr : exists k, snd (end_lockup s fr) = [LOCKUP_END k] /\ lockup (fst (end_lockup s fr)) = 0.
Proof. unfold end_lockup. cbn. eauto. Qed.
Lemma lock_mute s m : lockup (fst (SetMute s m)) = lockup s.
Proof. unfold SetMute. destruct m, (volume s =? 0), (muted_volume s =? 0); reflexivity. Qed.
Lemma lrel_do_off s ty loc fr : lrel s (fst (do_off s ty loc fr)) (snd (do_off s ty loc fr)).
Proof.
  unfold do_off. destruct (pending s).
  - left. set (x := set_on (set_pending s false) 0).
    pose proof (nolock_off x OFF_CANCEL_PREON all fr) as N. pose proof (lock_SB_Off x OFF_CANCEL_PREON all fr) as L.
    destruct (SB_Off _ _ _ _) as [y o]. cbn [fst snd] in *. split; auto.
  - destruct (none (on s)); cbn [fst snd]; [left; split; [constructor|auto]|].
    destruct (lockup s =? 0).
    + left. destruct (lock_TurnOff s ty loc fr) as [N L]. destruct (TurnOff _ _ _ _) as [y o]. cbn [fst snd] in *. split; auto.
      destruct (unmute_off y); [rewrite lock_mute|]; exact L.
    + right. destruct (lock_end s fr) as (k&E&Z0). destruct (end_lockup s fr) as [x o1]. cbn [fst snd] in *. subst o1.
      destruct (lock_TurnOff x ty loc fr) as [N L]. destruct (TurnOff _ _ _ _) as [y o]. cbn [fst snd] in *.
      exists k, o. split; auto. split; auto.
      destruct (unmute_off y); [rewrite lock_mute|]; change (lockup y = 0); congruence.
Qed.
Lemma lrel_nolock s s' s'' a b : lrel s s' a -> nolock b -> lockup s'' = lockup s' -> lrel s s'' (a ++ b).
Proof.
  intros [[N L]|(k&r&E&N&L)] Nb Lb.
  - left. split; [apply nolock_app; auto|congruence].
  - right. subst. exists k, (r ++ b). cbn. split; auto. split; [apply nolock_app; auto|congruence].
Qed.
Lemma lrel_preset s f r slow fr : lrel s (fst (do_preset s f r slow fr)) (snd (do_preset s f r slow fr)).
Proof.
  unfold do_preset.
  assert (H : lrel s (fst (if IsOn s then do_off s OFF_NORMAL all fr else (s, []))) (snd (if IsOn s then do_off s OFF_NORMAL all fr else (s, [])))).
  { destruct (IsOn s); [apply lrel_do_off|left; split; [constructor|auto]]. }
  destruct (if IsOn s then do_off s OFF_NORMAL all fr else (s, [])) as [s1 o1]. cbn [fst snd] in H.
  destruct (none _).
  - cbn. apply (lrel_nolock _ _ _ _ _ H); [constructor|reflexivity].
  - destruct slow; cbn.
    + destruct (lock_do_on (chdir s1 f) (if IsOn s && none (on s) then all else on s) r fr) as [N L].
      destruct (do_on _ _ _ _) as [s3 o3]. cbn in *. apply (lrel_nolock _ _ _ _ _ H N). exact L.
    + destruct (lock_fast (chdir s1 f) (if IsOn s && none (on s) then all else on s) r fr) as [N L].
      destruct (do_fast_on _ _ _ _) as [s3 o3]. cbn in *. apply (lrel_nolock _ _ _ _ _ H N). exact L.
Qed.

(** Operations that reach the blaster and the detonator from PropBase *)
Definition foreign (o : op) : Prop :=
  match o with ClashLock _ _ | Lightning _ | Release _ | DoubleClick => True | _ => False end.
Lemma lrel_step s o : ~ foreign o -> (forall k fr, o <> LockCmd k fr) -> lrel s (fst (step s o)) (snd (step s o)).
Proof.
  intros F L. assert (NIL : forall x : state, lockup x = lockup s -> lrel s x []).
  { intros x E; left; split; [constructor|exact E]. }
  destruct o; try (exfalso; exact (F I)).
  - left. apply lock_do_on.
  - left. apply lock_fast.
  - apply lrel_do_off.
  - cbn [step]. destruct (fst_ s), preon_playing; try (left; apply lock_TurnOn);
      (destruct (check_postoff s && negb off_playing); cbn; [left; split; [repeat constructor|reflexivity]|apply NIL; reflexivity]).
  - cbn [step]. unfold set_hum, set_fst. destruct (mono _); cbn; [apply NIL; reflexivity|].
    destruct (active _ && _); cbn; [destruct free; cbn|destruct (hum s); cbn]; try (apply NIL; reflexivity);
      destruct (fst_ s); cbn; try (apply NIL; reflexivity); destruct due; cbn; apply NIL; reflexivity.
  - apply NIL; reflexivity.
  - apply lrel_preset.
  - exfalso; exact (L _ _ eq_refl).
  - apply NIL. apply lock_mute.
  - apply NIL. apply lock_mute.
  - cbn [step]. pose proof (lock_mute s true). destruct (SetMute s true) as [x b]. cbn [fst snd] in *. apply NIL.
    destruct b; [auto|apply lock_mute].
  - cbn [step]. apply NIL. destruct (_ && _); reflexivity.
  - apply NIL; reflexivity.
  - cbn. left. split; [constructor|reflexivity].
Qed.

(** ** The blaster *)
Definition rel (s : bstate) (v : env) : bstate * list bout :=
  match bmode s with
  | MODE_AUTO =>
    if lockup (pw s) =? 0 then (s, [])
    else let '(s, o) := with_pw s (end_lockup (pw s) (free v)) in (set_auto s false, o)
  | _ => (s, [])
  end.
Inductive acts (rl : Prop) (fl : bool) (c : cfg) (s : bstate) : bstate -> list bout -> Prop :=
| A_none : acts rl fl c s s []
| A_mode : acts rl fl c s (fst (NextBlasterMode c s)) (snd (NextBlasterMode c s))
| A_preset v : acts rl fl c s (fst (blaster_preset s v)) (snd (blaster_preset s v))
| A_reload : acts rl fl c s (fst (Reload s)) (snd (Reload s))
| A_fire v : acts rl fl c s (fst (Fire c s v)) (snd (Fire c s v))
| A_rel v : rl -> acts rl fl c s (fst (rel s v)) (snd (rel s v))
| A_in : acts rl fl c s (fst (ClipIn c s)) (snd (ClipIn c s))
| A_out : acts rl fl c s (fst (ClipOut c s)) (snd (ClipOut c s))
| A_on r fr : acts rl fl c s (fst (with_pw s (do_on (pw s) all r fr))) (snd (with_pw s (do_on (pw s) all r fr)))
| A_off fr : acts rl fl c s (fst (with_pw s (do_off (pw s) OFF_NORMAL all fr))) (snd (with_pw s (do_off (pw s) OFF_NORMAL all fr)))
| A_bang : is_jammed s = true -> acts rl fl c s (set_jammed s false) [UNJAM]
| A_base o : ~ foreign o -> (forall k fr, o <> LockCmd k fr) -> acts rl fl c s (fst (with_pw s (step (pw s) o))) (snd (with_pw s (step (pw s) o)))
| A_lock k fr : (fl = true -> k <> 4) -> acts rl fl c s (fst (with_pw s (step (pw s) (LockCmd k fr)))) (snd (with_pw s (step (pw s) (LockCmd k fr)))).

Lemma event2_acts (rl : Prop) fl c s b e m v r : (b = 8 -> e = 2 -> rl) -> blaster_event2 c s b e m v = Some r -> acts rl fl c s (fst r) (snd r).
Proof.
  unfold blaster_event2. intros RL H.
  repeat (match type of H with (if ?x then _ else _) = _ => destruct x eqn:?; [injection H as <-; try constructor; fail|] end).
  destruct (at_ b e m BUTTON_FIRE EVENT_RELEASED MODE_ON) eqn:E in H.
  { injection H as <-. apply (A_rel rl fl c s v). unfold at_, BUTTON_FIRE, EVENT_RELEASED in E. apply RL; lia. }
  repeat (match type of H with (if ?x then _ else _) = _ => destruct x eqn:?; [injection H as <-; try constructor; fail|] end).
  discriminate.
Qed.
Lemma event_acts (rl : Prop) fl c s b e v s' os h : (b = 8 -> e = 2 -> rl) -> blaster_event c s b e v = (s', os, h) ->
  (h = false /\ s' = s /\ os = []) \/ (exists sa m, acts rl fl c s sa os /\ s' = set_mods sa m).
Proof.
  unfold blaster_event. intros RL H.
  destruct (blaster_event2 _ _ _ _ (Z.lor (mods s) _) _) as [[x o]|] eqn:E.
  - injection H as <- <- <-. right. exists x, 0. split; auto. apply (event2_acts rl fl) in E; auto.
  - clear E. destruct (blaster_event2 _ _ _ _ _ _) as [[x o]|] eqn:E.
    + injection H as <- <- <-. right. exists x, (Z.ldiff (mods x) b). split; auto. apply (event2_acts rl fl) in E; auto.
    + injection H as <- <- <-. auto.
Qed.
Lemma mods_same s : set_mods s (mods s) = s.
Proof. destruct s; reflexivity. Qed.
Lemma event_unhandled c s b e v s' os : blaster_event c s b e v = (s', os, false) -> s' = s /\ os = [].
Proof.
  unfold blaster_event. destruct (blaster_event2 _ _ _ _ (Z.lor (mods s) _) _) as [[x o]|]; [discriminate|].
  destruct (blaster_event2 _ _ _ _ _ _) as [[x o]|]; [discriminate|]. intros H; injection H; auto.
Qed.
(** Every operation does one of these, and changes the modifiers. *)
Lemma bstep_acts (rl : Prop) fl c s o : (fl = true -> no_auto_cmd o) -> rl \/ (proper o /\ trigger_release o = false) ->
  exists sa m, acts rl fl c s sa (snd (bstep c s o)) /\ fst (bstep c s o) = set_mods sa m.
Proof.
  intros NA RL.
  assert (NIL : forall x, exists sa m, acts rl fl c s sa [] /\ set_mods s x = set_mods sa m).
  { intros x; exists s, x; split; [constructor|auto]. }
  assert (SAME : exists sa m, acts rl fl c s sa [] /\ s = set_mods sa m).
  { exists s, (mods s). rewrite mods_same. split; [constructor|auto]. }
  assert (ANY : forall x os, acts rl fl c s x os -> exists sa m, acts rl fl c s sa os /\ x = set_mods sa m).
  { intros x os A. exists x, (mods x). rewrite mods_same. auto. }
  assert (EV : forall b e v s' os h, (b = 8 -> e = 2 -> rl) -> blaster_event c s b e v = (s', os, h) -> exists sa m, acts rl fl c s sa os /\ s' = set_mods sa m).
  { intros b e v s' os h R E. destruct (event_acts rl fl _ _ _ _ _ _ _ _ R E) as [(->&->&->)|X]; auto. }
  destruct o; cbn [bstep].
  - destruct (blaster_event c s b (e + 8 * n) v) as [[s1 o1] h] eqn:E. destruct h; cbn [fst snd].
    + eapply EV; [|exact E]. intros B E2. destruct RL as [|[Pr _]]; auto. cbn in Pr. exfalso; lia.
    + apply event_unhandled in E. destruct E as [-> ->].
      destruct (blaster_event c s b e v) as [[s2 o2] h2] eqn:E2. cbn [fst snd]. eapply EV; [|exact E2].
      intros -> ->. destruct RL as [|[_ T]]; auto. cbn in T. discriminate.
  - apply NIL.
  - apply NIL.
  - destruct (blaster_event c s b _ v) as [[s2 o2] h2] eqn:E2. cbn [fst snd]. eapply EV; [|exact E2].
    intros _ K. exfalso. destruct up; discriminate.
  - destruct (is_jammed s) eqn:E; cbn [fst snd]; [apply ANY; constructor; auto|apply SAME].
  - destruct (_ && _); cbn [fst snd]; [|apply SAME]. apply ANY. apply A_off.
  - apply ANY. apply A_preset.
  - destruct o; cbn [fst snd]; try apply SAME;
      try (apply ANY, A_lock; exact NA);
      (match goal with |- context[step (pw s) ?o] => apply ANY, (A_base rl fl c s o); [cbn; tauto|intros; discriminate] end).
Qed.

Lemma fold_map_P {T} (tell : option T -> bout -> option T) os l :
  Forall (fun o => forall x, tell (Some x) (P o) = Some x) os -> fold_left tell (map P os) (Some l) = Some l.
Proof. revert l. induction os as [|o os IH]; intros l F; cbn; auto. inversion F as [|? ? A B]; subst. rewrite A. auto. Qed.
Lemma snd_with s r : snd (with_pw s r) = map P (snd r).
Proof. reflexivity. Qed.

(** ammunition *)
Lemma ammo_P N os l : fold_left (ammo_tell N) (map P os) (Some l) = Some l.
Proof. apply fold_map_P. apply Forall_forall. intros; reflexivity. Qed.
Lemma preset_eq s v : exists x os, blaster_preset s v = (set_pw s x, map P os) /\ lrel (pw s) x os.
Proof.
  unfold blaster_preset. unfold with_pw at 1. cbn [fst snd].
  pose proof (lrel_preset (pw s) (efont v) (refuse v) false (free v)) as L.
  destruct (do_preset _ _ _ _ _) as [x o]. cbn [fst snd] in *. cbn [pw set_pw].
  destruct (_ && _).
  - destruct (lock_do_on x all (refuse v) (free v)) as [N Lk]. destruct (do_on x all (refuse v) (free v)) as [y o2]. cbn in *.
    exists y, (o ++ o2). rewrite map_app. split; [reflexivity|]. eapply lrel_nolock; eauto.
  - exists x, o. auto.
Qed.
Lemma ammo_acts c s sa os : 0 <= max_shots c -> 0 <= GetBulletCount c s <= max_shots c -> acts True false c s sa os ->
  fold_left (ammo_tell (max_shots c)) os (Some (GetBulletCount c s)) = Some (GetBulletCount c sa) /\ 0 <= GetBulletCount c sa <= max_shots c.
Proof.
  intros N H A.
  assert (PW : forall r, fold_left (ammo_tell (max_shots c)) (map P (snd r)) (Some (GetBulletCount c s)) = Some (GetBulletCount c (fst (with_pw s r))) /\ 0 <= GetBulletCount c (fst (with_pw s r)) <= max_shots c).
  { intros r. rewrite ammo_P. auto. }
  destruct A; try (apply PW); unfold GetBulletCount in *.
  - auto.
  - unfold NextBlasterMode, SetBlasterMode. destruct (bmode s), (auto_firing s), (auto_enabled c); cbn; auto.
  - destruct (preset_eq s v) as (x&os&E&_). rewrite E. cbn [fst snd]. rewrite ammo_P. auto.
  - cbn. split; [f_equal|]; lia.
  - unfold Fire.
    destruct (match jam_percentage c with Some p => if is_jammed s then true else CheckJam (rnd v) p | None => false end).
    + destruct (jam_percentage c); cbn; auto.
    + assert (Hs : forall y, (y = s \/ y = set_jammed s false) ->
        (fun r => fold_left (ammo_tell (max_shots c)) (snd r) (Some (max_shots c - shots_fired s)) = Some (max_shots c - shots_fired (fst r)) /\ 0 <= max_shots c - shots_fired (fst r) <= max_shots c)
        (if negb (max_shots c =? -1) && (max_shots c <=? shots_fired y) then (y, [EMPTY])
  else match bmode y with
  | MODE_AUTO =>
    let '(s, o) := with_pw y (begin_lockup (pw y) 4 (free v)) in (set_auto s true, o)
  | MODE_STUN => (set_shots y (shots_fired y + 1), [STUN])
  | MODE_KILL => (set_shots y (shots_fired y + 1), [FIRE])
  end)).
      { intros y Y. assert (shots_fired y = shots_fired s) as Q by (destruct Y; subst; reflexivity).
        destruct (_ && _) eqn:E; [cbn; rewrite Q; replace (max_shots c - shots_fired s =? 0) with true by lia; split; [f_equal|]; lia|].
        destruct (bmode y); cbn; rewrite ?Q; try (replace (0 <? max_shots c - shots_fired s) with true by lia); split; try f_equal; lia. }
      destruct (jam_percentage c); apply Hs; auto.
  - unfold rel. destruct (bmode s); cbn; auto. destruct (lockup (pw s) =? 0); cbn; auto.
  - unfold ClipIn. destruct (max_shots c =? -1) eqn:E; [lia|]. cbn. split; [f_equal|]; lia.
  - unfold ClipOut. destruct (max_shots c =? -1) eqn:E; [lia|]. cbn. split; [f_equal|]; lia.
  - cbn. auto.
Qed.

Lemma told_snoc {T} (tell : option T -> bout -> option T) a c s ops o :
  told tell a (concat (run_outs (bstep c) s (ops ++ [o]))) = fold_left tell (snd (bstep c (run_state (bstep c) s ops) o)) (told tell a (concat (run_outs (bstep c) s ops))).
Proof. unfold told. rewrite ro_snoc, fold_left_app. reflexivity. Qed.
Lemma rs_snoc {A B O} (f : A -> B -> A * O) s ops o : run_state f s (ops ++ [o]) = fst (f (run_state f s ops) o).
Proof. revert s. induction ops; cbn; auto. Qed.

Lemma ammo c f v ops : 0 <= max_shots c ->
  let s := run_state (bstep c) (bstate0 c f v) ops in
  told (ammo_tell (max_shots c)) (max_shots c) (concat (run_outs (bstep c) (bstate0 c f v) ops)) = Some (GetBulletCount c s) /\ 0 <= GetBulletCount c s <= max_shots c.
Proof.
  intros N. induction ops as [|o ops IH] using rev_ind; cbn zeta.
  - unfold GetBulletCount. cbn. split; [unfold told; cbn; f_equal|]; lia.
  - cbn zeta in IH. destruct IH as [E R]. rewrite told_snoc, rs_snoc, E.
    destruct (bstep_acts True false c (run_state (bstep c) (bstate0 c f v) ops) o) as (sa&m&A&Q); [discriminate|auto|]. rewrite Q.
    exact (ammo_acts _ _ _ _ N R A).
Qed.

Lemma not_P (x : bout) os : (forall o, x <> P o) -> ~ In x (map P os).
Proof. intros H I. apply in_map_iff in I. destruct I as (o&E&_). exact (H o (eq_sym E)). Qed.
Lemma fire_out c s v x : In x (snd (Fire c s v)) ->
  (x = JAM /\ jam_percentage c <> None) \/ (x = EMPTY /\ max_shots c <> -1) \/ x = STUN \/ x = FIRE \/ x = P (LOCKUP_BEGIN 4).
Proof.
  unfold Fire. destruct (jam_percentage c) as [p|].
  - destruct (if is_jammed s then true else CheckJam (rnd v) p); [cbn; intros [<-|[]]; left; split; [auto|discriminate]|].
    destruct (max_shots c =? -1) eqn:M; cbn [negb andb set_jammed shots_fired bmode]; [|destruct (max_shots c <=? _)];
      try (destruct (bmode s)); cbn; intros [<-|[]]; auto; right; left; split; auto; lia.
  - destruct (max_shots c =? -1) eqn:M; cbn [negb andb]; [|destruct (max_shots c <=? _)];
      try (destruct (bmode s)); cbn; intros [<-|[]]; auto; right; left; split; auto; lia.
Qed.
Lemma acts_nofire c s sa os x : acts True false c s sa os -> (forall o, x <> P o) -> In x os ->
  (exists v, In x (snd (Fire c s v))) \/ (exists m, x = MODE m) \/ x = RELOAD \/ x = CLIP_IN \/ x = CLIP_OUT \/ x = UNJAM.
Proof.
  intros A NP H. destruct A; try (exfalso; exact (not_P _ _ NP H)).
  - destruct H.
  - unfold NextBlasterMode, SetBlasterMode in H. destruct (bmode s), (auto_firing s), (auto_enabled c); cbn in H; try (destruct H; fail); try (destruct H as [<-|[]]; eauto).
  - destruct (preset_eq s v) as (y&os&E&_). rewrite E in H. exfalso; exact (not_P _ _ NP H).
  - destruct H as [<-|[]]; auto.
  - eauto.
  - unfold rel in H. destruct (bmode s); cbn in H; try destruct H. destruct (lockup (pw s) =? 0); cbn in H; [destruct H|].
    destruct H as [<-|[]]. exfalso; exact (NP _ eq_refl).
  - destruct H as [<-|[]]; auto.
  - destruct H as [<-|[]]; tauto.
  - destruct H as [<-|[]]; tauto.
Qed.
Lemma never c f v ops x : (forall o, x <> P o) -> x <> RELOAD -> x <> CLIP_IN -> x <> CLIP_OUT -> x <> UNJAM -> (forall m, x <> MODE m) ->
  (forall s w, ~ In x (snd (Fire c s w))) -> ~ In x (concat (run_outs (bstep c) (bstate0 c f v) ops)).
Proof.
  intros NP N1 N2 N3 N4 N5 F. induction ops as [|o ops IH] using rev_ind; [cbn; auto|].
  rewrite ro_snoc, in_app_iff. intros [H|H]; [auto|].
  destruct (bstep_acts True false c (run_state (bstep c) (bstate0 c f v) ops) o) as (sa&m&A&_); [discriminate|auto|].
  destruct (acts_nofire _ _ _ _ _ A NP H) as [(w&K)|[(k&K)|[K|[K|[K|K]]]]]; try (apply F in K); subst; try congruence; eauto.
Qed.
Lemma unlimited c f v ops : max_shots c = -1 -> ~ In EMPTY (concat (run_outs (bstep c) (bstate0 c f v) ops)).
Proof.
  intros M. apply never; try (intros; discriminate). intros s w H. apply fire_out in H.
  destruct H as [[H _]|[[_ H]|[H|[H|H]]]]; try discriminate. auto.
Qed.
Lemma never_jams c f v ops : jam_percentage c = None -> ~ In JAM (concat (run_outs (bstep c) (bstate0 c f v) ops)).
Proof.
  intros M. apply never; try (intros; discriminate). intros s w H. apply fire_out in H.
  destruct H as [[_ H]|[[H _]|[H|[H|H]]]]; try discriminate. auto.
Qed.

(** jams, modes, autofire *)
Definition binv (c : cfg) (s : bstate) : Prop :=
  (lockup (pw s) = 4 -> auto_firing s = true) /\ (auto_firing s = true -> bmode s = MODE_AUTO) /\ (jam_percentage c = None -> is_jammed s = false).

(** What an action does, as told by each of the three *)
Definition good (c : cfg) (s sa : bstate) (os : list bout) : Prop :=
  fold_left jam_tell os (Some (is_jammed s)) = Some (is_jammed sa) /\
  fold_left (mode_tell (auto_enabled c)) os (Some (bmode s)) = Some (bmode sa) /\
  fold_left firing_tell os (Some (lockup (pw s) =? 4)) = Some (lockup (pw sa) =? 4) /\ binv c sa.

Lemma nolock_jam os l : nolock os -> fold_left jam_tell (map P os) (Some l) = Some l.
Proof. intros N. apply fold_map_P. eapply Forall_impl; [|exact N]. intros [] H; try discriminate; reflexivity. Qed.
Lemma nolock_mode a os l : nolock os -> fold_left (mode_tell a) (map P os) (Some l) = Some l.
Proof. intros N. apply fold_map_P. eapply Forall_impl; [|exact N]. intros [] H; try discriminate; reflexivity. Qed.
Lemma nolock_firing os l : nolock os -> fold_left firing_tell (map P os) (Some l) = Some l.
Proof. intros N. apply fold_map_P. eapply Forall_impl; [|exact N]. intros [] H; try discriminate; reflexivity. Qed.
Lemma good_pw c s x os : lrel (pw s) x os -> binv c s -> good c s (set_pw s x) (map P os).
Proof.
  intros [[N L]|(k&r&->&N&L)] (I1&I2&I3); unfold good, binv; cbn [map fold_left jam_tell mode_tell firing_tell pw set_pw is_jammed bmode auto_firing].
  - rewrite nolock_jam, nolock_mode, nolock_firing, L by auto. tauto.
  - rewrite nolock_jam, nolock_mode, nolock_firing, L by auto. split; auto. split; auto. split; auto. split; [intros; discriminate|auto].
Qed.
Lemma good_lock c s k fr : k <> 4 -> binv c s -> good c s (fst (with_pw s (step (pw s) (LockCmd k fr)))) (snd (with_pw s (step (pw s) (LockCmd k fr)))).
Proof.
  intros K (I1&I2&I3). cbn [step]. unfold good, binv.
  destruct (lockup (pw s) =? 0) eqn:Z0; cbn.
  - split; [destruct k as [|[[]|[[]|[]|]|]|]; try reflexivity; congruence|].
    split; [destruct k as [|[[]|[[]|[]|]|]|]; try reflexivity; congruence|].
    split; [reflexivity|]. tauto.
  - split; [reflexivity|]. split; [reflexivity|]. split; [reflexivity|]. split; [intros; discriminate|auto].
Qed.
Lemma good_acts c s sa os : binv c s -> acts True true c s sa os -> good c s sa os.
Proof.
  intros IV A. pose proof IV as (I1&I2&I3). destruct A.
  - unfold good, binv. cbn. tauto.
  - unfold NextBlasterMode, SetBlasterMode. destruct (auto_firing s) eqn:AF.
    + destruct (bmode s) eqn:M, (auto_enabled c); cbn; unfold good, binv; cbn; rewrite ?M, ?AF; tauto.
    + assert (lockup (pw s) <> 4) as L4 by (intros E; apply I1 in E; congruence).
      unfold good, binv.
      destruct (bmode s) eqn:M; destruct (auto_enabled c); cbn; replace (lockup (pw s) =? 4) with false by lia; cbn; repeat split; auto; try congruence; try (intros; congruence).
  - destruct (preset_eq s v) as (x&os&E&L). rewrite E. cbn [fst snd]. apply good_pw; auto.
  - unfold good, binv. cbn. tauto.
  - unfold Fire.
    destruct (match jam_percentage c with Some p => if is_jammed s then true else CheckJam (rnd v) p | None => false end) eqn:J.
    + unfold good, binv. destruct (jam_percentage c); [|discriminate]. cbn. repeat split; auto. discriminate.
    + assert (is_jammed s = false) as JF.
      { destruct (jam_percentage c); [destruct (is_jammed s); [discriminate|auto]|auto]. }
      destruct (jam_percentage c) as [p|] eqn:JP.
      * cbn [set_jammed shots_fired bmode pw]. unfold good, binv.
        destruct (_ && _); [cbn; rewrite JF; cbn; tauto|].
        destruct (bmode s) eqn:M; cbn; rewrite ?JF, ?M; cbn; tauto.
      * unfold good, binv.
        destruct (_ && _); [cbn; rewrite JF; cbn; tauto|].
        destruct (bmode s) eqn:M; cbn; rewrite ?JF, ?M; cbn; tauto.
  - unfold rel. destruct (bmode s) eqn:M; cbn; try (unfold good, binv; cbn; rewrite M in *; cbn; tauto).
    destruct (lockup (pw s) =? 0) eqn:L0; cbn; unfold good, binv; cbn; rewrite M in *; cbn; [tauto|].
    repeat split; auto; discriminate.
  - unfold good, binv, ClipIn. destruct (max_shots c =? -1); cbn; tauto.
  - unfold good, binv, ClipOut. destruct (max_shots c =? -1); cbn; tauto.
  - unfold with_pw. cbn [fst snd]. apply good_pw; auto. left. apply lock_do_on.
  - unfold with_pw. cbn [fst snd]. apply good_pw; auto. apply lrel_do_off.
  - unfold good, binv. cbn. rewrite H. tauto.
  - unfold with_pw. cbn [fst snd]. apply good_pw; auto. apply lrel_step; auto.
  - apply good_lock; auto.
Qed.
Lemma binv_mods c s m : binv c (set_mods s m) = binv c s.
Proof. reflexivity. Qed.
Lemma told_all c f v ops : Forall no_auto_cmd ops ->
  let s := run_state (bstep c) (bstate0 c f v) ops in let os := concat (run_outs (bstep c) (bstate0 c f v) ops) in
  told jam_tell false os = Some (is_jammed s) /\ told (mode_tell (auto_enabled c)) (default_mode c) os = Some (bmode s) /\
  told firing_tell false os = Some (lockup (pw s) =? 4) /\ binv c s.
Proof.
  induction ops as [|o ops IH] using rev_ind; intros F; cbn zeta.
  - cbn. unfold binv. cbn. repeat split; auto; discriminate.
  - apply Forall_app in F. destruct F as [F Fo]. inversion Fo as [|? ? No _]; subst. specialize (IH F). cbn zeta in IH.
    destruct IH as (J&M&K&IV). rewrite !told_snoc, rs_snoc, J, M, K.
    destruct (bstep_acts True true c (run_state (bstep c) (bstate0 c f v) ops) o) as (sa&m&A&Q); [auto|auto|]. rewrite Q.
    exact (good_acts _ _ _ _ IV A).
Qed.

(** ** Single operations *)
Lemma ldiff_lor a b c : Z.ldiff (Z.lor a b) c = Z.lor (Z.ldiff a c) (Z.ldiff b c).
Proof. apply Z.bits_inj'. intros i H. rewrite Z.ldiff_spec, !Z.lor_spec, !Z.ldiff_spec. destruct (Z.testbit a i), (Z.testbit b i), (Z.testbit c i); reflexivity. Qed.
Lemma alone_on m b : Z.ldiff m b = 0 -> Z.ldiff (Z.lor m MODE_ON) b = Z.ldiff 1024 b.
Proof. intros H. rewrite ldiff_lor, H. reflexivity. Qed.
Lemma alone_off m b : Z.ldiff m b = 0 -> Z.ldiff (Z.lor m MODE_OFF) b = 0.
Proof. intros H. rewrite ldiff_lor, H. reflexivity. Qed.

Ltac four n H := assert (n = 1 \/ n = 2 \/ n = 3 \/ n = 4) as [-> | [-> | [-> | ->]]] by lia; clear H.
(** With the trigger, only two cases can be meant. *)
Lemma event2_trigger c s e m v : blaster_event2 c s 8 e m v =
  if e =? 1 then (if Z.ldiff m 8 =? 1024 then Some (Fire c s v) else None)
  else if e =? 2 then (if Z.ldiff m 8 =? 1024 then Some (rel s v) else None) else None.
Proof.
  unfold blaster_event2, at_, BUTTON_MODE_SELECT, BUTTON_FIRE, BUTTON_RELOAD, BUTTON_POWER, BUTTON_CLIP_DETECT, EVENT_PRESSED, EVENT_RELEASED, MODE_ON.
  change (Z.ldiff 1024 8) with 1024. cbn [Z.eqb Pos.eqb andb].
  destruct (e =? 1) eqn:E1, (e =? 2) eqn:E2, (Z.ldiff m 8 =? 1024); cbn [andb]; try reflexivity.
  all: exfalso; lia.
Qed.
Lemma send_press c s n v : 1 <= n <= 4 -> IsOn (pw s) = true -> Z.ldiff (mods s) 8 = 0 ->
  snd (bstep c s (Send 8 1 n v)) = snd (Fire c s v).
Proof.
  intros N O M. cbn [bstep].
  assert (E : blaster_event c s 8 (1 + 8 * n) v = (s, [], false)).
  { unfold blaster_event. rewrite !event2_trigger. replace (1 + 8 * n =? 1) with false by lia. replace (1 + 8 * n =? 2) with false by lia. reflexivity. }
  rewrite E. unfold blaster_event. rewrite O, event2_trigger, alone_on by exact M. cbn [Z.eqb Pos.eqb].
  change (Z.ldiff 1024 8 =? 1024) with true. cbv iota. destruct (Fire c s v). reflexivity.
Qed.
Lemma send_release c s n v : 1 <= n <= 4 -> bstep c s (Send 8 2 n v) =
  if Z.ldiff (Z.lor (mods s) (if IsOn (pw s) then 1024 else 0)) 8 =? 1024 then (set_mods (fst (rel s v)) 0, snd (rel s v)) else (s, []).
Proof.
  intros N. cbn [bstep].
  assert (E : blaster_event c s 8 (2 + 8 * n) v = (s, [], false)).
  { unfold blaster_event. rewrite !event2_trigger. replace (2 + 8 * n =? 1) with false by lia. replace (2 + 8 * n =? 2) with false by lia. reflexivity. }
  rewrite E. unfold blaster_event, MODE_ON, MODE_OFF. rewrite !event2_trigger. cbn [Z.eqb Pos.eqb].
  destruct (Z.ldiff (Z.lor (mods s) _) 8 =? 1024) eqn:E1; [destruct (rel s v); reflexivity|].
  destruct (Z.ldiff (Z.lor MODE_ANY_BUTTON _) 8 =? 1024) eqn:E2; [|reflexivity].
  exfalso. destruct (IsOn (pw s)); vm_compute in E2; discriminate.
Qed.

Lemma trigger c f v ops n w : Forall no_auto_cmd ops -> max_shots c = -1 \/ 0 <= max_shots c ->
  let s := run_state (bstep c) (bstate0 c f v) ops in let os := concat (run_outs (bstep c) (bstate0 c f v) ops) in
  IsOn (pw s) = true -> Z.ldiff (mods s) 8 = 0 -> 1 <= n <= 4 ->
  exists rounds jammed m,
    told jam_tell false os = Some jammed /\ told (mode_tell (auto_enabled c)) (default_mode c) os = Some m /\
    (0 <= max_shots c -> told (ammo_tell (max_shots c)) (max_shots c) os = Some rounds) /\
    snd (bstep c s (Send 8 1 n w)) = shot (0 <=? max_shots c) (jam_percentage c) (rnd w) rounds jammed m.
Proof.
  intros F N s os O A K. destruct (told_all c f v ops F) as (J&M&_&IV). fold s in J, M, IV. fold os in J, M.
  exists (GetBulletCount c s), (is_jammed s), (bmode s). split; auto. split; auto. split.
  { intros N0. exact (proj1 (ammo c f v ops N0)). }
  rewrite send_press by auto. unfold Fire, shot, CheckJam, GetBulletCount.
  assert (R : 0 <= max_shots c -> shots_fired s <= max_shots c).
  { intros N0. destruct (ammo c f v ops N0) as [_ R]. cbn zeta in R. fold s in R. unfold GetBulletCount in R. lia. }
  clearbody s os. clear - N R IV. destruct IV as (_&_&I3).
  destruct (jam_percentage c) as [p|].
  - destruct (is_jammed s) eqn:JJ; cbn [orb]; [reflexivity|]. destruct (rnd w mod 100 <? p); [reflexivity|].
    cbn [set_jammed shots_fired bmode pw].
    replace (negb (max_shots c =? -1) && (max_shots c <=? shots_fired s)) with ((0 <=? max_shots c) && (max_shots c - shots_fired s =? 0)) by lia.
    destruct (_ && _); [reflexivity|]. destruct (bmode s); reflexivity.
  - replace (negb (max_shots c =? -1) && (max_shots c <=? shots_fired s)) with ((0 <=? max_shots c) && (max_shots c - shots_fired s =? 0)) by lia.
    destruct (_ && _); [reflexivity|]. destruct (bmode s); reflexivity.
Qed.

Lemma bang c f v ops : Forall no_auto_cmd ops ->
  let s := run_state (bstep c) (bstate0 c f v) ops in let os := concat (run_outs (bstep c) (bstate0 c f v) ops) in
  exists jammed, told jam_tell false os = Some jammed /\ snd (bstep c s Bang) = if jammed then [UNJAM] else [].
Proof.
  intros F s os. destruct (told_all c f v ops F) as (J&_). exists (is_jammed s). split; auto. cbn. destruct (is_jammed s); reflexivity.
Qed.

(** autofire *)
Lemma release_ends c f v ops n w : Forall no_auto_cmd ops ->
  let s := run_state (bstep c) (bstate0 c f v) ops in let os := concat (run_outs (bstep c) (bstate0 c f v) ops) in
  told firing_tell false os = Some true -> IsOn (pw s) = true -> Z.ldiff (mods s) 8 = 0 -> 1 <= n <= 4 ->
  snd (bstep c s (Send 8 2 n w)) = [P (LOCKUP_END 4)].
Proof.
  intros F s os T O A N. destruct (told_all c f v ops F) as (_&_&K&IV). cbn zeta in K. fold s in K, IV. fold os in K. rewrite T in K. injection K as K.
  rewrite send_release, O by auto. change 1024 with MODE_ON at 1. rewrite alone_on by exact A. change (Z.ldiff 1024 8 =? 1024) with true. cbv iota. cbn [snd].
  destruct IV as (I1&I2&_). assert (lockup (pw s) = 4) as L4 by lia. unfold rel. rewrite (I2 (I1 L4)). rewrite L4. cbn. rewrite L4. reflexivity.
Qed.

Lemma begins_P os : begins (map P os) = existsb (fun o => match o with LOCKUP_BEGIN 4 => true | _ => false end) os.
Proof. unfold begins. induction os; cbn; congruence. Qed.
Lemma begins_nolock os : nolock os -> begins (map P os) = false.
Proof. rewrite begins_P. induction 1 as [|o os H _ IH]; cbn; auto. rewrite IH. destruct o; try reflexivity; discriminate. Qed.
Lemma begins_lrel s x os : lrel s x os -> begins (map P os) = false.
Proof. intros [[N _]|(k&r&->&N&_)]; [apply begins_nolock; auto|]. exact (begins_nolock _ N). Qed.
Lemma auto_acts c s sa os : acts False true c s sa os -> auto_firing sa = if begins os then true else auto_firing s.
Proof.
  intros A. destruct A.
  - reflexivity.
  - unfold NextBlasterMode, SetBlasterMode. destruct (bmode s), (auto_firing s) eqn:AF, (auto_enabled c); cbn; congruence.
  - destruct (preset_eq s v) as (x&os&E&L). rewrite E. cbn [fst snd]. rewrite (begins_lrel _ _ _ L). reflexivity.
  - reflexivity.
  - unfold Fire.
    destruct (match jam_percentage c with Some p => if is_jammed s then true else CheckJam (rnd v) p | None => false end);
      destruct (jam_percentage c); cbn [set_jammed shots_fired bmode pw]; try reflexivity;
      (destruct (_ && _); [reflexivity|]; destruct (bmode s); reflexivity).
  - contradiction.
  - unfold ClipIn. destruct (max_shots c =? -1); reflexivity.
  - unfold ClipOut. destruct (max_shots c =? -1); reflexivity.
  - rewrite snd_with, begins_nolock by apply lock_do_on. reflexivity.
  - rewrite snd_with, (begins_lrel _ _ _ (lrel_do_off _ _ _ _)). reflexivity.
  - reflexivity.
  - rewrite snd_with, (begins_lrel _ _ _ (lrel_step _ _ H H0)). reflexivity.
  - specialize (H eq_refl). rewrite snd_with, begins_P. cbn [step]. destruct (lockup (pw s) =? 0); cbn.
    + destruct k as [|[[]|[[]|[]|]|]|]; try reflexivity; congruence.
    + reflexivity.
Qed.
Lemma auto_step c s o : proper o -> no_auto_cmd o -> binv c s ->
  auto_firing (fst (bstep c s o)) = (if begins (snd (bstep c s o)) then true else if trigger_release o && ends (snd (bstep c s o)) then false else auto_firing s).
Proof.
  intros Pr NA (I1&I2&_). destruct (trigger_release o) eqn:T.
  - destruct o as [b e n v| | | | | | | ]; try discriminate. cbn in T.
    assert (b = 8 /\ e = 2) as [-> ->] by (destruct b as [|[| |]|]; try discriminate; repeat (match goal with x : positive |- _ => destruct x; try discriminate end); destruct e as [|[| |]|]; try discriminate; repeat (match goal with x : positive |- _ => destruct x; try discriminate end); auto).
    rewrite send_release by apply Pr. destruct (_ =? 1024); [|reflexivity]. cbn [fst snd]. unfold rel.
    destruct (bmode s); try reflexivity. destruct (lockup (pw s) =? 0); reflexivity.
  - destruct (bstep_acts False true c s o) as (sa&m&A&Q); [auto|auto|]. rewrite Q. exact (auto_acts _ _ _ _ A).
Qed.
Lemma held_snoc c ops o s h : held c s (ops ++ [o]) h =
  (let os := snd (bstep c (run_state (bstep c) s ops) o) in if begins os then true else if trigger_release o && ends os then false else held c s ops h).
Proof.
  revert s h. induction ops as [|x ops IH]; intros s h.
  - cbn. destruct (bstep c s o). reflexivity.
  - cbn [app held run_state]. destruct (bstep c s x) as [s' os] eqn:E. rewrite IH. reflexivity.
Qed.
Lemma held_auto c f v ops : Forall proper ops -> Forall no_auto_cmd ops ->
  held c (bstate0 c f v) ops false = auto_firing (run_state (bstep c) (bstate0 c f v) ops).
Proof.
  induction ops as [|o ops IH] using rev_ind; intros Pr NA; [reflexivity|].
  apply Forall_app in Pr, NA. destruct Pr as [Pr Po], NA as [NA No]. inversion Po; inversion No; subst.
  rewrite held_snoc, rs_snoc, auto_step; auto.
  - cbn zeta. rewrite IH; auto.
  - apply (told_all c f v ops NA).
Qed.
Lemma send_click c s v : IsOn (pw s) = true -> Z.ldiff (mods s) 16 = 0 -> snd (bstep c s (Send 16 7 1 v)) = snd (NextBlasterMode c s).
Proof.
  intros O A. cbn [bstep]. unfold blaster_event. rewrite O. change (7 + 8 * 1) with 15. unfold blaster_event2 at 1, at_. rewrite alone_on by exact A.
  cbn [Z.eqb Pos.eqb BUTTON_MODE_SELECT EVENT_FIRST_SAVED_CLICK_SHORT andb].
  change (Z.ldiff 1024 16 =? Z.ldiff MODE_ON 16) with true. cbv iota. destruct (NextBlasterMode c s). reflexivity.
Qed.
Lemma click c f v ops w : Forall proper ops -> Forall no_auto_cmd ops ->
  let s := run_state (bstep c) (bstate0 c f v) ops in let os := concat (run_outs (bstep c) (bstate0 c f v) ops) in
  IsOn (pw s) = true -> Z.ldiff (mods s) 16 = 0 ->
  exists m, told (mode_tell (auto_enabled c)) (default_mode c) os = Some m /\
    snd (bstep c s (Send 16 7 1 w)) = if held c (bstate0 c f v) ops false then [] else [MODE (next_mode (auto_enabled c) m)].
Proof.
  intros Pr NA s os O A. destruct (told_all c f v ops NA) as (_&M&_). exists (bmode s). split; auto.
  rewrite send_click, held_auto by auto. fold s. unfold NextBlasterMode, SetBlasterMode.
  destruct (bmode s), (auto_firing s), (auto_enabled c); reflexivity.
Qed.
(** Switching off ends autofire. *)
Lemma power_off_ends c s n v : IsOn (pw s) = true -> pending (pw s) = false -> Z.ldiff (mods s) 1 = 0 -> 1 <= n <= 4 ->
  lockup (pw (fst (bstep c s (Send 1 1 n v)))) = 0.
Proof.
  intros O Pd A N. cbn [bstep].
  assert (E2 : forall m, blaster_event2 c s 1 (1 + 8 * n) m v = None).
  { intros m. unfold blaster_event2, at_, BUTTON_MODE_SELECT, BUTTON_FIRE, BUTTON_RELOAD, BUTTON_POWER, BUTTON_CLIP_DETECT, EVENT_PRESSED. cbn [Z.eqb Pos.eqb andb].
    replace (1 + 8 * n =? 1) with false by lia. reflexivity. }
  unfold blaster_event at 1. rewrite !E2. unfold blaster_event. rewrite O.
  unfold blaster_event2 at 1, at_, BUTTON_MODE_SELECT, BUTTON_FIRE, BUTTON_RELOAD, BUTTON_POWER, BUTTON_CLIP_DETECT, EVENT_PRESSED. rewrite alone_on by exact A.
  cbn [Z.eqb Pos.eqb andb]. change (Z.ldiff 1024 1 =? Z.ldiff MODE_OFF 1) with false. change (Z.ldiff 1024 1 =? Z.ldiff MODE_ON 1) with true. cbv iota.
  unfold with_pw. cbn [fst snd set_mods pw set_pw].
  assert (none (on (pw s)) = false) as L by (unfold IsOn in O; rewrite Pd in O; destruct (none (on (pw s))); [discriminate|auto]).
  pose proof (lrel_do_off (pw s) OFF_NORMAL all (free v)) as R. unfold do_off in *. rewrite Pd, L in *.
  destruct (lockup (pw s) =? 0) eqn:L0.
  - destruct R as [[_ R]|(k&r&_&_&R)]; [rewrite R; lia|exact R].
  - destruct R as [[R _]|(k&r&_&_&R)]; [|exact R].
    exfalso. cbn [end_lockup] in R. unfold end_lockup in R. destruct (TurnOff _ _ _ _) as [y o]. cbn [snd] in R. inversion R as [|? ? H _]. discriminate.
Qed.

(** ** The detonator *)
Definition calm1 (o : out) : bool := match o with BLAST _ => false | LOCKUP_BEGIN k => negb (k =? 3) | _ => true end.
Definition calm (os : list out) : Prop := Forall (fun o => calm1 o = true) os.
Lemma calm_app a b : calm a -> calm b -> calm (a ++ b).
Proof. intros; apply Forall_app; auto. Qed.
Lemma calm_SB_Off s ty loc fr : calm (snd (SB_Off s ty loc fr)).
Proof. apply Forall_forall. intros o H. apply SB_Off_out in H. subst; reflexivity. Qed.
Lemma calm_TurnOn s loc fr : calm (snd (TurnOn s loc fr)).
Proof. unfold TurnOn. destruct (none _); cbn; repeat constructor. Qed.
Lemma calm_do_on s loc r fr : calm (snd (do_on s loc r fr)).
Proof. unfold do_on. destruct (CommonIgnition _ _ _); cbn; repeat constructor. Qed.
Lemma calm_fast s loc r fr : calm (snd (do_fast_on s loc r fr)).
Proof.
  unfold do_fast_on. destruct (CommonIgnition _ _ _); cbn; [|constructor]. pose proof (calm_TurnOn s loc fr) as N.
  destruct (TurnOn _ _ _) as [x o]. cbn in *. apply calm_app; auto. repeat constructor.
Qed.
Lemma calm_do_off s ty loc fr : ty = OFF_NORMAL \/ ty = OFF_FAST -> calm (snd (do_off s ty loc fr)).
Proof.
  intros T. unfold do_off. destruct (pending s).
  - pose proof (calm_SB_Off (set_on (set_pending s false) 0) OFF_CANCEL_PREON all fr) as N. destruct (SB_Off _ _ _ _). exact N.
  - destruct (none (on s)); [constructor|].
    assert (E : forall x, calm (snd (TurnOff x ty loc fr))).
    { intros x. unfold TurnOff. destruct (none _); [constructor|].
      pose proof (calm_SB_Off (set_on x (without (on x) (Z.land loc (on x)))) ty (Z.land loc (on x)) fr) as N.
      destruct (SB_Off _ _ _ _) as [y o]. cbn [snd] in *. apply calm_app; auto. destruct T; subst; repeat constructor. }
    destruct (lockup s =? 0).
    + specialize (E s). destruct (TurnOff _ _ _ _) as [y o]. exact E.
    + unfold end_lockup.
      match goal with |- context[TurnOff ?x ty loc fr] => specialize (E x); destruct (TurnOff x ty loc fr) as [y o] end.
      cbn [snd] in *. constructor; auto.
Qed.
Lemma calm_preset s f r slow fr : calm (snd (do_preset s f r slow fr)).
Proof.
  unfold do_preset.
  assert (H : calm (snd (if IsOn s then do_off s OFF_NORMAL all fr else (s, [])))).
  { destruct (IsOn s); [apply calm_do_off; auto|constructor]. }
  destruct (if IsOn s then do_off s OFF_NORMAL all fr else (s, [])) as [s1 o1]. cbn [snd] in H.
  destruct (none _).
  - cbn. apply calm_app; [exact H|constructor].
  - destruct slow.
    + match goal with |- context[do_on ?x ?y r fr] => pose proof (calm_do_on x y r fr) as N; destruct (do_on x y r fr) as [s3 o3] end. cbn in *. apply calm_app; auto.
    + match goal with |- context[do_fast_on ?x ?y r fr] => pose proof (calm_fast x y r fr) as N; destruct (do_fast_on x y r fr) as [s3 o3] end. cbn in *. apply calm_app; auto.
Qed.
Lemma calm_step s o : ~ foreign o -> dplain (DBase o) -> calm (snd (step s o)).
Proof.
  intros F D. destruct o; try (exfalso; exact (F I)).
  - apply calm_do_on.
  - apply calm_fast.
  - apply calm_do_off. exact D.
  - cbn [step]. destruct (fst_ s), preon_playing; try apply calm_TurnOn; (destruct (_ && _); repeat constructor).
  - cbn [step]. destruct (mono _); [constructor|]. cbv zeta. match goal with |- context[if negb ?x then _ else _] => destruct x end; cbn [negb]; [|constructor].
    match goal with |- context[match ?x with STATE_OFF => _ | _ => _ end] => destruct x end; constructor.
  - constructor.
  - apply calm_preset.
  - cbn [step]. cbn in D. destruct (lockup s =? 0); cbn; constructor; try constructor. cbn. lia.
  - constructor.
  - constructor.
  - cbn [step]. destruct (SetMute s true). constructor.
  - constructor.
  - constructor.
  - constructor.
Qed.

(** What an operation does to the detonator, apart from the modifiers *)
Inductive dacts (s : dstate) (o : dop) : dstate -> list out -> Prop :=
| D_press n t v : o = DSend 4 1 n t v -> dacts s o (fst (beginArm s t v)) (snd (beginArm s t v))
| D_rel n t v : o = DSend 4 2 n t v -> dacts s o (fst (det_blast s t v)) (snd (det_blast s t v))
| D_restart t v x os : o = DLatch 1 true t v -> IsOn (dpw s) = false -> Z.ldiff (dmods s) 1 = 0 -> calm os -> dacts s o (set_dpw (set_armed s false) x) os
| D_poll t fr : o = DPoll t fr -> dacts s o (fst (PollNextAction s t fr)) (snd (PollNextAction s t fr))
| D_other x os : calm os -> (forall n t v, o = DSend 4 2 n t v -> os = []) -> (forall t fr, o <> DPoll t fr) ->
    (forall t v, o = DLatch 1 true t v -> Z.ldiff (dmods s) 1 = 0 -> IsOn (dpw s) = true) -> dacts s o (set_dpw s x) os.

Lemma any_none s b e now v h : h = 1024 \/ h = 0 -> det_event2 s b e (Z.lor MODE_ANY_BUTTON h) now v = (s, [], false).
Proof.
  intros H. unfold det_event2, at_.
  repeat (match goal with |- context[(b =? ?c) && (e =? ?x) && (?m =? ?y)] =>
    replace ((b =? c) && (e =? x) && (m =? y)) with false by
      (symmetry; destruct (b =? c) eqn:B; [apply Z.eqb_eq in B; subst b; destruct H as [-> | ->]; cbn [andb]; apply andb_false_intro2; reflexivity|reflexivity]) end).
  reflexivity.
Qed.
Lemma det_event_eq s b e now v : det_event s b e now v =
  let '(s1, o1, h1) := det_event2 s b e (Z.lor (dmods s) (if IsOn (dpw s) then MODE_ON else MODE_OFF)) now v in
  if h1 then (set_dmods s1 0, o1, true) else (s1, o1, false).
Proof.
  unfold det_event. destruct (det_event2 s b e _ now v) as [[s1 o1] h1]. destruct h1; [reflexivity|].
  rewrite any_none by (destruct (IsOn (dpw s1)); auto). rewrite app_nil_r. reflexivity.
Qed.
(** The cases of the switch *)
Lemma det_cases s b e m now v :
  (b = 1 /\ e = 41 /\ Z.ldiff m 1 = 0 /\ det_event2 s b e m now v = (with_dpw (set_armed s false) (do_on (dpw s) all (refuse v) (free v)), true)) \/
  (b = 1 /\ e = 42 /\ det_event2 s b e m now v = (with_dpw s (do_off (dpw s) OFF_NORMAL all (free v)), true)) \/
  (b = 4 /\ e = 17 /\ det_event2 s b e m now v = (with_dpw s (do_preset (dpw s) (efont v) (refuse v) false (free v)), true)) \/
  (b = 4 /\ e = 17 /\ det_event2 s b e m now v = (s, [], true)) \/
  (b = 4 /\ e = 1 /\ Z.ldiff m 4 = 1024 /\ det_event2 s b e m now v = (beginArm s now v, false)) \/
  (b = 4 /\ e = 2 /\ Z.ldiff m 4 = 1024 /\ det_event2 s b e m now v = (let '(s, o) := det_blast s now v in (s, o, armed s))) \/
  (det_event2 s b e m now v = (s, [], false) /\ (b = 4 -> e = 1 \/ e = 2 -> Z.ldiff m 4 <> 1024) /\ (b = 1 -> e = 41 -> Z.ldiff m 1 <> 0)).
Proof.
  unfold det_event2.
  destruct (at_ b e m BUTTON_POWER EVENT_LATCH_ON MODE_OFF) eqn:E1.
  { left. unfold at_, BUTTON_POWER, EVENT_LATCH_ON in E1. change (Z.ldiff MODE_OFF 1) with 0 in E1.
    assert (b = 1 /\ e = 41) as [-> ->] by lia. repeat split; auto. lia. }
  destruct (at_ b e m BUTTON_POWER EVENT_LATCH_OFF MODE_ON || at_ b e m BUTTON_POWER EVENT_LATCH_OFF MODE_OFF) eqn:E2.
  { right; left. unfold at_, BUTTON_POWER, EVENT_LATCH_OFF in E2. repeat split; lia. }
  destruct (at_ b e m BUTTON_AUX2 EVENT_DOUBLE_CLICK MODE_OFF) eqn:E3.
  { right; right; left. unfold at_, BUTTON_AUX2, EVENT_DOUBLE_CLICK in E3. repeat split; lia. }
  destruct (at_ b e m BUTTON_AUX2 EVENT_DOUBLE_CLICK MODE_ON) eqn:E4.
  { right; right; right; left. unfold at_, BUTTON_AUX2, EVENT_DOUBLE_CLICK in E4. repeat split; lia. }
  destruct (at_ b e m BUTTON_AUX2 EVENT_PRESSED MODE_ON) eqn:E5.
  { right; right; right; right; left. unfold at_, BUTTON_AUX2, EVENT_PRESSED in E5. change (Z.ldiff MODE_ON 4) with 1024 in E5.
    assert (b = 4 /\ e = 1) as [-> ->] by lia. repeat split; auto. lia. }
  destruct (at_ b e m BUTTON_AUX2 EVENT_RELEASED MODE_ON) eqn:E6.
  { right; right; right; right; right; left. unfold at_, BUTTON_AUX2, EVENT_RELEASED in E6. change (Z.ldiff MODE_ON 4) with 1024 in E6.
    assert (b = 4 /\ e = 2) as [-> ->] by lia. repeat split; auto. lia. }
  do 6 right. split; [reflexivity|]. split; [|intros -> -> M; unfold at_, BUTTON_POWER, EVENT_LATCH_ON in E1; change (Z.ldiff MODE_OFF 1) with 0 in E1; lia]. intros -> He M. unfold at_, BUTTON_AUX2, EVENT_PRESSED, EVENT_RELEASED in E5, E6. change (Z.ldiff MODE_ON 4) with 1024 in E5, E6. lia.
Qed.
Lemma dpw_same s : set_dpw s (dpw s) = s.
Proof. destruct s; reflexivity. Qed.
Lemma dmods_same s : set_dmods s (dmods s) = s.
Proof. destruct s; reflexivity. Qed.
Lemma dstep_acts s o : dplain o -> exists sa m, dacts s o sa (snd (dstep s o)) /\ fst (dstep s o) = set_dmods sa m.
Proof.
  intros Pl.
  assert (ANY : forall x os, dacts s o x os -> exists sa m, dacts s o sa os /\ x = set_dmods sa m).
  { intros x os A. exists x, (dmods x). rewrite dmods_same. auto. }
  assert (WITH : forall x os m, dacts s o x os -> exists sa k, dacts s o sa os /\ set_dmods x m = set_dmods sa k).
  { intros x os m A. eauto. }
  assert (SAME : (forall t fr, o <> DPoll t fr) -> (forall t v, o = DLatch 1 true t v -> Z.ldiff (dmods s) 1 = 0 -> IsOn (dpw s) = true) -> dacts s o s []).
  { intros H H3. rewrite <- (dpw_same s) at 2. apply D_other; auto. constructor. }
  assert (OTH : forall r, (forall n t v, o <> DSend 4 2 n t v) -> (forall t fr, o <> DPoll t fr) -> (forall t v, o <> DLatch 1 true t v) -> calm (snd r) -> dacts s o (fst (with_dpw s r)) (snd (with_dpw s r))).
  { intros r H1 H2 H3 C. apply D_other; auto. intros. exfalso; eapply H1; eauto. intros t v K. exfalso; exact (H3 _ _ K). }
  destruct o.
  - cbn [dstep]. destruct Pl as [Pe Pn]. rewrite det_event_eq.
    set (m := Z.lor (dmods s) _). destruct (det_cases s b (e + 8 * n) m now v) as [(B&E&_)|[(B&E&_)|[(B&E&R)|[(B&E&R)|[(B&E&_)|[(B&E&_)|(R&_)]]]]]]; try (exfalso; lia).
    + rewrite R. cbv beta iota. destruct (with_dpw s _) as [x os] eqn:W. cbn [fst snd]. apply WITH.
      replace x with (fst (with_dpw s (do_preset (dpw s) (efont v) (refuse v) false (free v)))) by (rewrite W; reflexivity).
      replace os with (snd (with_dpw s (do_preset (dpw s) (efont v) (refuse v) false (free v)))) by (rewrite W; reflexivity).
      apply OTH; [intros; intro K; injection K; intros; lia|intros; discriminate|intros; discriminate|apply calm_preset].
    + rewrite R. cbv beta iota. cbn [fst snd]. apply WITH, SAME; intros; discriminate.
    + rewrite R. cbv beta iota. rewrite det_event_eq. fold m. clear R.
      destruct (det_cases s b e m now v) as [(B&E&_)|[(B&E&_)|[(B&E&R)|[(B&E&R)|[(B&E&_&R)|[(B&E&_&R)|(R&_)]]]]]]; try (exfalso; lia).
      * rewrite R. cbv beta iota. destruct (beginArm s now v) as [x os] eqn:W. cbn [fst snd app]. apply ANY.
        replace x with (fst (beginArm s now v)) by (rewrite W; reflexivity). replace os with (snd (beginArm s now v)) by (rewrite W; reflexivity).
        subst. eapply D_press; eauto.
      * rewrite R. destruct (det_blast s now v) as [x os] eqn:W. cbv beta iota. 
        assert (K : dacts s (DSend b e n now v) x os).
        { replace x with (fst (det_blast s now v)) by (rewrite W; reflexivity). replace os with (snd (det_blast s now v)) by (rewrite W; reflexivity). subst. eapply D_rel; eauto. }
        destruct (armed x); cbn [fst snd app]; [apply WITH|apply ANY]; exact K.
      * rewrite R. cbn [fst snd app]. apply ANY, SAME; intros; discriminate.
  - cbn. apply WITH, SAME; intros; discriminate.
  - cbn. apply WITH, SAME; intros; discriminate.
  - cbn [dstep]. rewrite det_event_eq.
    set (m := Z.lor (dmods s) _). destruct (det_cases s b (if up then EVENT_LATCH_ON else EVENT_LATCH_OFF) m now v) as [(B&E&L&R)|[(B&E&R)|[(B&E&R)|[(B&E&R)|[(B&E&_)|[(B&E&_)|(R&_&R2)]]]]]];
      try (exfalso; destruct up; unfold EVENT_LATCH_ON, EVENT_LATCH_OFF in *; lia); rewrite R; cbv beta iota.
    + unfold with_dpw. cbn [fst snd]. apply WITH. 
      assert (up = true) as -> by (destruct up; auto; discriminate). subst b.
      unfold m in L. rewrite ldiff_lor in L. apply Z.lor_eq_0_iff in L. destruct L as [L1 L2].
      eapply D_restart; eauto; [|apply calm_do_on]. destruct (IsOn (dpw s)); [discriminate|auto].
    + destruct (with_dpw s _) as [x os] eqn:W. cbn [fst snd]. apply WITH.
      replace x with (fst (with_dpw s (do_off (dpw s) OFF_NORMAL all (free v)))) by (rewrite W; reflexivity).
      replace os with (snd (with_dpw s (do_off (dpw s) OFF_NORMAL all (free v)))) by (rewrite W; reflexivity).
      apply OTH; [intros; discriminate|intros; discriminate|intros t w K; injection K as _ -> _ _; discriminate E|apply calm_do_off; auto].
    + cbn [fst snd]. apply ANY, SAME; [intros; discriminate|]. intros t w K L. injection K as -> -> _ _.
      destruct (IsOn (dpw s)); auto. exfalso. apply (R2 eq_refl eq_refl). exact (alone_off _ _ L).
  - cbn [dstep]. apply ANY. eapply D_poll; eauto.
  - destruct o; cbn [dstep]; try (apply ANY, SAME; intros; discriminate);
      match goal with |- context[step (dpw s) ?o] => apply ANY, (OTH (step (dpw s) o)); [intros; discriminate|intros; discriminate|intros; discriminate|apply calm_step; [cbn; tauto|exact Pl]] end.
Qed.

Section Det.
  Variable s0 : dstate.
  Let st (ops : list dop) := run_state dstep s0 ops.
  Lemma snoc_split {A} (b : list A) (o : A) x y z : b ++ [o] = x ++ y :: z -> (z = [] /\ x = b /\ y = o) \/ (exists z', z = z' ++ [o] /\ b = x ++ y :: z').
  Proof.
    destruct z as [|u z _] using rev_ind; intros H.
    - apply app_inj_tail in H. destruct H as [-> ->]. auto.
    - right. change (x ++ y :: z ++ [u]) with (x ++ (y :: z) ++ [u]) in H. rewrite app_assoc in H. apply app_inj_tail in H. destruct H as [-> ->]. eauto.
  Qed.
  Lemma untouched_nil a : untouched s0 a [].
  Proof. intros x o y t l H. destruct x; discriminate. Qed.
  Lemma untouched_snoc a b o : untouched s0 a b -> (forall t l, ~ presses s0 (a ++ b) o t l /\ ~ releases s0 (a ++ b) o t l) -> untouched s0 a (b ++ [o]).
  Proof.
    intros U N x y z t l H. apply snoc_split in H. destruct H as [(_&->&->)|(z'&->&->)]; [apply N|].
    exact (U _ _ _ t l eq_refl).
  Qed.
  Lemma not_restarted_nil a : not_restarted s0 a [].
  Proof. intros x o y t v H. destruct x; discriminate. Qed.
  Lemma not_restarted_snoc a b o : not_restarted s0 a b -> (forall t v, o = DLatch 1 true t v -> Z.ldiff (dmods (st (a ++ b))) 1 = 0 -> IsOn (dpw (st (a ++ b))) = true) -> not_restarted s0 a (b ++ [o]).
  Proof.
    intros U N x y z t v H. apply snoc_split in H. destruct H as [(_&->&->)|(z'&->&->)]; [apply N|].
    exact (U _ _ _ t v eq_refl).
  Qed.

  Definition arm_at (ops : list dop) (t l : Z) : Prop :=
    exists a p b, ops = a ++ p :: b /\ presses s0 a p t l /\ untouched s0 (a ++ [p]) b.
  Definition blow_at (ops : list dop) (t l : Z) : Prop :=
    exists a r d, ops = a ++ r :: d /\ was_armed s0 a /\ releases s0 a r t l /\ untouched s0 (a ++ [r]) d.
  Lemma app1 {A} (a : list A) p b : a ++ p :: b = (a ++ [p]) ++ b.
  Proof. rewrite <- app_assoc. reflexivity. Qed.
  Lemma arm_snoc ops o t l : arm_at ops t l -> (forall t l, ~ presses s0 ops o t l /\ ~ releases s0 ops o t l) -> arm_at (ops ++ [o]) t l.
  Proof.
    intros (a&p&b&E&P0&U) N. exists a, p, (b ++ [o]). split; [subst; rewrite <- app_assoc; reflexivity|]. split; auto.
    apply untouched_snoc; auto. rewrite <- app1, <- E. exact N.
  Qed.
  Lemma blow_snoc ops o t l : blow_at ops t l -> (forall t l, ~ presses s0 ops o t l /\ ~ releases s0 ops o t l) -> blow_at (ops ++ [o]) t l.
  Proof.
    intros (a&p&b&E&A&P0&U) N. exists a, p, (b ++ [o]). split; [subst; rewrite <- app_assoc; reflexivity|]. split; auto. split; auto.
    apply untouched_snoc; auto. rewrite <- app1, <- E. exact N.
  Qed.
  Lemma armed_snoc ops o : was_armed s0 ops -> (forall t v, o = DLatch 1 true t v -> Z.ldiff (dmods (st ops)) 1 = 0 -> IsOn (dpw (st ops)) = true) -> was_armed s0 (ops ++ [o]).
  Proof.
    intros (a&p&b&t1&fr&c&t&l&E&P0&U&T&R) N. exists a, p, b, t1, fr, (c ++ [o]), t, l.
    split; [subst; rewrite <- ?app_assoc; cbn; rewrite <- ?app_assoc; reflexivity|]. split; auto. split; auto. split; auto.
    apply not_restarted_snoc; auto.
    replace ((a ++ p :: b ++ [DPoll t1 fr]) ++ c) with ops; [exact N|]. subst. rewrite <- app_assoc. cbn. rewrite <- app_assoc. reflexivity.
  Qed.

  Lemma elapsed t t1 l : t <= t1 -> l < u32 (t1 - u32 t) -> l < t1 - t.
  Proof.
    unfold u32. intros H L. rewrite Zminus_mod_idemp_r in L. pose proof (Z.mod_le (t1 - t) 4294967296 ltac:(lia) ltac:(lia)). lia.
  Qed.
  Lemma presses_at a o t l : presses s0 a o t l -> at_time o = Some t.
  Proof. intros (n&v&->&_). reflexivity. Qed.
  Lemma releases_at a o t l : releases s0 a o t l -> at_time o = Some t.
  Proof. intros (n&v&k&->&_). reflexivity. Qed.
  Lemma timed_last ops o : timed (ops ++ [o]) -> timed ops.
  Proof. intros T a x b y c t u E. apply (T a x b y (c ++ [o])). subst. rewrite <- !app_assoc. cbn. rewrite <- app_assoc. reflexivity. Qed.

  Definition dinv (ops : list dop) (s : dstate) : Prop :=
    (next s = NEXT_ACTION_ARM -> exists t l, arm_at ops t l /\ time_base s = u32 t /\ next_event_time s = l) /\
    (next s = NEXT_ACTION_BLOW -> exists t l, blow_at ops t l /\ time_base s = u32 t /\ next_event_time s = l) /\
    (armed s = true -> was_armed s0 ops).
  Lemma calm_in os : calm os -> ~ In (LOCKUP_BEGIN 3) os /\ (forall l, ~ In (BLAST l) os).
  Proof. intros C. pose proof (proj1 (Forall_forall _ _) C) as D. split; [intros H|intros l H]; apply D in H; discriminate. Qed.

  Lemma arm_elapsed ops o t l t1 fr : timed (ops ++ [o]) -> o = DPoll t1 fr -> arm_at ops t l -> l < u32 (t1 - u32 t) ->
    was_armed s0 (ops ++ [o]).
  Proof.
    intros T -> (a&p&b&E&P0&U) L.
    exists a, p, b, t1, fr, [], t, l. split; [subst; rewrite <- app_assoc; reflexivity|]. split; auto. split; auto. split; [|apply not_restarted_nil].
    apply elapsed; auto. apply (T a p b (DPoll t1 fr) [] t t1); [subst; rewrite <- app_assoc; reflexivity|eapply presses_at; eauto|reflexivity].
  Qed.
  Lemma dinv_step ops o : dplain o -> timed (ops ++ [o]) -> dinv ops (st ops) -> dinv (ops ++ [o]) (st (ops ++ [o])).
  Proof.
    intros Pl T (I1&I2&I3). unfold st. rewrite rs_snoc. fold (st ops).
    destruct (dstep_acts (st ops) o Pl) as (sa&m&A&Q). rewrite Q. unfold dinv. cbn [set_dmods next armed time_base next_event_time].
    assert (NR : forall t l, releases s0 ops o t l -> exists n v k, o = DSend 4 2 n t v /\ In (LOCKUP_END k) (snd (dstep (st ops) o)) /\ len v = l).
    { intros t l (n&v&k&E&L&H). eauto 7. }
    assert (NP : forall t l, presses s0 ops o t l -> exists n v, o = DSend 4 1 n t v /\ In (LOCKUP_BEGIN 3) (snd (dstep (st ops) o))).
    { intros t l (n&v&E&L&H). eauto. }
    assert (ROUGH : (forall t v, o = DLatch 1 true t v -> Z.ldiff (dmods (st ops)) 1 = 0 -> IsOn (dpw (st ops)) = true) -> was_armed s0 ops -> was_armed s0 (ops ++ [o])).
    { intros; apply armed_snoc; auto. }
    remember (snd (dstep (st ops) o)) as out0 eqn:EO.
    destruct A as [n t v E|n t v E|t v x os E O0 M0 C|t fr E|x os C H1 H2 H3].
    - cbn. split; [|split; [discriminate|intros A; apply ROUGH; auto; intros; subst o; discriminate]].
      intros _. exists t, (len v). split; auto. exists ops, o, []. split; auto. split; [|apply untouched_nil].
      exists n, v. split; auto. split; auto. unfold st in EO. rewrite <- EO. cbn. auto.
    - assert (ED : det_blast (st ops) t v = (if armed (st ops) then SetNextAction (set_dpw (st ops) (fst (end_lockup (dpw (st ops)) (free v)))) NEXT_ACTION_BLOW (len v) t else SetNextAction (set_dpw (st ops) (fst (end_lockup (dpw (st ops)) (free v)))) NEXT_ACTION_NOTHING 0 t, snd (end_lockup (dpw (st ops)) (free v)))) by reflexivity.
      rewrite ED in *. cbn [fst snd] in *. destruct (armed (st ops)) eqn:AR; cbn [SetNextAction next armed time_base next_event_time set_dpw].
      + split; [discriminate|]. split; [|intros _; apply ROUGH; auto; intros; subst o; discriminate].
        intros _. exists t, (len v). split; auto. exists ops, o, []. split; auto. split; auto. split; [|apply untouched_nil].
        exists n, v, (lockup (dpw (st ops))). split; auto. split; auto. unfold st in EO. unfold st at 1. rewrite <- EO. cbn. auto.
      + split; [discriminate|]. split; [discriminate|]. rewrite AR. discriminate.
    - assert (N : forall t l, ~ presses s0 ops o t l /\ ~ releases s0 ops o t l).
      { intros t' l. split; intros H; [apply NP in H; destruct H as (?&?&H&_)|apply NR in H; destruct H as (?&?&?&H&_)]; congruence. }
      cbn [set_dpw set_armed next armed time_base next_event_time].
      split; [|split; [|discriminate]].
      + intros H. destruct (I1 H) as (t'&l&B&R). exists t', l. split; auto. apply arm_snoc; auto.
      + intros H. destruct (I2 H) as (t'&l&B&R). exists t', l. split; auto. apply blow_snoc; auto.
    - assert (N : forall t l, ~ presses s0 ops o t l /\ ~ releases s0 ops o t l).
      { intros t' l. split; intros H; [apply NP in H; destruct H as (?&?&H&_)|apply NR in H; destruct H as (?&?&?&H&_)]; congruence. }
      assert (RO : was_armed s0 ops -> was_armed s0 (ops ++ [o])) by (apply ROUGH; intros; subst o; discriminate).
      unfold PollNextAction. destruct (next_event_time (st ops) <? u32 (t - time_base (st ops))) eqn:D.
      + destruct (next (st ops)) eqn:NX; cbn [fst with_dpw set_armed set_dpw next armed time_base next_event_time]; (split; [discriminate|]; split; [discriminate|]); auto.
        intros _. destruct (I1 eq_refl) as (t'&l&B&R1&R2). eapply arm_elapsed; eauto. rewrite R1, R2 in D. lia.
      + cbn [fst]. split; [|split; auto].
        * intros H. destruct (I1 H) as (t'&l&B&R). exists t', l. split; auto. apply arm_snoc; auto.
        * intros H. destruct (I2 H) as (t'&l&B&R). exists t', l. split; auto. apply blow_snoc; auto.
    - assert (N : forall t l, ~ presses s0 ops o t l /\ ~ releases s0 ops o t l).
      { intros t' l. split; intros H; [apply NP in H; destruct H as (?&?&_&H)|apply NR in H; destruct H as (?&?&?&E&H&_)].
        - exact (proj1 (calm_in _ C) H).
        - rewrite (H1 _ _ _ E) in H. destruct H. }
      cbn [set_dpw next armed time_base next_event_time].
      split; [|split].
      + intros H. destruct (I1 H) as (t'&l&B&R). exists t', l. split; auto. apply arm_snoc; auto.
      + intros H. destruct (I2 H) as (t'&l&B&R). exists t', l. split; auto. apply blow_snoc; auto.
      + intros H. apply ROUGH; auto.
  Qed.
End Det.
Lemma dinv_run f vol ops : Forall dplain ops -> timed ops -> dinv (dstate0 f vol) ops (run_state dstep (dstate0 f vol) ops).
Proof.
  induction ops as [|o ops IH] using rev_ind; intros Pl T.
  - unfold dinv. cbn. repeat split; discriminate.
  - apply Forall_app in Pl. destruct Pl as [Pl Po]. inversion Po; subst. apply dinv_step; auto. apply IH; auto. eapply timed_last; eauto.
Qed.
Lemma explosion f vol ops o loc : Forall dplain (ops ++ [o]) -> timed (ops ++ [o]) ->
  In (BLAST loc) (snd (dstep (run_state dstep (dstate0 f vol) ops) o)) ->
  exists a r d t fr t2 l, o = DPoll t fr /\ ops = a ++ r :: d /\ was_armed (dstate0 f vol) a /\ releases (dstate0 f vol) a r t2 l /\ untouched (dstate0 f vol) (a ++ [r]) d /\ l < t - t2.
Proof.
  intros Pl T H. apply Forall_app in Pl. destruct Pl as [Pl Po]. inversion Po; subst.
  pose proof (dinv_run f vol ops Pl (timed_last _ _ T)) as (_&I2&_).
  set (s := run_state dstep (dstate0 f vol) ops) in *.
  destruct (dstep_acts s o) as (sa&m&A&_); auto.
  destruct A as [n t v E|n t v E|t v x os E O0 M0 C|t fr E|x os C H4 H5 H6].
  - exfalso. destruct H as [H|[]]; discriminate.
  - exfalso. destruct H as [H|[]]; discriminate.
  - exfalso. exact (proj2 (calm_in _ C) _ H).
  - unfold PollNextAction in H. destruct (next_event_time s <? u32 (t - time_base s)) eqn:D; [|destruct H].
    destruct (next s); [destruct H|destruct H|]. destruct (I2 eq_refl) as (t2&l&(a&r&d&E1&W&R&U)&B1&B2).
    exists a, r, d, t, fr, t2, l. repeat (split; auto). apply elapsed; [|rewrite <- B1, <- B2; lia].
    apply (T a r d o [] t2 t); [subst ops; rewrite <- app_assoc; reflexivity|eapply releases_at; eauto|subst; reflexivity].
  - exfalso. exact (proj2 (calm_in _ C) _ H).
Qed.
Lemma dsend_press s n t v : 1 <= n <= 4 -> n <> 2 -> IsOn (dpw s) = true -> Z.ldiff (dmods s) 4 = 0 -> dstep s (DSend 4 1 n t v) = beginArm s t v.
Proof.
  intros N N2 O A. cbn [dstep]. rewrite det_event_eq, O. destruct (det_cases s 4 (1 + 8 * n) (Z.lor (dmods s) MODE_ON) t v) as [(B&E&_)|[(B&E&_)|[(B&E&R)|[(B&E&R)|[(B&E&_)|[(B&E&_)|(R&_)]]]]]]; try (exfalso; lia).
  rewrite R. cbv beta iota. rewrite det_event_eq, O. clear R. destruct (det_cases s 4 1 (Z.lor (dmods s) MODE_ON) t v) as [(B&E&_)|[(B&E&_)|[(B&E&R)|[(B&E&R)|[(B&E&_&R)|[(B&E&_)|(R&R2&_)]]]]]]; try (exfalso; lia).
  - rewrite R. destruct (beginArm s t v). reflexivity.
  - exfalso. apply (R2 eq_refl); auto. exact (alone_on _ 4 A).
Qed.
Lemma dsend_release s n t v : 1 <= n <= 4 -> IsOn (dpw s) = true -> Z.ldiff (dmods s) 4 = 0 ->
  dstep s (DSend 4 2 n t v) = let '(x, os) := det_blast s t v in ((if armed x then set_dmods x 0 else x), os).
Proof.
  intros N O A. cbn [dstep]. rewrite det_event_eq, O. destruct (det_cases s 4 (2 + 8 * n) (Z.lor (dmods s) MODE_ON) t v) as [(B&E&_)|[(B&E&_)|[(B&E&R)|[(B&E&R)|[(B&E&_)|[(B&E&_)|(R&_)]]]]]]; try (exfalso; lia).
  rewrite R. cbv beta iota. rewrite det_event_eq, O. clear R. destruct (det_cases s 4 2 (Z.lor (dmods s) MODE_ON) t v) as [(B&E&_)|[(B&E&_)|[(B&E&R)|[(B&E&R)|[(B&E&_&R)|[(B&E&_&R)|(R&R2&_)]]]]]]; try (exfalso; lia).
  - rewrite R. destruct (det_blast s t v) as [x os]. destruct (armed x); reflexivity.
  - exfalso. apply (R2 eq_refl); auto. exact (alone_on _ 4 A).
Qed.
Lemma u32_past t t1 : 0 <= t1 - t < 4294967296 -> u32 (t1 - u32 t) = t1 - t.
Proof. intros H. unfold u32. rewrite Zminus_mod_idemp_r. apply Z.mod_small. lia. Qed.
Lemma blast_off s fr : pending s = false -> on s <> 0 -> lockup s = 0 -> on (fst (do_off s OFF_BLAST all fr)) = 0 /\ snd (do_off s OFF_BLAST all fr) = [BLAST (on s)].
Proof.
  intros Pd N L. split; [apply do_off_all|]. unfold do_off. rewrite Pd, L. unfold none at 1. replace (on s =? 0) with false by lia. cbn [Z.eqb].
  unfold TurnOff. change (Z.land all (on s)) with (Z.land (-1) (on s)). rewrite land_all. unfold none. replace (on s =? 0) with false by lia.
  cbn [SB_Off]. destruct (mono _); cbn; reflexivity.
Qed.
Lemma explodes s n1 t1 v1 t2 f2 n3 t3 v3 t4 f4 :
  pending (dpw s) = false -> on (dpw s) <> 0 -> Z.ldiff (dmods s) 4 = 0 -> n1 = 1 \/ n1 = 3 \/ n1 = 4 -> 1 <= n3 <= 4 ->
  0 <= len v1 < t2 - t1 -> t2 - t1 < 4294967296 -> 0 <= len v3 < t4 - t3 -> t4 - t3 < 4294967296 ->
  let ops := [DSend 4 1 n1 t1 v1; DHold 4; DPoll t2 f2; DSend 4 2 n3 t3 v3; DPoll t4 f4] in
  concat (run_outs dstep s ops) = [LOCKUP_BEGIN 3; LOCKUP_END 3; BLAST (on (dpw s))] /\ on (dpw (run_state dstep s ops)) = 0.
Proof.
  intros Pd N A N1 N3 L1 W1 L3 W3.
  assert (ON : forall x, on x = on (dpw s) -> IsOn x = true) by (intros x E; unfold IsOn, none; rewrite E; replace (on (dpw s) =? 0) with false by lia; reflexivity).
  cbn zeta. cbn [run_outs run_state].
  rewrite dsend_press by (auto; lia).
  destruct (beginArm s t1 v1) as [s1 o1] eqn:E1.
  assert (F1 : o1 = [LOCKUP_BEGIN 3] /\ on (dpw s1) = on (dpw s) /\ pending (dpw s1) = false /\ dmods s1 = dmods s /\ next s1 = NEXT_ACTION_ARM /\ time_base s1 = u32 t1 /\ next_event_time s1 = len v1 /\ lockup (dpw s1) = 3).
  { unfold beginArm, with_dpw, begin_lockup, SetNextAction in E1. injection E1 as <- <-. cbn. unfold PlayMonophonic. destruct (mono_lock _), (free v1); cbn; repeat split; auto. }
  destruct F1 as (->&On1&Pd1&M1&Nx1&Tb1&Ne1&Lk1). clear E1.
  cbn [fst dstep].
  set (s2 := set_dmods s1 _).
  destruct (PollNextAction s2 t2 f2) as [s3 o3] eqn:E3.
  assert (F3 : o3 = [] /\ dpw s3 = dpw s1 /\ dmods s3 = Z.lor (dmods s) 4 /\ armed s3 = true).
  { unfold PollNextAction in E3. cbn [s2 set_dmods next next_event_time time_base] in E3. rewrite Nx1, Tb1, Ne1 in E3.
    rewrite u32_past in E3 by lia. replace (len v1 <? t2 - t1) with true in E3 by lia. injection E3 as <- <-. cbn. rewrite M1. auto. }
  destruct F3 as (->&P3&M3&A3). clear E3. cbn [fst].
  assert (AL : Z.ldiff (dmods s3) 4 = 0) by (rewrite M3, ldiff_lor, A; reflexivity).
  change (let '(s1, o1, h) := det_event s3 4 (2 + 8 * n3) t3 v3 in if h then (s1, o1) else let '(s2, o2, _) := det_event s1 4 2 t3 v3 in (s2, o1 ++ o2)) with (dstep s3 (DSend 4 2 n3 t3 v3)).
  rewrite dsend_release by (auto; apply ON; congruence).
  destruct (det_blast s3 t3 v3) as [s4 o4] eqn:E4.
  assert (F4 : o4 = [LOCKUP_END 3] /\ on (dpw s4) = on (dpw s) /\ pending (dpw s4) = false /\ lockup (dpw s4) = 0 /\ armed s4 = true /\ next s4 = NEXT_ACTION_BLOW /\ time_base s4 = u32 t3 /\ next_event_time s4 = len v3).
  { unfold det_blast, with_dpw in E4. destruct (end_lockup_same (dpw s3) (free v3)) as (X1&X2&_).
    assert (X3 : snd (end_lockup (dpw s3) (free v3)) = [LOCKUP_END (lockup (dpw s3))]) by reflexivity.
    assert (X4 : lockup (fst (end_lockup (dpw s3) (free v3))) = 0) by reflexivity.
    destruct (end_lockup (dpw s3) (free v3)) as [y oy]. cbn [fst snd] in *.
    cbn [armed set_dpw] in E4. rewrite A3 in E4. injection E4 as <- <-.
    cbn [dpw SetNextAction set_dpw armed next time_base next_event_time]. rewrite X1, X2, X3, X4, P3, Lk1. repeat split; auto. }
  destruct F4 as (->&On4&Pd4&Lk4&A4&Nx4&Tb4&Ne4). clear E4. rewrite A4. cbn [fst].
  set (s5 := set_dmods s4 0).
  assert (F5 : PollNextAction s5 t4 f4 = (let r := do_off (dpw s4) OFF_BLAST all f4 in (D (fst r) true NEXT_ACTION_NOTHING (u32 t3) (len v3) 0, snd r))).
  { unfold PollNextAction. cbn [s5 set_dmods next next_event_time time_base]. rewrite Nx4, Tb4, Ne4.
    rewrite u32_past by lia. replace (len v3 <? t4 - t3) with true by lia. unfold s5, with_dpw, set_dpw. cbn. rewrite A4, Tb4, Ne4. reflexivity. }
  rewrite F5. destruct (blast_off (dpw s4) f4 Pd4 ltac:(congruence) Lk4) as [B1 B2]. cbn zeta. destruct (do_off (dpw s4) OFF_BLAST all f4) as [y oy]. cbn [fst snd] in *. subst oy. cbn. rewrite On4. auto.
Qed.
Lemma TurnOn_fnt s loc fr : fnt (fst (TurnOn s loc fr)) = fnt s.
Proof.
  unfold TurnOn. destruct (none _); cbn; auto. unfold SB_On, PlayMonophonic, set_fst, set_hum, set_pending, set_on. cbn.
  destruct (mono (fnt s)), (fst_ s), (preon (fnt s)), fr, (hum s); reflexivity.
Qed.
Lemma preset_font s f r fr : fnt (fst (do_preset s f r false fr)) = f.
Proof.
  destruct (do_preset_cases s f r false fr) as (s1&o1&_&_&_&H). cbn zeta in H. rewrite H. cbn [fst].
  destruct (none _); [reflexivity|]. unfold do_fast_on. destruct (CommonIgnition _ _ _); [|reflexivity].
  pose proof (TurnOn_fnt (chdir s1 f) (if IsOn s && none (on s) then all else on s) fr) as K.
  destruct (TurnOn _ _ _). exact K.
Qed.
Lemma preset_on s v : refuse v = false -> poweron (efont v) = false -> IsOn (pw (fst (blaster_preset s v))) = true.
Proof.
  intros R Pw. unfold blaster_preset, with_pw. pose proof (preset_font (pw s) (efont v) (refuse v) (free v)) as F.
  destruct (do_preset _ _ _ _ _) as [x o]. cbn [fst snd pw set_pw] in *. rewrite F, Pw. cbn [negb andb].
  destruct (none (on x)) eqn:N; cbn [fst pw set_pw]; [|unfold IsOn; rewrite N; reflexivity].
  unfold do_on, CommonIgnition. rewrite R. unfold none in N. assert (on x = 0) as -> by lia. cbn -[SB_Preon]. unfold IsOn. apply orb_true_r.
Qed.

(** A check that times do not go back, for the examples. *)
Fixpoint times_up (lo : Z) (ops : list dop) : bool :=
  match ops with
  | [] => true
  | o :: r => match at_time o with Some t => (lo <=? t) && times_up t r | None => times_up lo r end
  end.
Lemma times_up_le ops : forall lo b y c u, times_up lo ops = true -> ops = b ++ y :: c -> at_time y = Some u -> lo <= u.
Proof.
  induction ops as [|o ops IH]; intros lo b y c u H E Y; [destruct b; discriminate|]. cbn in H.
  destruct b as [|z b]; injection E as -> E.
  - rewrite Y in H. lia.
  - destruct (at_time z) as [t|]; [apply andb_prop in H; destruct H as [H1 H2]; specialize (IH _ _ _ _ _ H2 E Y); lia|exact (IH _ _ _ _ _ H E Y)].
Qed.
Lemma times_up_timed ops : forall lo, times_up lo ops = true -> timed ops.
Proof.
  unfold timed. induction ops as [|o ops IH]; intros lo H a x b y c t u E X Y; [destruct a; discriminate|]. cbn in H.
  destruct a as [|z a]; injection E as -> E.
  - rewrite X in H. apply andb_prop in H. destruct H as [_ H]. exact (times_up_le _ _ _ _ _ _ H E Y).
  - destruct (at_time z) as [t'|]; [apply andb_prop in H; destruct H as [_ H]|]; exact (IH _ H _ _ _ _ _ _ _ E X Y).
Qed.
