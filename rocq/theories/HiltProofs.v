(** Proofs about the saber with the default prop. *)
From Coq Require Import ZArith List Bool Lia ZifyBool.
From Verif Require Import Machine ButtonModel HiltModel HiltSpec.
Import ListNotations.
Open Scope Z_scope.

Lemma ago_since t t0 : since t t0 = ago t t0. Proof. reflexivity. Qed.

(** * Runs *)
Lemma final_cons c h o ops : final c h (o :: ops) = final c (fst (hilt_step c h o)) ops. Proof. reflexivity. Qed.
Lemma acts_cons c h o ops : acts c h (o :: ops) = snd (hilt_step c h o) ++ acts c (fst (hilt_step c h o)) ops.
Proof. unfold acts. cbn [run_outs]. destruct (hilt_step c h o). reflexivity. Qed.
Lemma final_app c ops1 : forall h ops2, final c h (ops1 ++ ops2) = final c (final c h ops1) ops2.
Proof. induction ops1; intros; cbn; [reflexivity|apply IHops1]. Qed.
Lemma acts_app c ops1 : forall h ops2, acts c h (ops1 ++ ops2) = acts c h ops1 ++ acts c (final c h ops1) ops2.
Proof.
  induction ops1 as [|o ops1 IH]; intros; [reflexivity|]. cbn [app]. rewrite !acts_cons, IH, final_cons, app_assoc. reflexivity.
Qed.
Lemma visible_app a b : visible (a ++ b) = visible a ++ visible b. Proof. apply filter_app. Qed.

(** * Events that the saber does not handle *)
Lemma event2_quiet c e s b k n m isOn : In k [KHeld; KHeldMedium; KHeldLong; KSaved] ->
  event2 c e s b (EB k n) m isOn = (false, s, []).
Proof.
  intros H. unfold event2, switch. set (b' := if dual c && lit s && aux_on s then swap b else b). clearbody b'.
  destruct H as [<-|[<-|[<-|[<-|[]]]]]; destruct b' as [[]|]; destruct n; reflexivity.
Qed.
Lemma hsend_quiet c e co k ev n : colors (sab co) = false -> In ev [KHeld; KHeldMedium; KHeldLong; KSaved] ->
  hsend c e co k ev n = (false, co, []).
Proof.
  intros C H. destruct co as [s m]. cbn [sab] in C. unfold hsend, event. cbn [sab cmods]. 
  repeat (first [rewrite C | rewrite event2_quiet by exact H]; cbn [sab cmods]). reflexivity.
Qed.
Lemma menu_held s b k n : In k [KHeld; KHeldMedium; KHeldLong; KPressed; KReleased; KShort; KLong] -> menu_event2 s b (EB k n) = (false, s, []).
Proof. intros H. destruct H as [<-|[<-|[<-|[<-|[<-|[<-|[<-|[]]]]]]]]; destruct b as [[]|]; reflexivity. Qed.
Lemma hsend_held c e co k ev n : In ev [KHeld; KHeldMedium; KHeldLong] -> hsend c e co k ev n = (false, co, []).
Proof.
  intros H. destruct (colors (sab co)) eqn:C.
  - destruct co as [s m]. cbn [sab] in C. unfold hsend, event. cbn [sab cmods]. rewrite C.
    assert (In ev [KHeld; KHeldMedium; KHeldLong; KPressed; KReleased; KShort; KLong]) by (cbn in *; intuition).
    repeat (first [rewrite C | rewrite menu_held by assumption]; cbn [sab cmods]). reflexivity.
  - apply hsend_quiet; [exact C|]. cbn in *; intuition.
Qed.

(** * The invariant *)
Definition is_down (b : bstate) : bool := match at_ b with P70 => false | _ => true end.
Definition sub (m m' : mods) : Prop := forall k, has m k = true -> has m' k = true.
Lemma sub_refl m : sub m m. Proof. intros k H. exact H. Qed.
Lemma sub_none m : sub nomods m. Proof. intros []; discriminate. Qed.
Lemma sub_put m k : sub (put m k false) m. Proof. destruct k; intros []; cbn; auto; discriminate. Qed.
Lemma sub_trans a b c : sub a b -> sub b c -> sub a c. Proof. unfold sub; auto. Qed.
Lemma has_put m k v : has (put m k v) k = v. Proof. destruct k; reflexivity. Qed.
Lemma has_put_ne m k j v : j <> k -> has (put m k v) j = has m j. Proof. destruct k, j; try reflexivity; congruence. Qed.

(** * What the switch of Event2 can do to its state *)
Inductive Out (c : config) (e : env) (s : saber) (b : option btn) (ev : event_) (m : modarg) (isOn : bool) : bool -> saber -> list act -> Prop :=
| OutSame r o : Forall (fun a => In a [AForce; ABlast; ANext; APrevious; ATrack; AMotion]) o -> Out c e s b ev m isOn r s o
| OutDown d : Out c e s b ev m isOn true (Saber (lit s) (pending s) (lockup s) (muted s) (unmute s) (activated s) (colors s) d (aux_on s)) []
| OutOn v k : b = Some k -> ev = EB KShort Plain -> isOn = false -> (dual c = false -> k = PWR) -> agrees e = true -> only b m nomods = true ->
    Out c e s b ev m isOn true (fst (on e (set_aux_on s v))) [AIgnite]
| OutOnNot v : Out c e s b ev m isOn true (set_aux_on s v) []
| OutOff : b = Some PWR -> ev = EB KShort First -> isOn = true -> colors s = false -> only b m nomods = true -> Out c e s b ev m isOn true (fst (off s)) (snd (off s))
| OutMute : b = Some PWR -> ev = EB KPressed Second -> isOn = true \/ pending s = true -> Out c e s b ev m isOn true (fst (mute s)) (snd (mute s))
| OutToggle : (b = Some PWR /\ (exists n, ev = EB KShort n) /\ isOn = true) \/ (b = None /\ ev = ETWIST /\ single c = true /\ isOn = true /\ only b m (Mods true false false) = true) ->
    Out c e s b ev m isOn true (fst (toggle_colors e s)) (snd (toggle_colors e s))
| OutLock l : isOn = true ->
    (b = None /\ lockup s = None /\ (only b m (Mods true false false) = true \/ only b m (Mods false true false) = true)) \/
    (b = Some AX /\ ev = EB KShort Plain /\ l = LIGHTNING /\ only b m (Mods true false false) = true) ->
    Out c e s b ev m isOn true (set_lockup s (Some l)) [ALock l]
| OutEnd k : b = Some k -> k <> AX2 -> ev = EB KReleased Plain -> m = AnyButton -> isOn = true -> lockup s <> None ->
    Out c e s b ev m isOn true (set_lockup s None) [AEndLock].

Ltac case_if :=
  match goal with
  | H : context [if ?b then _ else _] |- _ => let E := fresh "E" in destruct b eqn:E
  end.
Ltac same := apply OutSame; repeat constructor; cbn; tauto.
Lemma any_true m : any m = true -> m = AnyButton. Proof. destruct m; [discriminate|reflexivity]. Qed.
Lemma on_cases e s : (agrees e = true /\ on e s = (fst (on e s), [AIgnite])) \/ (agrees e = false /\ on e s = (s, [])).
Proof. unfold on. destruct (agrees e); auto. Qed.
Lemma switch_out c e s b ev m isOn r s' o : switch c e s b ev m isOn = (r, s', o) -> Out c e s b ev m isOn r s' o.
Proof.
  intros H. unfold switch, done in H.
  destruct b as [[]|]; destruct ev as [[] []| | |]; cbn [fst snd] in H; try (inversion H; subst; clear H; same);
  repeat (case_if; try discriminate); repeat match goal with E : (_ && _) = true |- _ => apply andb_true_iff in E as [? ?] end;
  try (inversion H; subst; clear H; same); try (inversion H; subst; clear H; apply OutDown).
  - inversion H; subst; clear H. apply OutMute; auto.
  - inversion H; subst; clear H. apply OutMute; auto.
  - inversion H; subst; clear H. apply (OutEnd _ _ _ _ _ _ _ PWR); try congruence; [apply any_true; assumption].
  - inversion H; subst; clear H. apply OutToggle. left. eauto.
  - destruct (on_cases e (set_aux_on s false)) as [[A E']|[A E']]; rewrite E' in H; inversion H; subst; clear H.
    + apply (OutOn _ _ _ _ _ _ _ false PWR); auto.
    + apply OutOnNot.
  - inversion H; subst; clear H. apply OutToggle. left. eauto.
  - inversion H; subst; clear H. apply OutOff; auto.
  - inversion H; subst; clear H. apply (OutEnd _ _ _ _ _ _ _ AX); try congruence; [apply any_true; assumption].
  - inversion H; subst; clear H. apply OutLock; [reflexivity|right]. auto.
  - destruct (on_cases e (set_aux_on s true)) as [[A E']|[A E']]; rewrite E' in H; inversion H; subst; clear H.
    + apply (OutOn _ _ _ _ _ _ _ true AX); auto. congruence.
    + apply OutOnNot.
  - inversion H; subst; clear H. apply OutLock; [reflexivity|left]. split; [reflexivity|]. split; [assumption|]. apply orb_true_iff. assumption.
  - inversion H; subst; clear H. apply OutLock; [reflexivity|left]. split; [reflexivity|]. split; [assumption|]. apply orb_true_iff. assumption.
  - inversion H; subst; clear H. apply OutLock; [first [assumption|reflexivity]|left]. split; [reflexivity|]. split; [assumption|]. apply orb_true_iff. assumption.
  - inversion H; subst; clear H. apply OutToggle. right. auto.
Qed.
Lemma switch_false c e s b ev m isOn s' o : switch c e s b ev m isOn = (false, s', o) -> s' = s /\ o = [].
Proof.
  intros H. unfold switch, done in H.
  destruct b as [[]|]; destruct ev as [[] []| | |]; cbn [fst snd] in H; repeat (case_if; try discriminate); inversion H; auto.
Qed.
Lemma menu_false s b ev s' o : menu_event2 s b ev = (false, s', o) -> s' = s /\ o = [].
Proof. unfold menu_event2. destruct b as [[]|]; destruct ev as [[] []| | |]; intros H; inversion H; auto. Qed.
Lemma menu_true s b ev s' o : menu_event2 s b ev = (true, s', o) -> s' = leave s /\ (o = [ASelect] \/ o = [AExit]) /\ (exists n, ev = EB KSaved n).
Proof. unfold menu_event2. destruct b as [[]|]; destruct ev as [[] []| | |]; intros H; inversion H; eauto. Qed.
Lemma switch_any c e s b ev isOn r s' o : switch c e s b ev AnyButton isOn = (r, s', o) -> r = true ->
  s' = set_lockup s None /\ o = [AEndLock] /\ lockup s <> None /\ isOn = true /\ ev = EB KReleased Plain /\ (b = Some PWR \/ b = Some AX).
Proof.
  intros H R. subst r. unfold switch, done in H.
  destruct b as [[]|]; destruct ev as [[] []| | |]; cbn [fst snd only any] in H; try discriminate;
    rewrite ?andb_false_r in H; cbn [orb andb] in H; repeat (case_if; rewrite ?andb_false_r in *; try discriminate); inversion H; repeat split; auto; congruence.
Qed.
Definition eff (c : config) (s : saber) (b : option btn) : option btn := if dual c && lit s && aux_on s then swap b else b.
Lemma eff_none c s b : eff c s b = None <-> b = None.
Proof. unfold eff, swap. destruct (dual c && lit s && aux_on s), b as [[]|]; split; congruence. Qed.
Lemma eff_ax c s b : eff c s b = Some AX -> b = Some AX.
Proof. unfold eff, swap. destruct (dual c && lit s && aux_on s), b as [[]|]; congruence. Qed.
Lemma eff_ax2 c s b : eff c s b = Some AX2 <-> b = Some AX2.
Proof. unfold eff, swap. destruct (dual c && lit s && aux_on s), b as [[]|]; split; congruence. Qed.
Lemma eff_single c s b : dual c = false -> eff c s b = b.
Proof. intros D. unfold eff. rewrite D. reflexivity. Qed.

Definition forget (m : mods) (b : option btn) : mods := match b with Some k => put m k false | None => m end.
Inductive Ev (c : config) (e : env) (co : core) (b : option btn) (ev : event_) : bool -> core -> list act -> Prop :=
| EvNo : Ev c e co b ev false co []
| EvEnd : colors (sab co) = false -> lockup (sab co) <> None -> IsOn (sab co) = true -> ev = EB KReleased Plain -> (b = Some PWR \/ b = Some AX) ->
    Ev c e co b ev true (Core (set_lockup (sab co) None) (forget (cmods co) b)) [AEndLock]
| EvMenu o n : colors (sab co) = true -> (o = [ASelect] \/ o = [AExit]) -> ev = EB KSaved n -> Ev c e co b ev true (Core (leave (sab co)) nomods) o
| EvSwitch s' o : colors (sab co) = false -> Out c e (sab co) (eff c (sab co) b) ev (These (cmods co)) (IsOn (sab co)) true s' o -> Ev c e co b ev true (Core s' nomods) o.
Lemma event_cases c e co b ev r co' o : event c e co b ev = (r, co', o) -> Ev c e co b ev r co' o.
Proof.
  intros H. unfold event in H. destruct co as [s m]. cbn [sab cmods] in H. destruct (colors s) eqn:C.
  - destruct (menu_event2 s b ev) as [[r1 s1] o1] eqn:E1. destruct r1.
    + inversion H; subst. apply menu_true in E1 as (-> & O & n & ->). apply (EvMenu c e (Core s m) _ _ o n); auto.
    + apply menu_false in E1 as E. destruct E as [-> ->]. rewrite C, E1 in H. inversion H; subst. apply EvNo.
  - destruct (event2 c e s b ev (These m) (IsOn s)) as [[r1 s1] o1] eqn:E1. destruct r1.
    + inversion H; subst. apply (EvSwitch c e (Core s m)); [exact C|]. apply switch_out. exact E1.
    + apply switch_false in E1 as E. destruct E as [-> ->]. rewrite C in H.
      destruct (event2 c e s b ev AnyButton (IsOn s)) as [[r2 s2] o2] eqn:E2. destruct r2.
      * inversion H; subst. apply switch_any in E2 as (-> & -> & L & I & -> & B); [|reflexivity]. apply (EvEnd c e (Core s m)); auto.
        destruct b as [[]|]; auto; destruct B as [B|B].
        -- assert (Q : eff c s (Some AX2) = Some AX2) by (apply eff_ax2; reflexivity). unfold eff in Q. congruence.
        -- assert (Q : eff c s (Some AX2) = Some AX2) by (apply eff_ax2; reflexivity). unfold eff in Q. congruence.
        -- assert (Q : eff c s None = None) by (apply eff_none; reflexivity). unfold eff in Q. congruence.
        -- assert (Q : eff c s None = None) by (apply eff_none; reflexivity). unfold eff in Q. congruence.
      * apply switch_false in E2 as [-> ->]. inversion H; subst. apply EvNo.
Qed.

(** * Events and the invariant *)
Definition quiet_mute (s : saber) : Prop := muted s = unmute s.
Definition safe (s : saber) : Prop := lockup s <> None -> IsOn s = true /\ colors s = false.

Lemma event_sub c e co b ev r co' o : Ev c e co b ev r co' o -> sub (cmods co') (cmods co).
Proof. intros []; cbn [cmods]; [apply sub_refl| |apply sub_none|apply sub_none]. destruct b; [apply sub_put|apply sub_refl]. Qed.
Lemma event_mute c e co b ev r co' o : Ev c e co b ev r co' o -> quiet_mute (sab co) -> quiet_mute (sab co').
Proof.
  unfold quiet_mute. intros [] Q; cbn [sab]; auto.
  destruct H0; cbn; auto.
  - unfold on. destruct (agrees e); cbn; auto.
  - unfold off. destruct (pending (sab co)); cbn; auto. destruct (lit (sab co)); cbn; auto. destruct (unmute (sab co)) eqn:U; cbn; congruence.
  - unfold mute. destruct (muted (sab co)) eqn:M; cbn; auto. congruence.
  - unfold toggle_colors. destruct (styled e && negb (colors (sab co))); cbn; auto.
Qed.
Lemma only_has b m w k : only b (These m) w = true -> has w k = true -> has m k = true /\ b <> Some k.
Proof.
  unfold only. intros H W. apply andb_true_iff in H as [H H3]. apply andb_true_iff in H as [H1 H2].
  apply eqb_prop in H1, H2, H3. destruct b as [[]|], k; cbn in *; rewrite W in *; split; congruence.
Qed.
(** A lockup after an event was there before it, or is new: then a button was held. *)
Definition new_lock (b : option btn) (co co' : core) : Prop :=
  cmods co' = nomods /\ IsOn (sab co') = true /\ colors (sab co') = false /\
  ((b = None /\ (mp (cmods co) = true \/ ma (cmods co) = true)) \/ (b = Some AX /\ mp (cmods co) = true)).
Lemma event_lock c e co b ev r co' o : Ev c e co b ev r co' o -> lockup (sab co') <> None -> lockup (sab co) <> None \/ new_lock b co co'.
Proof.
  intros [] L; cbn [sab] in *; auto; try (cbn in L; congruence).
  destruct H0; try (left; exact L).
  - left. unfold on in L. destruct (agrees e); exact L.
  - left. unfold off in L. destruct (pending (sab co)); [exact L|]. destruct (lit (sab co)); cbn in L; congruence.
  - left. unfold mute in L. destruct (muted (sab co)); exact L.
  - left. unfold toggle_colors in L. destruct (styled e && negb (colors (sab co))); exact L.
  - right. split; [reflexivity|]. split; [exact H0|]. split; [exact H|].
    destruct H1 as [(B & _ & W)|(B & _ & _ & W)].
    + left. apply eff_none in B as B'. split; [exact B'|]. rewrite B in W. destruct W as [W|W]; [left; apply (proj1 (only_has _ _ _ PWR W eq_refl))|right; apply (proj1 (only_has _ _ _ AX W eq_refl))].
    + right. apply eff_ax in B as B'. split; [exact B'|]. apply (proj1 (only_has _ _ _ PWR W eq_refl)).
  - left. cbn in L; congruence.
Qed.
Lemma event_safe c e co b ev r co' o : Ev c e co b ev r co' o -> safe (sab co) ->
  lockup (sab co) = None \/ b = Some AX2 \/ ((forall n, ev <> EB KShort n) /\ (ev = ETWIST -> single c = true -> mp (cmods co) = false)) -> safe (sab co').
Proof.
  intros E SF H L. destruct (event_lock _ _ _ _ _ _ _ _ E L) as [L0|(_ & I & C & _)]; [|auto].
  destruct H as [H|[->|[H T]]]; [congruence| |].
  { destruct (SF L0) as [I C]. destruct E; cbn [sab] in *; auto; try (cbn in L; congruence); try congruence.
    destruct H0; auto; try congruence; try (apply eff_ax2 in H0; discriminate); try (pose proof (proj2 (eff_ax2 c (sab co) (Some AX2)) eq_refl); congruence).
    exfalso. pose proof (proj2 (eff_ax2 c (sab co) (Some AX2)) eq_refl) as Q. destruct H0 as [(B & _)|(B & _)]; congruence. }
  destruct (SF L0) as [I C]. destruct E; cbn [sab] in *; auto; try congruence; try (cbn in L; congruence).
  destruct H1; auto; try (exfalso; subst ev; apply (H _ eq_refl)); try congruence.
  - unfold mute in *. destruct (muted (sab co)); cbn in *; auto.
  - exfalso. destruct H1 as [(_ & [n ->] & _)|(B & -> & SC & _ & W)]; [apply (H _ eq_refl)|].
    specialize (T eq_refl SC). rewrite B in W. pose proof (proj1 (only_has _ _ _ PWR W eq_refl)) as P. cbn in P. congruence.
Qed.
(** The release of Power or Aux ends a lockup. *)
Lemma event_release c e co k r co' o : Ev c e co (Some k) (EB KReleased Plain) r co' o -> event c e co (Some k) (EB KReleased Plain) = (r, co', o) ->
  safe (sab co) -> k <> AX2 -> lockup (sab co') = None.
Proof.
  intros E X SF K. destruct (lockup (sab co)) eqn:L0.
  - destruct (SF ltac:(congruence)) as [I C]. unfold event in X. rewrite C in X. unfold event2 in X.
    set (b' := if dual c && lit (sab co) && aux_on (sab co) then swap (Some k) else Some k) in *.
    assert (B' : b' = Some PWR \/ b' = Some AX). { unfold b'. destruct (dual c && lit (sab co) && aux_on (sab co)); destruct k; cbn; auto; congruence. }
    destruct B' as [B'|B']; rewrite B' in X; cbn [switch any andb] in X; rewrite C in X; fold b' in X; rewrite B' in X; cbn [switch any andb] in X; rewrite I, L0 in X; cbn in X; inversion X; reflexivity.
  - destruct (lockup (sab co')) eqn:L; [|reflexivity]. exfalso.
    destruct (event_lock _ _ _ _ _ _ _ _ E ltac:(congruence)) as [?|(_ & _ & _ & [[N _]|[N P]])]; [congruence|congruence|].
    destruct E as [| | |s' o C E']; cbn [sab] in *; try congruence; try (cbn in L; congruence). inversion E'; subst; cbn [lockup set_aux_on] in *; try discriminate; try congruence.
    + unfold toggle_colors in L. destruct (styled e && negb (colors (sab co))); cbn in L; congruence.
    + destruct H0 as [(B & _)|(_ & B & _)]; [apply eff_none in B|]; discriminate.
Qed.

Lemma hsend_ev c e co k ev n r co' o : hsend c e co k ev n = (r, co', o) -> exists n', (n' = n \/ n' = Plain) /\ Ev c e co (Some k) (EB ev n') r co' o.
Proof.
  unfold hsend. destruct (event c e co (Some k) (EB ev n)) as [[r1 co1] o1] eqn:E1. apply event_cases in E1 as V1. destruct r1.
  - intros H. inversion H; subst. exists n. auto.
  - inversion V1; subst. destruct (event c e co1 (Some k) (EB ev Plain)) as [[r2 co2] o2] eqn:E2. apply event_cases in E2. intros H. inversion H; subst.
    exists Plain. auto.
Qed.
Lemma switch_counted c e s b n m isOn : n <> Plain -> switch c e s b (EB KReleased n) m isOn = (false, s, []).
Proof. intros N. destruct n; [congruence| | | |]; destruct b as [[]|]; reflexivity. Qed.
Lemma event_counted c e co k n : n <> Plain -> event c e co (Some k) (EB KReleased n) = (false, co, []).
Proof.
  intros N. destruct co as [s m]. unfold event, event2. cbn [sab cmods]. destruct (colors s) eqn:C.
  - rewrite menu_held by (cbn; tauto). rewrite C, menu_held by (cbn; tauto). reflexivity.
  - rewrite switch_counted by exact N. rewrite C, switch_counted by exact N. reflexivity.
Qed.
Lemma hsend_release c e co k n r co' o : hsend c e co k KReleased n = (r, co', o) -> safe (sab co) -> k <> AX2 -> lockup (sab co') = None.
Proof.
  unfold hsend. intros H SF K. assert (N : {n = Plain} + {n <> Plain}) by (destruct n; auto; right; discriminate). destruct N as [-> |N].
  - destruct (event c e co (Some k) (EB KReleased Plain)) as [[r1 co1] o1] eqn:E1. apply event_cases in E1 as V1.
    pose proof (event_release c e co k r1 co1 o1 V1 E1 SF K) as L. destruct r1; [inversion H; subst; exact L|].
    inversion V1; subst. rewrite E1 in H. inversion H; subst; exact L.
  - rewrite event_counted in H by exact N. destruct (event c e co (Some k) (EB KReleased Plain)) as [[r2 co2] o2] eqn:E2. apply event_cases in E2 as V2.
    inversion H; subst. apply (event_release c e co k r co' _ V2 E2 SF K).
Qed.

(** * The invariant *)
Record Inv (c : config) (h : hilt) : Prop := {
  i_mods : forall k, has (cmods (cor h)) k = true -> is_down (button_of h k) = true;
  i_mute : quiet_mute (sab (cor h));
  i_safe : safe (sab (cor h));
  i_held : lockup (sab (cor h)) <> None -> is_down (bp h) = true \/ is_down (ba h) = true;
  i_one : single c = true -> is_down (ba h) = false;
  i_one_mod : single c = true -> lockup (sab (cor h)) <> None -> mp (cmods (cor h)) = false }.

Lemma with_same h k co b : button_of (with_button h k co b) k = b. Proof. destruct k; reflexivity. Qed.
Lemma with_other h k j co b : j <> k -> button_of (with_button h k co b) j = button_of h j. Proof. destruct k, j; try reflexivity; congruence. Qed.
Lemma with_core h k co b : cor (with_button h k co b) = co. Proof. destruct k; reflexivity. Qed.
Lemma btn_dec (j k : btn) : {j = k} + {j <> k}. Proof. decide equality. Qed.

(** A button that stays up or down, with an event other than a short click. *)
Lemma inv_event c h k e ev r co o b : Inv c h -> Ev c e (cor h) (Some k) ev r co o ->
  (lockup (sab (cor h)) = None \/ k = AX2 \/ (forall n, ev <> EB KShort n)) -> ev <> ETWIST ->
  is_down b = is_down (button_of h k) -> Inv c (with_button h k co b).
Proof.
  intros [IM IU IS IH IO IOM] V KS TW D.
  assert (DJ : forall j, is_down (button_of (with_button h k co b) j) = is_down (button_of h j)).
  { intros j. destruct (btn_dec j k) as [-> |N]; [rewrite with_same; exact D|rewrite with_other by exact N; reflexivity]. }
  constructor; rewrite ?with_core.
  - intros j J. rewrite DJ. apply IM. apply (event_sub _ _ _ _ _ _ _ _ V). exact J.
  - apply (event_mute _ _ _ _ _ _ _ _ V IU).
  - apply (event_safe _ _ _ _ _ _ _ _ V IS). destruct KS as [KS|[-> |KS]]; [left; exact KS|right; left; reflexivity|right; right; split; [exact KS|congruence]].
  - intros L. pose proof (DJ PWR) as DP. pose proof (DJ AX) as DA. cbn [button_of] in DP, DA. rewrite DP, DA.
    destruct (event_lock _ _ _ _ _ _ _ _ V L) as [L0|(_ & _ & _ & [[N _]|[N P]])]; [apply IH; exact L0|discriminate|].
    left. apply (IM PWR). exact P.
  - intros SC. pose proof (DJ AX) as DA. cbn [button_of] in DA. rewrite DA. apply IO. exact SC.
  - intros SC L. destruct (event_lock _ _ _ _ _ _ _ _ V L) as [L0|(M & _)]; [|rewrite M; reflexivity].
    destruct (mp (cmods co)) eqn:M; [|reflexivity]. rewrite <- (IOM SC L0). apply (event_sub _ _ _ _ _ _ _ _ V PWR) in M. symmetry. exact M.
Qed.

Lemma hsend_inv c h k e ev n r co o b : Inv c h -> hsend c e (cor h) k ev n = (r, co, o) -> lockup (sab (cor h)) = None \/ k = AX2 \/ ev <> KShort ->
  is_down b = is_down (button_of h k) -> Inv c (with_button h k co b).
Proof.
  intros I H NS D. apply hsend_ev in H as (n' & _ & V). apply (inv_event c h k e _ r co o b I V); auto; [|discriminate].
  destruct NS as [NS|[NS|NS]]; auto. right. right. intros n0 E. congruence.
Qed.
Lemma inv_same c h k b : Inv c h -> is_down b = is_down (button_of h k) -> Inv c (with_button h k (cor h) b).
Proof.
  intros [IM IU IS IH IO IOM] D.
  assert (DJ : forall j, is_down (button_of (with_button h k (cor h) b) j) = is_down (button_of h j)).
  { intros j. destruct (btn_dec j k) as [-> |N]; [rewrite with_same; exact D|rewrite with_other by exact N; reflexivity]. }
  pose proof (DJ PWR) as DP. pose proof (DJ AX) as DA. cbn [button_of] in DP, DA.
  constructor; rewrite ?with_core, ?DP, ?DA; auto. intros j J. rewrite DJ. auto.
Qed.
(** A button goes down. *)
Lemma inv_press c h k b : Inv c h -> (single c = true -> k = PWR) -> is_down (button_of h k) = false ->
  is_down b = true -> Inv c (with_button h k (Core (sab (cor h)) (put (cmods (cor h)) k true)) b).
Proof.
  intros [IM IU IS IH IO IOM] SG UP D. constructor; rewrite ?with_core; cbn [sab cmods]; auto.
  - intros j J. destruct (btn_dec j k) as [-> |N]; [rewrite with_same; exact D|]. rewrite with_other by exact N. rewrite has_put_ne in J by exact N. auto.
  - intros L. destruct (IH L) as [X|X]; destruct k; cbn [with_button bp ba]; auto.
  - intros SC. specialize (SG SC). subst k. cbn [with_button ba]. auto.
  - intros SC L. specialize (SG SC). subst k. exfalso. cbn [button_of] in UP. destruct (IH L) as [X|X]; [|rewrite (IO SC) in X]; congruence.
Qed.
(** A button comes up. *)
Lemma inv_up c h k b : Inv c h -> (lockup (sab (cor h)) = None \/ k = AX2) ->
  is_down b = false -> Inv c (with_button h k (Core (sab (cor h)) (put (cmods (cor h)) k false)) b).
Proof.
  intros [IM IU IS IH IO IOM] LK D. constructor; rewrite ?with_core; cbn [sab cmods]; auto.
  - intros j J. destruct (btn_dec j k) as [-> |N]; [rewrite has_put in J; discriminate|]. rewrite with_other by exact N. rewrite has_put_ne in J by exact N. auto.
  - intros L. destruct LK as [LK| ->]; [congruence|]. cbn [with_button bp ba]. auto.
  - intros SC. destruct k; cbn [with_button ba]; auto.
  - intros SC L. destruct LK as [LK| ->]; [congruence|]. cbn. auto.
Qed.
Lemma with_with h k co1 b1 co2 b2 : with_button (with_button h k co1 b1) k co2 b2 = with_button h k co2 b2. Proof. destruct k; reflexivity. Qed.
Lemma has_core h k co b : has (cmods (cor (with_button h k co b))) k = has (cmods co) k. Proof. rewrite with_core. reflexivity. Qed.

Lemma bloop_inv c e k d h b co o : Inv c h -> (single c = true -> d = true -> k = PWR) ->
  bloop c e k d (button_of h k) (cor h) = (b, co, o) -> Inv c (with_button h k co b).
Proof.
  intros I SG H.
  assert (SG' : single c = true -> k = AX -> is_down (button_of h k) = false) by (intros SC ->; apply (i_one _ _ I SC)).
  unfold bloop in H. rewrite (hsend_held c e (cor h) k KHeld), (hsend_held c e (cor h) k KHeldMedium), (hsend_held c e (cor h) k KHeldLong) in H by (cbn; tauto).
  set (bb := button_of h k) in *. set (n := presses bb) in *. set (el := since (now e) (push bb)) in *.
  assert (STAY : forall p, p <> P70 -> is_down bb = true -> Inv c (with_button h k (cor h) (B p (push bb) n (saved_ bb)))).
  { intros p P D. apply inv_same; [exact I|]. fold bb. rewrite D. destruct p; try reflexivity; congruence. }
  destruct (at_ bb) eqn:AT.
  - assert (UP : is_down bb = false) by (unfold is_down; rewrite AT; reflexivity). destruct d.
    + set (n' := if el <? 500 then bump n else First) in *. destruct (hsend c e (cor h) k KPressed n') as [[r1 co1] o1] eqn:E1. inversion H; subst b co o; clear H.
      assert (I1 : Inv c (with_button h k co1 bb)).
      { apply (hsend_inv c h k e KPressed n' r1 co1 o1 bb I E1); [right; right; discriminate|reflexivity]. }
      pose proof (inv_press c (with_button h k co1 bb) k (B P87 (now e) n' false) I1 (fun SC => SG SC eq_refl)) as PR.
      rewrite with_same, with_core, with_with in PR. apply PR; [exact UP|reflexivity].
    + destruct (saved_ bb && (el >? 500)).
      * destruct (hsend c e (cor h) k KSaved n) as [[r1 co1] o1] eqn:E1. inversion H; subst b co o; clear H.
        apply (hsend_inv c h k e KSaved n r1 co1 o1 _ I E1); [right; right; discriminate|fold bb; rewrite UP; reflexivity].
      * inversion H; subst b co o; clear H. apply inv_same; [exact I|reflexivity].
  - assert (DN : is_down bb = true) by (unfold is_down; rewrite AT; reflexivity).
    destruct (d && has (cmods (cor h)) k); [destruct (el >? 300)|]; inversion H; subst b co o; apply STAY; auto; discriminate.
  - assert (DN : is_down bb = true) by (unfold is_down; rewrite AT; reflexivity).
    destruct (d && has (cmods (cor h)) k); [destruct (el >? 800)|]; inversion H; subst b co o; apply STAY; auto; discriminate.
  - assert (DN : is_down bb = true) by (unfold is_down; rewrite AT; reflexivity).
    destruct (d && has (cmods (cor h)) k); [destruct (el >? 2000)|]; inversion H; subst b co o; apply STAY; auto; discriminate.
  - assert (DN : is_down bb = true) by (unfold is_down; rewrite AT; reflexivity).
    destruct (d && has (cmods (cor h)) k); inversion H; subst b co o; apply STAY; auto; discriminate.
  - assert (DN : is_down bb = true) by (unfold is_down; rewrite AT; reflexivity).
    destruct d; [inversion H; subst b co o; apply STAY; auto; discriminate|].
    destruct (hsend c e (cor h) k KReleased n) as [[r1 co1] o1] eqn:E1.
    assert (I1 : Inv c (with_button h k co1 bb)).
    { apply (hsend_inv c h k e KReleased n r1 co1 o1 bb I E1); [right; right; discriminate|reflexivity]. }
    assert (LK : lockup (sab co1) = None \/ k = AX2).
    { destruct (btn_dec k AX2) as [-> |N]; [right; reflexivity|left]. apply (hsend_release c e (cor h) k n r1 co1 o1 E1 (i_safe _ _ I) N). }
    assert (LK1 : lockup (sab (cor (with_button h k co1 bb))) = None \/ k = AX2) by (rewrite with_core; exact LK).
    destruct (has (cmods co1) k) eqn:HK.
    + set (co2 := Core (sab co1) (put (cmods co1) k false)) in *.
      assert (I2 : forall p x, Inv c (with_button h k co2 (B P70 p n x))).
      { intros p x. pose proof (inv_up c (with_button h k co1 bb) k (B P70 p n x) I1 LK1 eq_refl) as UP. rewrite with_core, with_with in UP. exact UP. }
      destruct (el <? 500); [|destruct (el <? 2500)].
      * destruct (hsend c e co2 k KShort n) as [[r2 co3] o2] eqn:E2. inversion H; subst b co o; clear H.
        set (b3 := B P70 (push bb) n (if r2 then saved_ bb else true)). set (h2 := with_button h k co2 b3).
        assert (C2 : cor h2 = co2) by apply with_core. rewrite <- C2 in E2.
        pose proof (hsend_inv c h2 k e KShort n r2 co3 o2 b3 (I2 _ _) E2) as X. unfold h2 in X. rewrite with_core, with_same, with_with in X. apply X; [|reflexivity].
        destruct LK as [LK|LK]; [left; exact LK|right; left; exact LK].
      * destruct (hsend c e co2 k KLong n) as [[r2 co3] o2] eqn:E2. inversion H; subst b co o; clear H.
        set (b3 := B P70 (push bb) n (saved_ bb)). set (h2 := with_button h k co2 b3).
        assert (C2 : cor h2 = co2) by apply with_core. rewrite <- C2 in E2.
        pose proof (hsend_inv c h2 k e KLong n r2 co3 o2 b3 (I2 _ _) E2) as X. unfold h2 in X. rewrite with_core, with_same, with_with in X. apply X; [|reflexivity].
        right; right; discriminate.
      * inversion H; subst b co o; clear H. apply I2.
    + inversion H; subst b co o; clear H. pose proof (inv_up c (with_button h k co1 bb) k (B P70 ((now e - 10000) mod 2 ^ 32) n (saved_ bb)) I1 LK1 eq_refl) as UP.
      rewrite with_core, with_with in UP. replace (put (cmods co1) k false) with (cmods co1) in UP by (destruct co1 as [s1 [x y z]], k; cbn in *; congruence).
      destruct co1; exact UP.
Qed.

Lemma inv_core c h co e ev r o : Inv c h -> Ev c e (cor h) None ev r co o -> (forall n, ev <> EB KShort n) -> Inv c (Hilt co (bp h) (ba h) (b2 h)).
Proof.
  intros [IM IU IS IH IO IOM] V NS. constructor; cbn [cor bp ba].
  - intros j J. apply (event_sub _ _ _ _ _ _ _ _ V) in J. apply IM in J. destruct j; exact J.
  - apply (event_mute _ _ _ _ _ _ _ _ V IU).
  - intros L. destruct (event_lock _ _ _ _ _ _ _ _ V L) as [L0|(_ & X & Y & _)]; [|auto].
    apply (event_safe _ _ _ _ _ _ _ _ V IS); [|exact L]. right; right. split; [exact NS|]. intros _ SC. apply IOM; auto.
  - intros L. destruct (event_lock _ _ _ _ _ _ _ _ V L) as [L0|(_ & _ & _ & [[_ [P|P]]|[N _]])]; [auto| | |discriminate].
    + left. apply (IM PWR P).
    + right. apply (IM AX P).
  - exact IO.
  - intros SC L. destruct (event_lock _ _ _ _ _ _ _ _ V L) as [L0|(M & _)]; [|rewrite M; reflexivity].
    destruct (mp (cmods co)) eqn:M; [|reflexivity]. rewrite <- (IOM SC L0). apply (event_sub _ _ _ _ _ _ _ _ V PWR) in M. symmetry. exact M.
Qed.
Lemma step_inv c h o : Inv c h -> (single c = true -> forall k e, o = Read k true e -> k = PWR) -> (o = CallOff -> pending (sab (cor h)) = false) -> Inv c (fst (hilt_step c h o)).
Proof.
  intros I F U. destruct o as [k d e|stab e|e| |]; cbn [hilt_step].
  - destruct (bloop c e k d (button_of h k) (cor h)) as [[b co] o] eqn:E. cbn [fst]. apply (bloop_inv c e k d h b co o I); [|exact E].
    intros SC ->. apply (F SC k e eq_refl).
  - unfold clash2. destruct (event c e (cor h) None (if stab then ESTAB else ECLASH)) as [[r co] o] eqn:E. apply event_cases in E.
    assert (X : Inv c (Hilt co (bp h) (ba h) (b2 h))) by (apply (inv_core c h co e _ r o I E); destruct stab; discriminate).
    destruct r; [exact X|]. destruct (lit (sab co) && _); exact X.
  - destruct (event c e (cor h) None ETWIST) as [[r co] o] eqn:E. apply event_cases in E. apply (inv_core c h co e _ r o I E). discriminate.
  - destruct I as [IM IU IS IH IO IOM]. destruct (pending (sab (cor h))) eqn:P; [|constructor; auto]. constructor; cbn [cor bp ba sab cmods lockup]; auto.
    intros L. split; [reflexivity|]. apply IS. exact L.
  - destruct I as [IM IU IS IH IO IOM]. specialize (U eq_refl). unfold off. rewrite U. destruct (lit (sab (cor h))) eqn:L; cbn [negb].
    + cbn [fst]. constructor; cbn [cor bp ba sab cmods lockup]; auto; try congruence; [|intros X; cbn in X; congruence].
      unfold quiet_mute in *. cbn. destruct (unmute (sab (cor h))); congruence.
    + cbn [fst]. constructor; cbn [cor bp ba sab cmods]; auto.
Qed.
Lemma hilt0_inv c g1 g2 g3 : Inv c (hilt0 g1 g2 g3).
Proof. constructor; cbn; try congruence; [intros []; discriminate|reflexivity|intros X; cbn in X; congruence]. Qed.
Lemma fits_cons c o ops : fits c (o :: ops) -> (single c = true -> forall k e, o = Read k true e -> k = PWR) /\ fits c ops.
Proof. intros F. split; [intros SC k e ->; apply (F SC k e); left; reflexivity|intros SC k e IN; apply (F SC k e); right; exact IN]. Qed.
Lemma run_inv c ops : forall h, Inv c h -> fits c ops -> undisturbed c h ops -> Inv c (final c h ops).
Proof.
  induction ops as [|o ops IH]; intros h I F U; [exact I|]. rewrite final_cons. apply fits_cons in F as [F1 F2]. destruct U as [U1 U2]. apply IH; auto. apply step_inv; auto.
Qed.

(** * A button that is let go *)
Definition rank (p : pos) : nat := match p with P70 => 0 | P106 => 1 | P87 => 2 | P90 => 3 | P93 => 4 | P96 => 5 end.
Lemma bloop_rank c e k b co b' co' o : bloop c e k false b co = (b', co', o) -> (rank (at_ b') <= rank (at_ b) - 1)%nat.
Proof.
  unfold bloop. cbn [andb].
  destruct (at_ b) eqn:A; intros H.
  - destruct (saved_ b && _); [destruct (hsend c e co k KSaved (presses b)) as [[]]|]; inversion H; subst; cbn; rewrite ?A; cbn; lia.
  - inversion H; subst; cbn; lia.
  - inversion H; subst; cbn; lia.
  - inversion H; subst; cbn; lia.
  - inversion H; subst; cbn; lia.
  - destruct (hsend c e co k KReleased (presses b)) as [[r1 co1] o1]. destruct (has (cmods co1) k).
    + destruct (since (now e) (push b) <? 500).
      * destruct (hsend _ _ _ _ _ _) as [[]]. inversion H; subst; cbn; lia.
      * destruct (since (now e) (push b) <? 2500); [destruct (hsend _ _ _ _ _ _) as [[]]|]; inversion H; subst; cbn; lia.
    + inversion H; subst; cbn; lia.
Qed.
Lemma step_other c h o k : (forall d e, o <> Read k d e) -> button_of (fst (hilt_step c h o)) k = button_of h k.
Proof.
  intros N. destruct o as [j d e|stab e|e| |]; cbn [hilt_step].
  - destruct (bloop c e j d (button_of h j) (cor h)) as [[b co] o]. cbn [fst]. apply with_other. intros ->. apply (N d e eq_refl).
  - destruct (clash2 c e (cor h) stab). destruct k; reflexivity.
  - destruct (event c e (cor h) None ETWIST) as [[]]. destruct k; reflexivity.
  - destruct (pending (sab (cor h))); destruct k; reflexivity.
  - destruct (off (sab (cor h))). destruct k; reflexivity.
Qed.
Lemma untouched_cons k o ops : untouched k (o :: ops) -> (forall e, o <> Read k true e) /\ untouched k ops.
Proof. intros H. split; [intros e ->; apply (H e); left; reflexivity|intros e IN; apply (H e); right; exact IN]. Qed.
Lemma releases_cons k o ops : releases k (o :: ops) = ((match o with Read j false _ => if btn_dec j k then 1 else 0 | _ => 0 end) + releases k ops)%nat.
Proof. destruct o as [j [] e|stab e|e| |]; try reflexivity. cbn [releases]. destruct (btn_dec j k) as [-> |N]; [destruct k; reflexivity|destruct k, j; try congruence; reflexivity]. Qed.
Lemma run_rank c k ops : forall h, untouched k ops -> (rank (at_ (button_of (final c h ops) k)) <= rank (at_ (button_of h k)) - releases k ops)%nat.
Proof.
  induction ops as [|o ops IH]; intros h U; [cbn; lia|]. rewrite final_cons, releases_cons. apply untouched_cons in U as [U1 U2]. specialize (IH (fst (hilt_step c h o)) U2).
  assert (ST : (rank (at_ (button_of (fst (hilt_step c h o)) k)) <= rank (at_ (button_of h k)) - match o with Read j false _ => if btn_dec j k then 1 else 0 | _ => 0 end)%nat).
  { destruct o as [j d e|stab e|e| |]; try (rewrite step_other by discriminate; lia). destruct (btn_dec j k) as [-> |N].
    - destruct d; [exfalso; apply (U1 e); reflexivity|]. cbn [hilt_step]. destruct (bloop c e k false (button_of h k) (cor h)) as [[b co] o] eqn:E. cbn [fst].
      rewrite with_same. apply bloop_rank in E. lia.
    - rewrite step_other by congruence. destruct d; lia. }
  lia.
Qed.
Lemma rank5 p : (rank p <= 5)%nat. Proof. destruct p; cbn; lia. Qed.
Lemma let_go c k ops h : untouched k ops -> (5 <= releases k ops)%nat -> at_ (button_of (final c h ops) k) = P70.
Proof.
  intros U R. pose proof (run_rank c k ops h U) as H. pose proof (rank5 (at_ (button_of h k))). destruct (at_ (button_of (final c h ops) k)); cbn in H; lia || reflexivity.
Qed.
Lemma let_go_lock c ops h : Inv c (final c h ops) -> (forall k, k = PWR \/ k = AX -> untouched k ops /\ (5 <= releases k ops)%nat) -> lockup (sab (cor (final c h ops))) = None.
Proof.
  intros I L. destruct (lockup (sab (cor (final c h ops)))) eqn:E; [|reflexivity]. exfalso.
  destruct (i_held _ _ I ltac:(congruence)) as [D|D]; unfold is_down in D.
  - change (bp (final c h ops)) with (button_of (final c h ops) PWR) in D. rewrite let_go in D by (apply L; auto). discriminate.
  - change (ba (final c h ops)) with (button_of (final c h ops) AX) in D. rewrite let_go in D by (apply L; auto). discriminate.
Qed.
Lemma inv_mods_up c h : Inv c h -> (forall k, at_ (button_of h k) = P70) -> cmods (cor h) = Mods false false false.
Proof.
  intros I U. pose proof (i_mods _ _ I) as M. destruct (cmods (cor h)) as [x y z].
  pose proof (M PWR) as M1. pose proof (M AX) as M2. pose proof (M AX2) as M3. unfold is_down in *. rewrite U in *. cbn in *.
  destruct x, y, z; intuition discriminate.
Qed.

(** * Phases: which buttons are down, since when, with which number *)
Inductive slot := Up (last : option (Z * count)) | Down (t : Z) (n : count).
Definition desc := btn -> slot.
Definition set (ds : desc) (k : btn) (v : slot) : desc := fun j => if btn_dec j k then v else ds j.
Lemma set_same ds k v : set ds k v k = v. Proof. unfold set. destruct (btn_dec k k); congruence. Qed.
Lemma set_other ds k v j : j <> k -> set ds k v j = ds j. Proof. unfold set. destruct (btn_dec j k); congruence. Qed.
Definition matches (b : bstate) (v : slot) : Prop :=
  match v with
  | Up l => at_ b = P70 /\ match l with Some (t, n) => push b = t /\ presses b = n | None => True end
  | Down t n => at_ b <> P70 /\ push b = t /\ presses b = n
  end.
Definition is_up (v : slot) : Prop := match v with Up _ => True | Down _ _ => False end.
Definition phase (s : saber) (m : mods) (ds : desc) (h : hilt) : Prop :=
  sab (cor h) = s /\ cmods (cor h) = m /\ forall k, matches (button_of h k) (ds k).

Lemma phase_with s m ds h k co b s' m' v : phase s m ds h -> sab co = s' -> cmods co = m' -> matches b v -> phase s' m' (set ds k v) (with_button h k co b).
Proof.
  intros (_ & _ & B) S M X. split; [rewrite with_core; exact S|]. split; [rewrite with_core; exact M|]. intros j. destruct (btn_dec j k) as [-> |N].
  - rewrite with_same, set_same. exact X.
  - rewrite with_other, set_other by exact N. apply B.
Qed.
Lemma phase_ext s m ds ds' h : phase s m ds h -> (forall k, ds k = ds' k) -> phase s m ds' h.
Proof. intros (A & B & C) E. split; [exact A|]. split; [exact B|]. intros k. rewrite <- E. apply C. Qed.
(** A read that tells nothing new. *)
Lemma quiet_read c s m ds h k d e : phase s m ds h -> colors s = false ->
  (is_up (ds k) /\ d = false) \/ (~ is_up (ds k) /\ (d = true \/ at_ (button_of h k) <> P106)) ->
  phase s m ds (fst (hilt_step c h (Read k d e))) /\ snd (hilt_step c h (Read k d e)) = [].
Proof.
  intros P C H. pose proof P as (S & M & B). specialize (B k). cbn [hilt_step]. unfold bloop.
  rewrite (hsend_held c e (cor h) k KHeld), (hsend_held c e (cor h) k KHeldMedium), (hsend_held c e (cor h) k KHeldLong) by (cbn; tauto).
  rewrite (hsend_quiet c e (cor h) k KSaved) by (cbn; rewrite ?S; tauto).
  set (b := button_of h k) in *.
  assert (K : forall b', matches b' (ds k) -> phase s m ds (with_button h k (cor h) b')).
  { intros b' X. apply (phase_ext _ _ (set ds k (ds k))); [apply (phase_with s m ds); auto|]. intros j. unfold set. destruct (btn_dec j k) as [-> |]; reflexivity. }
  destruct (ds k) as [l|t n] eqn:D; cbn [matches is_up] in *; [|clear D].
  2: destruct B as (B1 & B2 & B3); destruct H as [[[] _]|[_ H]].
  2: assert (G : forall p, p <> P70 -> matches (B p (push b) (presses b) (saved_ b)) (Down t n)) by (intros p X; repeat split; auto).
  2: { destruct (at_ b) eqn:A; [congruence| | | | |].
    + destruct (d && _); [destruct (_ >? _)|]; cbn [fst snd]; split; try reflexivity; apply K, G; discriminate.
    + destruct (d && _); [destruct (_ >? _)|]; cbn [fst snd]; split; try reflexivity; apply K, G; discriminate.
    + destruct (d && _); [destruct (_ >? _)|]; cbn [fst snd]; split; try reflexivity; apply K, G; discriminate.
    + destruct (d && _); cbn [fst snd]; split; try reflexivity; apply K, G; discriminate.
    + destruct H as [-> |H]; [|congruence]. cbn [fst snd]; split; try reflexivity; apply K, G; discriminate. }
  destruct H as [[_ ->]|[H _]]; [|tauto]. destruct B as [B1 B2]. rewrite B1. destruct (saved_ b && _); cbn [fst snd]; split; try reflexivity; apply K; (split; [assumption || reflexivity|exact B2]).
Qed.
(** Reads while nothing changes. *)
Definition steady (ds : desc) (o : op) : Prop := match o with Read j d _ => d = (match ds j with Down _ _ => true | Up _ => false end) | _ => False end.
Lemma run_steady c s m ds ops : colors s = false -> Forall (steady ds) ops -> forall h, phase s m ds h -> phase s m ds (final c h ops) /\ acts c h ops = [].
Proof.
  intros C F. induction F as [|o ops F1 F2 IH]; intros h P; [split; [exact P|reflexivity]|]. destruct o as [j d e|stab e|e| |]; try contradiction. cbn [steady] in F1.
  destruct (quiet_read c s m ds h j d e P C) as [P1 A1].
  { subst d. destruct (ds j) eqn:D; cbn; auto. }
  destruct (IH _ P1) as [P2 A2]. rewrite final_cons, acts_cons, A1, A2. split; [exact P2|reflexivity].
Qed.
(** Reads while [k] is let go. *)
Lemma run_release c s m ds k t n w (s' : env -> saber) (m' : env -> mods) (out : env -> list act) (ok : env -> Prop) :
  colors s = false -> ds k = Down t n ->
  (forall e, ok e -> colors (s' e) = false) ->
  (forall e h, ok e -> phase s m ds h -> at_ (button_of h k) = P106 ->
     phase (s' e) (m' e) (set ds k (Up w)) (fst (hilt_step c h (Read k false e))) /\ snd (hilt_step c h (Read k false e)) = out e) ->
  forall ops, Forall (fun o => match o with Read j d e => (j = k /\ d = false /\ ok e) \/ (j <> k /\ steady ds o) | _ => False end) ops ->
  forall h, phase s m ds h -> (rank (at_ (button_of h k)) <= releases k ops)%nat ->
  exists e, ok e /\ phase (s' e) (m' e) (set ds k (Up w)) (final c h ops) /\ acts c h ops = out e.
Proof.
  intros C D CS ST ops F. induction F as [|o ops F1 F2 IH]; intros h P R.
  - exfalso. pose proof P as (_ & _ & B). specialize (B k). rewrite D in B. destruct B as [B _]. destruct (at_ (button_of h k)); cbn in R; congruence || lia.
  - destruct o as [j d e|stab e|e| |]; try contradiction. rewrite final_cons, acts_cons.
    destruct F1 as [(-> & -> & OK)|(N & SD)].
    + rewrite releases_cons in R. destruct (btn_dec k k) as [_|]; [|congruence].
      destruct (Nat.eq_dec (rank (at_ (button_of h k))) 1) as [R1|R1].
      * assert (A : at_ (button_of h k) = P106) by (destruct (at_ (button_of h k)); cbn in R1; congruence).
        destruct (ST e h OK P A) as [P1 A1].
        destruct (run_steady c (s' e) (m' e) (set ds k (Up w)) ops (CS e OK)) with (h := fst (hilt_step c h (Read k false e))) as [P2 A2]; [|exact P1|].
        { clear - F2. revert F2. apply Forall_impl. intros o. destruct o as [j d e'|stab e'|e'| |]; try tauto. intros [(-> & -> & _)|(N & SD)]; cbn [steady] in *; [rewrite set_same; reflexivity|rewrite set_other by exact N; exact SD]. }
        exists e. split; [exact OK|]. split; [exact P2|]. rewrite A1, A2, app_nil_r. reflexivity.
      * pose proof P as (_ & _ & B). specialize (B k). rewrite D in B. destruct B as [B _].
        assert (A : at_ (button_of h k) <> P106) by (intros A; rewrite A in R1; cbn in R1; congruence).
        destruct (quiet_read c s m ds h k false e P C ltac:(right; split; [rewrite D; cbn; tauto|right; exact A])) as [P1 A1].
        destruct (IH _ P1) as (e' & OK' & P2 & A2).
        { cbn [hilt_step]. destruct (bloop c e k false (button_of h k) (cor h)) as [[b co] o] eqn:E. cbn [fst]. rewrite with_same. apply bloop_rank in E.
          destruct (at_ (button_of h k)); cbn in *; congruence || lia. }
        exists e'. rewrite A1, A2. auto.
    + destruct (quiet_read c s m ds h j d e P C) as [P1 A1].
      { cbn [steady] in SD. subst d. destruct (ds j) eqn:E; cbn; auto. }
      rewrite releases_cons in R. replace (if btn_dec j k then 1%nat else 0%nat) with 0%nat in R by (destruct (btn_dec j k); congruence).
      destruct (IH _ P1) as (e' & OK' & P2 & A2).
      { rewrite step_other by congruence. destruct d; cbn in R; exact R. }
      exists e'. rewrite A1, A2. auto.
Qed.

(** * The events of a button without DUAL_POWER_BUTTONS and outside the menu *)
Lemma switch_any_no c e s b ev isOn : ev <> EB KReleased Plain -> switch c e s b ev AnyButton isOn = (false, s, []).
Proof.
  intros N. destruct (switch c e s b ev AnyButton isOn) as [[r s'] o] eqn:E. destruct r.
  - apply switch_any in E as (_ & _ & _ & _ & X & _); [congruence|reflexivity].
  - apply switch_false in E as [-> ->]. reflexivity.
Qed.
Definition handled (r : bool * saber * list act) (m : mods) (otherwise : bool * core * list act) : bool * core * list act :=
  let '(r, s, o) := r in if r then (true, Core s nomods, o) else otherwise.
Lemma event_eq c e s m b ev : dual c = false -> colors s = false -> ev <> EB KReleased Plain ->
  event c e (Core s m) b ev = handled (switch c e s b ev (These m) (IsOn s)) m (false, Core s m, []).
Proof.
  intros D C N. unfold event, event2, handled. cbn [sab cmods]. rewrite C, D. cbn [andb].
  destruct (switch c e s b ev (These m) (IsOn s)) as [[r s'] o] eqn:E. destruct r; [reflexivity|].
  apply switch_false in E as [-> ->]. rewrite C, switch_any_no by exact N. reflexivity.
Qed.
Lemma hsend_eq c e s m k ev n : dual c = false -> colors s = false -> ev <> KReleased ->
  hsend c e (Core s m) k ev n = handled (switch c e s (Some k) (EB ev n) (These m) (IsOn s)) m
    (handled (switch c e s (Some k) (EB ev Plain) (These m) (IsOn s)) m (false, Core s m, [])).
Proof.
  intros D C N. unfold hsend. rewrite event_eq by congruence.
  destruct (switch c e s (Some k) (EB ev n) (These m) (IsOn s)) as [[r s'] o]. destruct r; [reflexivity|].
  unfold handled. rewrite event_eq by congruence. unfold handled. destruct (switch c e s (Some k) (EB ev Plain) (These m) (IsOn s)) as [[r2 s2] o2]. destruct r2; reflexivity.
Qed.
Lemma released_quiet c e s m k n : lockup s = None -> colors s = false -> dual c = false -> hsend c e (Core s m) k KReleased n = (false, Core s m, []).
Proof.
  intros L C D. unfold hsend, event, event2. cbn [sab cmods]. rewrite C, D. cbn [andb].
  assert (Q : forall n x, switch c e s (Some k) (EB KReleased n) x (IsOn s) = (false, s, [])).
  { intros n0 x. unfold switch. rewrite L. destruct k, n0; cbn; destruct (any x && IsOn s); reflexivity. }
  repeat (first [rewrite C|rewrite Q]; cbn [sab cmods]). reflexivity.
Qed.
Lemma released_ends c e s m k n l : lockup s = Some l -> IsOn s = true -> colors s = false -> dual c = false -> k <> AX2 ->
  hsend c e (Core s m) k KReleased n = (true, Core (set_lockup s None) (put m k false), [AEndLock]).
Proof.
  intros L I C D K. unfold hsend, event, event2. cbn [sab cmods]. rewrite C, D. cbn [andb].
  assert (Q : forall x, switch c e s (Some k) (EB KReleased Plain) x (IsOn s) = if any x then (true, set_lockup s None, [AEndLock]) else (false, s, [])).
  { intros x. unfold switch. rewrite L, I. destruct k; [| |congruence]; cbn; destruct (any x); reflexivity. }
  assert (N : {n = Plain} + {n <> Plain}) by (destruct n; auto; right; discriminate). destruct N as [-> |N].
  - repeat (first [rewrite C|rewrite Q]; cbn [sab cmods any]). reflexivity.
  - repeat (first [rewrite C|rewrite Q|rewrite switch_counted by exact N]; cbn [sab cmods any]). reflexivity.
Qed.

(** * Presses and releases in a phase *)
Lemma press_step c s m ds h k e n r s1 m1 o : phase s m ds h -> is_up (ds k) -> n = press_number (button_of h k) (now e) ->
  hsend c e (Core s m) k KPressed n = (r, Core s1 m1, o) ->
  phase s1 (put m1 k true) (set ds k (Down (now e) n)) (fst (hilt_step c h (Read k true e))) /\ snd (hilt_step c h (Read k true e)) = o.
Proof.
  intros P D N H. pose proof P as (S & M & B). specialize (B k). destruct (ds k) as [l|]; [|destruct D]. destruct B as [B _]. cbn [hilt_step]. unfold bloop. rewrite B.
  assert (N' : (if since (now e) (push (button_of h k)) <? 500 then bump (presses (button_of h k)) else First) = n).
  { rewrite N. unfold press_number. rewrite ago_since. destruct (presses (button_of h k)); reflexivity. }
  rewrite N'. replace (cor h) with (Core s m) by (destruct h as [[]]; cbn in *; congruence). rewrite H. cbn [fst snd sab cmods].
  split; [|reflexivity]. apply (phase_with s m ds); auto. repeat split; discriminate.
Qed.
Lemma release_step c s m ds h k e t n r1 s1 m1 o1 : phase s m ds h -> ds k = Down t n -> at_ (button_of h k) = P106 ->
  hsend c e (Core s m) k KReleased n = (r1, Core s1 m1, o1) ->
  let h' := fst (hilt_step c h (Read k false e)) in let o := snd (hilt_step c h (Read k false e)) in
  if has m1 k then
    let co := Core s1 (put m1 k false) in
    let '(_, co', o2) := if ago (now e) t <? 500 then hsend c e co k KShort n else if ago (now e) t <? 2500 then hsend c e co k KLong n else (false, co, []) in
    phase (sab co') (cmods co') (set ds k (Up (Some (t, n)))) h' /\ o = o1 ++ o2
  else phase s1 m1 (set ds k (Up None)) h' /\ o = o1.
Proof.
  intros P D A H. pose proof P as (S & M & B). specialize (B k). rewrite D in B. destruct B as (_ & B1 & B2). cbn [hilt_step]. unfold bloop. rewrite A.
  replace (cor h) with (Core s m) by (destruct h as [[]]; cbn in *; congruence). rewrite B2, H. cbn [sab cmods]. rewrite B1. change (since (now e) t) with (ago (now e) t).
  destruct (has m1 k).
  - destruct (ago (now e) t <? 500); [|destruct (ago (now e) t <? 2500)].
    + destruct (hsend c e (Core s1 (put m1 k false)) k KShort n) as [[r2 co2] o2]. cbn [fst snd]. split; [|reflexivity]. apply (phase_with s m ds); auto. split; auto.
    + destruct (hsend c e (Core s1 (put m1 k false)) k KLong n) as [[r2 co2] o2]. cbn [fst snd]. split; [|reflexivity]. apply (phase_with s m ds); auto. split; auto.
    + cbn [fst snd sab cmods]. rewrite app_nil_r. split; [|reflexivity]. apply (phase_with s m ds); auto. split; auto.
  - cbn [fst snd]. split; [|reflexivity]. apply (phase_with s m ds); auto. split; auto.
Qed.

(** * The table *)
Definition alike (s s1 : saber) : Prop :=
  lit s1 = lit s /\ pending s1 = pending s /\ lockup s1 = lockup s /\ colors s1 = colors s.
Lemma alike_refl s : alike s s. Proof. repeat split. Qed.
Lemma press_table c e s k n : dual c = false -> colors s = false -> quiet_mute s -> n <> Plain ->
  exists r s1 o, hsend c e (Core s nomods) k KPressed n = (r, Core s1 nomods, o) /\ visible o = at_press s k n (now e) /\ alike s s1 /\ quiet_mute s1 /\
    power_of s1 = fold_left power (visible o) (power_of s) /\ (n = First -> muted s1 = muted s) /\ (k <> AX2 -> on_or_pending s = true -> n = First -> pointing_down s1 = down e).
Proof.
  intros D C Q N. rewrite hsend_eq by (assumption || discriminate). change (IsOn s) with (on_or_pending s).
  unfold at_press, power_of. change (ago (now e) (activated s)) with (since (now e) (activated s)).
  destruct (on_or_pending s) eqn:I; (destruct k; (destruct n; [congruence| | | |]); cbn [switch only put mp ma m2 nomods Bool.eqb andb handled done fst snd negb];
   try (destruct (since (now e) (activated s) <? 500); unfold mute; rewrite ?andb_true_r, ?andb_false_r; try (destruct (muted s) eqn:MU); cbn [done handled fst snd negb andb]);
   try (destruct (pending s) eqn:PE; [unfold on_or_pending in I; rewrite PE, orb_true_r in I; discriminate|cbn [handled]]);
   do 3 eexists; (split; [reflexivity|]); cbn [visible filter]; (split; [reflexivity|]); (split; [repeat split; assumption || reflexivity|]);
   (split; [unfold quiet_mute in *; cbn; congruence|]); (split; [cbn; congruence|]); split; cbn; congruence).
Qed.
Lemma release_table c e s k n l : dual c = false -> colors s = false -> lockup s = None -> quiet_mute s -> n <> Plain -> agrees e = true -> l <> Forever ->
  exists r s2 o, hsend c e (Core s nomods) k (match l with Short => KShort | _ => KLong end) n = (r, Core s2 nomods, o) /\ visible o = at_release s k n l /\
    colors s2 = false /\ lockup s2 = None /\ quiet_mute s2 /\ (on_or_pending s = false -> k = PWR -> l = Short -> activated s2 = now e) /\
    power_of s2 = fold_left power (visible o) (power_of s).
Proof.
  intros D C L Q N A NF. rewrite hsend_eq by (assumption || (destruct l; discriminate)). change (IsOn s) with (on_or_pending s).
  unfold at_release, power_of. unfold quiet_mute in Q.
  destruct l; [| |congruence]; (destruct (on_or_pending s) eqn:I; (destruct k; (destruct n; [congruence| | | |]);
   cbn [switch only put mp ma m2 nomods Bool.eqb andb handled done fst snd negb]; rewrite ?D, ?C; cbn [done handled fst snd];
   try (unfold on; rewrite A; cbn [set_aux_on lit pending lockup muted unmute activated colors pointing_down aux_on done handled fst snd]);
   try (unfold off, on_or_pending in *; rewrite L, <- ?Q; destruct (pending s) eqn:PE; [|rewrite orb_false_r in I; rewrite I; destruct (muted s) eqn:MU]; cbn [negb app andb done handled fst snd]);
   do 3 eexists; (split; [reflexivity|]); cbn [visible filter]; (split; [reflexivity|]);
   (split; [exact C|]); (split; [assumption || reflexivity|]); (split; [unfold quiet_mute; cbn; congruence|]); (split; [cbn; congruence|]); cbn; congruence)).
Qed.
Lemma at_release_alike s s1 k n l : alike s s1 -> (n = First -> muted s1 = muted s) -> at_release s1 k n l = at_release s k n l.
Proof.
  intros (A & B & _ & _) M. unfold at_release, on_or_pending. rewrite A, B. destruct k, l, (lit s || pending s); try reflexivity. destruct n; try reflexivity. rewrite M by reflexivity. reflexivity.
Qed.
Lemma press_number_counts b t : press_number b t <> Plain.
Proof. unfold press_number. destruct (ago t (push b) <? 500); [destruct (presses b)|]; discriminate. Qed.
Definition all_up : desc := fun _ => Up None.
Lemma up_steady (ds : desc) j : is_up (ds j) -> match ds j with Down _ _ => true | Up _ => false end = false.
Proof. destruct (ds j); [reflexivity|intros []]. Qed.
Lemma holding_steady k ok ds t n ops : (forall j, is_up (ds j)) -> holding k ok ops -> Forall (steady (set ds k (Down t n))) ops.
Proof.
  intros U. apply Forall_impl. intros o. destruct o as [j d e|stab e|e| |]; try tauto. cbn [steady]. intros [(-> & -> & _)|(N & ->)]; [rewrite set_same; reflexivity|rewrite set_other, up_steady by auto; reflexivity].
Qed.
Lemma letting_go_release k ok ds t n ops : (forall j, is_up (ds j)) -> letting_go k ok ops ->
  Forall (fun o => match o with Read j d e => (j = k /\ d = false /\ ok e) \/ (j <> k /\ steady (set ds k (Down t n)) o) | _ => False end) ops /\ (5 <= releases k ops)%nat.
Proof.
  intros U [F R]. split; [|exact R]. revert F. apply Forall_impl. intros o. destruct o as [j d e|stab e|e| |]; try tauto. intros [-> OK]. destruct (btn_dec j k) as [-> |N]; [left; auto|right].
  split; [exact N|]. cbn [steady]. rewrite set_other, up_steady by auto. reflexivity.
Qed.
Lemma no_app_visible (a : list act) : visible (a ++ []) = visible a. Proof. rewrite app_nil_r. reflexivity. Qed.

(** Only [k] is pressed and let go. *)
Lemma click_run c s ds h k l e0 mid rel (more : env -> Prop) : dual c = false -> phase s nomods ds h -> (forall j, is_up (ds j)) -> colors s = false -> lockup s = None -> quiet_mute s ->
  holding k (fun _ => True) mid -> letting_go k (fun e => lasts l (now e) (now e0) /\ agrees e = true /\ more e) rel ->
  let n := press_number (button_of h k) (now e0) in let ops := Read k true e0 :: mid ++ rel in
  visible (acts c h ops) = at_press s k n (now e0) ++ at_release s k n l /\
  exists s' e, more e /\ phase s' nomods (set ds k (Up (Some (now e0, n)))) (final c h ops) /\ colors s' = false /\ lockup s' = None /\ quiet_mute s' /\
    (on_or_pending s = false -> k = PWR -> l = Short -> activated s' = now e) /\
    power_of s' = fold_left power (visible (acts c h ops)) (power_of s).
Proof.
  intros D P U C L Q HM HR n ops.
  destruct (press_table c e0 s k n D C Q (press_number_counts _ _)) as (r0 & s1 & o1 & E1 & V1 & AL & Q1 & PW1 & MU & _).
  destruct (press_step c s nomods ds h k e0 n r0 s1 nomods o1 P (U k) eq_refl E1) as [P1 A1].
  destruct AL as (AL1 & AL2 & AL3 & AL4).
  assert (C1 : colors s1 = false) by congruence. assert (L1 : lockup s1 = None) by congruence.
  assert (OP : on_or_pending s1 = on_or_pending s) by (unfold on_or_pending; congruence).
  destruct (run_steady c s1 (put nomods k true) (set ds k (Down (now e0) n)) mid C1 (holding_steady k _ ds _ _ mid U HM) _ P1) as [P2 A2].
  destruct (letting_go_release k _ ds (now e0) n rel U HR) as [F R].
  set (res := fun e => match l with Forever => (false, Core s1 nomods, []) | _ => hsend c e (Core s1 nomods) k (match l with Short => KShort | _ => KLong end) n end).
  assert (T : forall e, lasts l (now e) (now e0) /\ agrees e = true /\ more e ->
    exists s2 o2, (exists r, res e = (r, Core s2 nomods, o2)) /\ visible o2 = at_release s k n l /\ colors s2 = false /\ lockup s2 = None /\ quiet_mute s2 /\
      (on_or_pending s = false -> k = PWR -> l = Short -> activated s2 = now e) /\ power_of s2 = fold_left power (visible o2) (power_of s1)).
  { intros e (_ & A & _). unfold res. rewrite <- (at_release_alike s s1 k n l) by (repeat split; assumption || auto). rewrite <- OP.
    assert (LF : l = Forever \/ l <> Forever) by (destruct l; auto; right; discriminate). destruct LF as [-> |LF].
    - exists s1, []. split; [exists false; reflexivity|]. split; [unfold at_release; destruct k, (on_or_pending s1); reflexivity|]. split; [exact C1|]. split; [exact L1|]. split; [exact Q1|]. split; [discriminate|reflexivity].
    - destruct (release_table c e s1 k n l D C1 L1 Q1 (press_number_counts _ _) A LF) as (r & s2 & o2 & E & V & X). exists s2, o2. split; [exists r; destruct l; [exact E|exact E|congruence]|]. auto. }
  destruct (run_release c s1 (put nomods k true) (set ds k (Down (now e0) n)) k (now e0) n (Some (now e0, n)) (fun e => sab (snd (fst (res e)))) (fun e => cmods (snd (fst (res e)))) (fun e => snd (res e))
     (fun e => lasts l (now e) (now e0) /\ agrees e = true /\ more e)) with (ops := rel) (h := final c (fst (hilt_step c h (Read k true e0))) mid) as (e & OK & P3 & A3); auto.
  - apply set_same.
  - intros e OK. destruct (T e OK) as (s2 & o2 & [r E] & _ & X & _). rewrite E. exact X.
  - intros e h' [OK A] P' AT.
    assert (RL : hsend c e (Core s1 (put nomods k true)) k KReleased n = (false, Core s1 (put nomods k true), [])) by (apply released_quiet; assumption).
    pose proof (release_step c s1 (put nomods k true) _ h' k e (now e0) n _ _ _ _ P' (set_same _ _ _) AT RL) as RS. cbv zeta in RS. rewrite has_put in RS.
    replace (put (put nomods k true) k false) with nomods in RS by (destruct k; reflexivity).
    assert (RE : (if ago (now e) (now e0) <? 500 then hsend c e (Core s1 nomods) k KShort n else if ago (now e) (now e0) <? 2500 then hsend c e (Core s1 nomods) k KLong n else (false, Core s1 nomods, [])) = res e).
    { unfold res. destruct l; cbn [lasts] in OK.
      - replace (ago (now e) (now e0) <? 500) with true by (clear - OK; lia). reflexivity.
      - replace (ago (now e) (now e0) <? 500) with false by (clear - OK; lia). replace (ago (now e) (now e0) <? 2500) with true by (clear - OK; lia). reflexivity.
      - replace (ago (now e) (now e0) <? 500) with false by (clear - OK; lia). replace (ago (now e) (now e0) <? 2500) with false by (clear - OK; lia). reflexivity. }
    rewrite RE in RS. destruct (res e) as [[r co'] o2]. cbn [fst snd]. exact RS.
  - eapply Nat.le_trans; [apply rank5|eassumption].
  - destruct (T e OK) as (s2 & o2 & [r E] & V & X & Y & W & AV & Z). rewrite E in P3, A3. cbn [fst snd sab cmods] in P3, A3.
    assert (AC : acts c h ops = o1 ++ o2).
    { unfold ops. rewrite acts_cons, acts_app, A1, A2, A3. reflexivity. }
    rewrite AC, visible_app, V1, V. split; [reflexivity|]. exists s2, e. split; [apply OK|]. split.
    + unfold ops. rewrite final_cons, final_app. apply (phase_ext _ _ (set (set ds k (Down (now e0) n)) k (Up (Some (now e0, n))))); [exact P3|]. intros j. unfold set. destruct (btn_dec j k); reflexivity.
    + split; [exact X|]. split; [exact Y|]. split; [exact W|]. split; [exact AV|]. rewrite <- V1, <- V, fold_left_app, <- PW1. exact Z.
Qed.

(** * Double click *)
Lemma turn_step c s m ds h : phase s m ds h ->
  phase (if pending s then Saber true false (lockup s) (muted s) (unmute s) (activated s) (colors s) (pointing_down s) (aux_on s) else s) m ds (fst (hilt_step c h TurnOn)) /\
  snd (hilt_step c h TurnOn) = [].
Proof.
  intros (S & M & B). cbn [hilt_step]. rewrite S. destruct (pending s); cbn [fst snd]; (split; [|reflexivity]); (split; [reflexivity || exact S|]); (split; [exact M|]); intros k; specialize (B k); destruct k; exact B.
Qed.
Lemma double_run c s ds h e0 mid rel turn e2 mid2 rel2 l : dual c = false -> phase s nomods ds h -> (forall j, is_up (ds j)) -> colors s = false -> lockup s = None -> quiet_mute s ->
  power_of s = (false, false, false) -> press_number (bp h) (now e0) = First ->
  holding PWR (fun _ => True) mid -> letting_go PWR (fun e => lasts Short (now e) (now e0) /\ agrees e = true /\ ago (now e2) (now e) < 500) rel ->
  turn = [] \/ turn = [TurnOn] -> ago (now e2) (now e0) < 500 ->
  holding PWR (fun _ => True) mid2 -> letting_go PWR (fun e => lasts l (now e) (now e2) /\ agrees e = true) rel2 -> l <> Long ->
  let ops := (Read PWR true e0 :: mid ++ rel) ++ turn ++ (Read PWR true e2 :: mid2 ++ rel2) in
  visible (acts c h ops) = [AIgnite; AMute] /\
  power_of (sab (cor (final c h ops))) = (match turn with [] => false | _ => true end, match turn with [] => true | _ => false end, true).
Proof.
  intros D P U C L Q PW N HM HR TU AG HM2 HR2 NL ops.
  assert (IO : on_or_pending s = false /\ muted s = false) by (unfold power_of, on_or_pending in *; injection PW as X Y Z; rewrite X, Y, Z; auto). destruct IO as [IO MU].
  destruct (click_run c s ds h PWR Short e0 mid rel (fun e => ago (now e2) (now e) < 500) D P U C L Q HM) as (V1 & s1 & e & ME & P1 & C1 & L1 & Q1 & AC & PW1).
  { destruct HR as [F R]. split; [|exact R]. revert F. apply Forall_impl. intros [j d e|stab e|e| |]; tauto. }
  cbv zeta in *. change (button_of h PWR) with (bp h) in *. rewrite N in *. unfold at_press, at_release in V1. rewrite IO in V1. cbn [app] in V1. rewrite V1, PW in PW1. cbn [fold_left power] in PW1.
  specialize (AC IO eq_refl eq_refl).
  set (h1 := final c h (Read PWR true e0 :: mid ++ rel)) in *.
  assert (T : exists s2, phase s2 nomods (set ds PWR (Up (Some (now e0, First)))) (final c h1 turn) /\ acts c h1 turn = [] /\ colors s2 = false /\ lockup s2 = None /\ quiet_mute s2 /\ activated s2 = now e /\
      power_of s2 = (match turn with [] => false | _ => true end, match turn with [] => true | _ => false end, false)).
  { destruct TU as [-> | ->]; [exists s1; split; [exact P1|]; split; [reflexivity|]; auto|].
    destruct (turn_step c s1 nomods _ h1 P1) as [P2 A2]. unfold power_of in PW1. injection PW1 as X Y Z. rewrite Y in P2. eexists. split; [exact P2|].
    split; [rewrite acts_cons, A2; reflexivity|]. unfold power_of, quiet_mute in *. cbn. rewrite Z. rewrite Z in Q1. auto 6. }
  destruct T as (s2 & P2 & A2 & C2 & L2 & Q2 & AC2 & PW2).
  destruct (click_run c s2 _ (final c h1 turn) PWR l e2 mid2 rel2 (fun _ => True) D P2) as (V3 & s3 & _ & _ & P3 & _ & _ & _ & _ & PW3); auto.
  { intros j. unfold set. destruct (btn_dec j PWR); [exact I|apply U]. }
  { destruct HR2 as [F R]. split; [|exact R]. revert F. apply Forall_impl. intros [j d e'|stab e'|e'| |]; tauto. }
  cbv zeta in *.
  assert (N2 : press_number (button_of (final c h1 turn) PWR) (now e2) = Second).
  { destruct P2 as (_ & _ & B). specialize (B PWR). rewrite set_same in B. destruct B as (_ & B1 & B2). unfold press_number. rewrite B1, B2. replace (ago (now e2) (now e0) <? 500) with true by lia. reflexivity. }
  assert (IO2 : on_or_pending s2 = true) by (unfold on_or_pending, power_of in *; injection PW2 as X Y Z; rewrite X, Y; destruct turn; reflexivity).
  assert (MU2 : muted s2 = false) by (unfold power_of in PW2; congruence).
  rewrite N2 in V3. unfold at_press, at_release in V3. rewrite IO2, MU2, AC2 in V3. replace (ago (now e2) (now e) <? 500) with true in V3 by lia.
  assert (V4 : visible (acts c (final c h1 turn) (Read PWR true e2 :: mid2 ++ rel2)) = [AMute]) by (rewrite V3; destruct l; [reflexivity|congruence|reflexivity]).
  rewrite V4, PW2 in PW3. cbn [fold_left power] in PW3.
  unfold ops. rewrite !acts_app, !final_app, !visible_app. fold h1. rewrite V1, A2, V4. split; [reflexivity|].
  destruct P3 as (S3 & _). rewrite S3. exact PW3.
Qed.

(** * Hits while a button is held *)
Lemma hit_event c e s k (stab : bool) ev : dual c = false -> colors s = false -> lockup s = None -> k <> AX2 -> ev = (if stab then ESTAB else ECLASH) ->
  event c e (Core s (put nomods k true)) None ev =
    if on_or_pending s then (true, Core (set_lockup s (Some (hit_lockup stab (pointing_down s)))) nomods, [ALock (hit_lockup stab (pointing_down s))])
    else if negb stab && just PWR k then (true, Core s nomods, [ANext]) else (false, Core s (put nomods k true), []).
Proof.
  intros D C L K ->. rewrite event_eq by (assumption || (destruct stab; discriminate)). change (IsOn s) with (on_or_pending s). unfold hit_lockup.
  destruct stab, k; try congruence; unfold switch; cbn [only put nomods mp ma m2 Bool.eqb andb orb]; rewrite L; destruct (on_or_pending s); cbn; try reflexivity.
Qed.
Lemma hit_step c s m ds h (stab : bool) e r s1 m1 o : phase s m ds h -> event c e (Core s m) None (if stab then ESTAB else ECLASH) = (r, Core s1 m1, o) ->
  (r = true \/ lit s1 = false \/ lockup s1 <> None) ->
  phase s1 m1 ds (fst (hilt_step c h (Hit stab e))) /\ snd (hilt_step c h (Hit stab e)) = o.
Proof.
  intros (S & M & B) E R. cbn [hilt_step]. unfold clash2. replace (cor h) with (Core s m) by (destruct h as [[]]; cbn in *; congruence). rewrite E. cbn [sab].
  assert (X : (if r then (Core s1 m1, o) else if lit s1 && match lockup s1 with None => true | Some _ => false end then (Core s1 m1, o ++ [if stab then AStab else AClash]) else (Core s1 m1, o)) = (Core s1 m1, o)).
  { destruct R as [-> |[-> |R]]; [reflexivity|destruct r; reflexivity|]. destruct (lockup s1); [rewrite andb_false_r; destruct r; reflexivity|congruence]. }
  rewrite X. cbn [fst snd]. split; [|reflexivity]. split; [reflexivity|]. split; [reflexivity|]. intros k. specialize (B k). destruct k; exact B.
Qed.
(** After the first hit. *)
Lemma hit_nomods c e s (stab : bool) : dual c = false -> colors s = false -> event c e (Core s nomods) None (if stab then ESTAB else ECLASH) = (false, Core s nomods, []).
Proof.
  intros D C. rewrite event_eq by (assumption || (destruct stab; discriminate)). unfold switch. destruct stab; cbn; destruct (IsOn s); reflexivity.
Qed.
Lemma run_hits c s ds ops : dual c = false -> colors s = false -> (lit s = false \/ lockup s <> None) ->
  Forall (fun o => match o with Hit _ _ => True | _ => steady ds o end) ops -> forall h, phase s nomods ds h -> phase s nomods ds (final c h ops) /\ acts c h ops = [].
Proof.
  intros D C LL F. induction F as [|o ops F1 F2 IH]; intros h P; [split; [exact P|reflexivity]|]. rewrite final_cons, acts_cons.
  assert (ST : phase s nomods ds (fst (hilt_step c h o)) /\ snd (hilt_step c h o) = []).
  { destruct o as [j d e|stab e|e| |]; try contradiction.
    - apply (quiet_read c s nomods ds h j d e P C). cbn [steady] in F1. subst d. destruct (ds j) eqn:E; cbn; auto.
    - apply (hit_step c s nomods ds h stab e false s nomods [] P); [apply hit_nomods; assumption|right; exact LL]. }
  destruct ST as [P1 A1]. destruct (IH _ P1) as [P2 A2]. rewrite A1, A2. auto.
Qed.
(** Letting go of a button whose modifier has been used. *)
Lemma run_let_go c s ds k t n rel (ok : env -> Prop) h : dual c = false -> colors s = false -> k <> AX2 -> (forall j, j <> k -> is_up (ds j)) -> ds k = Down t n -> (lockup s <> None -> IsOn s = true) ->
  letting_go k ok rel -> phase s nomods ds h ->
  phase (set_lockup s None) nomods (set ds k (Up None)) (final c h rel) /\ acts c h rel = match lockup s with Some _ => [AEndLock] | None => [] end.
Proof.
  intros D C K U DK IO [F R] P.
  assert (RL : forall e, exists r, hsend c e (Core s nomods) k KReleased n = (r, Core (set_lockup s None) nomods, match lockup s with Some _ => [AEndLock] | None => [] end)).
  { intros e. destruct (lockup s) as [l|] eqn:L.
    - exists true. rewrite (released_ends c e s nomods k n l L (IO ltac:(discriminate)) C D K). destruct k; reflexivity.
    - exists false. rewrite released_quiet by assumption. destruct s; cbn in *; subst; reflexivity. }
  destruct (run_release c s nomods ds k t n None (fun _ => set_lockup s None) (fun _ => nomods) (fun _ => match lockup s with Some _ => [AEndLock] | None => [] end) ok) with (ops := rel) (h := h) as (e & _ & P1 & A1); auto.
  - intros e h' _ P' AT. destruct (RL e) as [r E]. pose proof (release_step c s nomods ds h' k e t n _ _ _ _ P' DK AT E) as RS. cbv zeta in RS.
    replace (has nomods k) with false in RS by (destruct k; reflexivity). exact RS.
  - revert F. apply Forall_impl. intros [j d e|stab e|e| |]; try tauto. intros [-> OK]. destruct (btn_dec j k) as [-> |N]; [left; auto|right]. split; [exact N|]. cbn [steady]. rewrite up_steady by auto. reflexivity.
  - eapply Nat.le_trans; [apply rank5|eassumption].
Qed.
Lemma just_dec a j : just a j = if btn_dec j a then true else false.
Proof. destruct (btn_dec j a) as [-> |N]; [destruct a; reflexivity|destruct a, j; try reflexivity; congruence]. Qed.
Lemma reads_steady ok ds k t n ops : (forall j, is_up (ds j)) -> reads (just k) ok ops -> Forall (steady (set ds k (Down t n))) ops.
Proof.
  intros U. apply Forall_impl. intros [j d e|stab e|e| |]; try tauto. intros [-> _]. cbn [steady]. rewrite just_dec. unfold set. destruct (btn_dec j k); [reflexivity|]. rewrite up_steady by auto. reflexivity.
Qed.

Lemma hit_run c s ds h k e0 mid stab e1 mid2 rel : dual c = false -> phase s nomods ds h -> (forall j, is_up (ds j)) -> colors s = false -> lockup s = None -> quiet_mute s -> k <> AX2 ->
  press_number (button_of h k) (now e0) = First ->
  (on_or_pending s = true \/ (stab = false /\ k = PWR)) ->
  reads (just k) (fun _ _ => True) mid -> reads_hits (just k) mid2 -> letting_go k (fun _ => True) rel ->
  let ops := Read k true e0 :: mid ++ Hit stab e1 :: mid2 ++ rel in
  visible (acts c h ops) = (if on_or_pending s then [ALock (hit_lockup stab (down e0)); AEndLock] else [ANext]) /\
  (forall j, at_ (button_of (final c h ops) j) = P70) /\ power_of (sab (cor (final c h ops))) = power_of s /\ lockup (sab (cor (final c h ops))) = None.
Proof.
  intros D P U C L Q K N WH HM HM2 HR ops.
  destruct (press_table c e0 s k First D C Q ltac:(discriminate)) as (r0 & s1 & o1 & E1 & V1 & (AL1 & AL2 & AL3 & AL4) & Q1 & PW1 & MU & PD).
  destruct (press_step c s nomods ds h k e0 First r0 s1 nomods o1 P (U k) (eq_sym N) E1) as [P1 A1].
  assert (V1' : visible o1 = []) by (rewrite V1; unfold at_press; destruct k; reflexivity).
  assert (C1 : colors s1 = false) by congruence. assert (L1 : lockup s1 = None) by congruence.
  assert (OP : on_or_pending s1 = on_or_pending s) by (unfold on_or_pending; congruence).
  destruct (run_steady c s1 (put nomods k true) (set ds k (Down (now e0) First)) mid C1 (reads_steady _ ds k _ _ mid U HM) _ P1) as [P2 A2].
  set (h1 := fst (hilt_step c h (Read k true e0))) in *. set (h2 := final c h1 mid) in *.
  pose proof (hit_event c e1 s1 k stab _ D C1 L1 K eq_refl) as HE. rewrite OP in HE.
  set (s2 := if on_or_pending s then set_lockup s1 (Some (hit_lockup stab (down e0))) else s1).
  set (o2 := if on_or_pending s then [ALock (hit_lockup stab (down e0))] else [ANext]).
  assert (HE' : event c e1 (Core s1 (put nomods k true)) None (if stab then ESTAB else ECLASH) = (true, Core s2 nomods, o2)).
  { rewrite HE. unfold s2, o2. destruct (on_or_pending s) eqn:IO; [rewrite PD by auto; reflexivity|]. destruct WH as [WH|[-> ->]]; [congruence|]. reflexivity. }
  destruct (hit_step c s1 _ _ h2 stab e1 true s2 nomods o2 P2 HE' ltac:(auto)) as [P3 A3].
  assert (C2 : colors s2 = false) by (unfold s2; destruct (on_or_pending s); exact C1).
  assert (LL : lit s2 = false \/ lockup s2 <> None).
  { unfold s2. destruct (on_or_pending s) eqn:IO; [right; discriminate|left]. rewrite AL1. unfold on_or_pending in IO. apply orb_false_iff in IO. apply IO. }
  set (h3 := fst (hilt_step c h2 (Hit stab e1))) in *.
  destruct (run_hits c s2 (set ds k (Down (now e0) First)) mid2 D C2 LL) with (h := h3) as [P4 A4]; [|exact P3|].
  { revert HM2. apply Forall_impl. intros [j d e|st e|e| |]; try tauto. intros ->. cbn [steady]. rewrite just_dec. unfold set. destruct (btn_dec j k); [reflexivity|]. rewrite up_steady by auto. reflexivity. }
  destruct (run_let_go c s2 (set ds k (Down (now e0) First)) k (now e0) First rel (fun _ => True) (final c h3 mid2)) as [P5 A5]; auto.
  { intros j NJ. rewrite set_other by exact NJ. apply U. }
  { apply set_same. }
  { intros LX. unfold s2 in *. destruct (on_or_pending s) eqn:IO; [|congruence]. unfold IsOn. cbn. unfold on_or_pending in IO. congruence. }
  assert (FE : final c h ops = final c (final c h3 mid2) rel) by (unfold ops; rewrite final_cons, final_app, final_cons, final_app; reflexivity).
  split; [|split; [|split]].
  - unfold ops. rewrite acts_cons, acts_app, acts_cons, acts_app, A1. fold h1. rewrite A2. fold h2. rewrite A3. fold h3. rewrite A4, A5, !visible_app, V1'.
    unfold o2, s2. destruct (on_or_pending s); cbn; [reflexivity|]. rewrite L1. reflexivity.
  - rewrite FE. intros j. destruct P5 as (_ & _ & B). specialize (B j). unfold set in B. specialize (U j). destruct (btn_dec j k); [apply B|]. destruct (ds j); [apply B|destruct U].
  - rewrite FE. destruct P5 as (S & _). rewrite S. unfold power_of, s2. rewrite V1' in PW1. cbn [fold_left] in PW1. unfold power_of in PW1. destruct (on_or_pending s); exact PW1.
  - rewrite FE. destruct P5 as (S & _). rewrite S. reflexivity.
Qed.

(** * A click while another button is held *)
Lemma second_press c e s a b n : dual c = false -> colors s = false -> a <> b ->
  hsend c e (Core s (put nomods a true)) b KPressed n = (false, Core s (put nomods a true), []).
Proof.
  intros D C N. rewrite hsend_eq by (assumption || discriminate). unfold switch. destruct a, b; try congruence; destruct n; cbn; reflexivity.
Qed.
Lemma second_click c e s a b n x y : dual c = false -> colors s = false -> with_held s a b = Some (x, y) -> n <> Plain ->
  exists s2, hsend c e (Core s (put nomods a true)) b KShort n = (true, Core s2 nomods, x) /\ power_of s2 = power_of s /\ colors s2 = false /\ set_lockup s2 None = set_lockup s None /\
    (lockup s = None -> y = match lockup s2 with Some _ => [AEndLock] | None => [] end) /\ (lockup s = None -> lockup s2 <> None -> IsOn s2 = true).
Proof.
  intros D C W N. rewrite hsend_eq by (assumption || discriminate). unfold with_held in W. change (on_or_pending s) with (IsOn s) in W. unfold switch.
  destruct a, b; try discriminate; destruct (IsOn s) eqn:I; try discriminate; inversion W; subst x y; (destruct n; [congruence| | | |]); cbn; eexists; (split; [reflexivity|]); cbn; (split; [reflexivity|]); (split; [exact C|]); (split; [reflexivity|]); (split; [intros L; rewrite ?L; reflexivity|]); auto; intros L; congruence.
Qed.
Lemma set_set_other ds a b va vb j : a <> b -> set (set ds a va) b vb j = if btn_dec j b then vb else if btn_dec j a then va else ds j.
Proof. reflexivity. Qed.
Lemma together_run c s ds h a b e0 mid e1 mid2 rel rel2 x y : dual c = false -> phase s nomods ds h -> (forall j, is_up (ds j)) -> colors s = false -> lockup s = None -> quiet_mute s ->
  with_held s a b = Some (x, y) -> 
  reads (just a) (fun _ _ => True) mid -> reads (both a b) (fun _ _ => True) mid2 ->
  reads (just a) (fun j e => j = b -> lasts Short (now e) (now e1)) rel -> (5 <= releases b rel)%nat -> letting_go a (fun _ => True) rel2 ->
  let ops := Read a true e0 :: mid ++ Read b true e1 :: mid2 ++ rel ++ rel2 in
  visible (acts c h ops) = at_press s a (press_number (button_of h a) (now e0)) (now e0) ++ x ++ y /\
  (forall j, at_ (button_of (final c h ops) j) = P70) /\
  power_of (sab (cor (final c h ops))) = fold_left power (visible (acts c h ops)) (power_of s) /\ lockup (sab (cor (final c h ops))) = None.
Proof.
  intros D P U C L Q W HM HM2 HR R5 HR2 ops.
  assert (AB : a <> b) by (intros ->; unfold with_held in W; destruct b, (on_or_pending s); discriminate).
  assert (A2X : a <> AX2) by (intros ->; discriminate).
  set (n := press_number (button_of h a) (now e0)).
  destruct (press_table c e0 s a n D C Q (press_number_counts _ _)) as (r0 & s1 & o1 & E1 & V1 & (AL1 & AL2 & AL3 & AL4) & Q1 & PW1 & MU & PD).
  destruct (press_step c s nomods ds h a e0 n r0 s1 nomods o1 P (U a) eq_refl E1) as [P1 A1].
  assert (C1 : colors s1 = false) by congruence. assert (L1 : lockup s1 = None) by congruence.
  assert (OP : on_or_pending s1 = on_or_pending s) by (unfold on_or_pending; congruence).
  assert (W1 : with_held s1 a b = Some (x, y)) by (unfold with_held in *; rewrite OP; exact W).
  destruct (run_steady c s1 (put nomods a true) (set ds a (Down (now e0) n)) mid C1 (reads_steady _ ds a _ _ mid U HM) _ P1) as [P2 A2].
  set (h1 := fst (hilt_step c h (Read a true e0))) in *. set (h2 := final c h1 mid) in *.
  set (n2 := press_number (button_of h2 b) (now e1)).
  destruct (press_step c s1 (put nomods a true) (set ds a (Down (now e0) n)) h2 b e1 n2 false s1 (put nomods a true) [] P2) as [P3 A3]; [rewrite set_other by congruence; apply U|reflexivity|apply second_press; assumption|].
  set (h3 := fst (hilt_step c h2 (Read b true e1))) in *.
  set (ds2 := set (set ds a (Down (now e0) n)) b (Down (now e1) n2)) in *.
  assert (SD : forall j, match ds2 j with Down _ _ => true | Up _ => false end = both a b j).
  { intros j. unfold ds2, both. rewrite set_set_other by exact AB. rewrite !just_dec. destruct (btn_dec j b), (btn_dec j a); try reflexivity. apply up_steady, U. }
  destruct (run_steady c s1 (put (put nomods a true) b true) ds2 mid2 C1) with (h := h3) as [P4 A4]; [|exact P3|].
  { revert HM2. apply Forall_impl. intros [j d e|st e|e| |]; try tauto. intros [-> _]. cbn [steady]. symmetry. apply SD. }
  assert (SC : forall e, exists s2, hsend c e (Core s1 (put nomods a true)) b KShort n2 = (true, Core s2 nomods, x) /\ power_of s2 = power_of s1 /\ colors s2 = false /\ set_lockup s2 None = set_lockup s1 None /\
    (lockup s1 = None -> y = match lockup s2 with Some _ => [AEndLock] | None => [] end) /\ (lockup s1 = None -> lockup s2 <> None -> IsOn s2 = true)).
  { intros e. apply second_click; auto. apply press_number_counts. }
  destruct (run_release c s1 (put (put nomods a true) b true) ds2 b (now e1) n2 (Some (now e1, n2)) (fun e => sab (snd (fst (hsend c e (Core s1 (put nomods a true)) b KShort n2)))) (fun _ => nomods) (fun _ => x)
     (fun e => lasts Short (now e) (now e1))) with (ops := rel) (h := final c h3 mid2) as (e & OK & P5 & A5); auto.
  - apply set_same.
  - intros e _. destruct (SC e) as (s2 & E & _ & X & _). rewrite E. exact X.
  - intros e h' OK P' AT. cbn [lasts] in OK.
    assert (RL : hsend c e (Core s1 (put (put nomods a true) b true)) b KReleased n2 = (false, Core s1 (put (put nomods a true) b true), [])) by (apply released_quiet; assumption).
    pose proof (release_step c s1 _ ds2 h' b e (now e1) n2 _ _ _ _ P' (set_same _ _ _) AT RL) as RS. cbv zeta in RS. rewrite has_put in RS.
    replace (put (put (put nomods a true) b true) b false) with (put nomods a true) in RS by (destruct a, b; try congruence; reflexivity).
    replace (ago (now e) (now e1) <? 500) with true in RS by (clear - OK; lia). destruct (SC e) as (s2 & E & _). rewrite E in *. cbn [fst snd sab cmods app] in *. exact RS.
  - revert HR. apply Forall_impl. intros [j d e|st e|e| |]; try tauto. intros [-> OK]. rewrite just_dec. destruct (btn_dec j b) as [-> |N]; [left|right].
    + destruct (btn_dec b a); [congruence|]. auto.
    + split; [exact N|]. cbn [steady]. rewrite SD. unfold both. rewrite !just_dec. destruct (btn_dec j b); [congruence|]. rewrite orb_false_r. reflexivity.
  - eapply Nat.le_trans; [apply rank5|eassumption].
  - destruct (SC e) as (s2 & E & PW2 & C2 & SL & Y & IO). rewrite E in P5. cbn [fst snd sab] in P5.
    set (ds3 := set ds2 b (Up (Some (now e1, n2)))) in *.
    destruct (run_let_go c s2 ds3 a (now e0) n rel2 (fun _ => True) (final c (final c h3 mid2) rel)) as [P6 A6]; auto.
    { intros j N. unfold ds3, ds2, set. destruct (btn_dec j b); [exact I|]. destruct (btn_dec j a); [congruence|]. apply U. }
    { unfold ds3, ds2. rewrite set_other by exact AB. rewrite set_other by exact AB. apply set_same. }
    rewrite <- (Y L1) in A6.
    assert (FE : final c h ops = final c (final c (final c h3 mid2) rel) rel2) by (unfold ops; rewrite final_cons, final_app, final_cons, final_app, final_app; reflexivity).
    assert (AE : visible (acts c h ops) = at_press s a n (now e0) ++ x ++ y).
    { unfold ops. rewrite acts_cons, acts_app, acts_cons, acts_app, acts_app, A1. fold h1. rewrite A2. fold h2. rewrite A3. fold h3. rewrite A4, A5, A6, !visible_app, V1. cbn [app visible filter].
      unfold with_held in W. destruct a, b; try discriminate; destruct (on_or_pending s); inversion W; reflexivity. }
    split; [exact AE|]. split; [|split].
    + rewrite FE. intros j. destruct P6 as (_ & _ & B). specialize (B j). unfold ds3, ds2, set in B. specialize (U j). destruct (btn_dec j a), (btn_dec j b); try apply B. destruct (ds j); [apply B|destruct U].
    + rewrite FE, AE. destruct P6 as (S & _). rewrite S, fold_left_app, <- V1, <- PW1. unfold with_held in W. change (power_of (set_lockup s2 None)) with (power_of s2). rewrite PW2. generalize (power_of s1). intros [[p q] r]. destruct a, b; try discriminate; destruct (on_or_pending s); inversion W; reflexivity.
    + rewrite FE. destruct P6 as (S & _). rewrite S. reflexivity.
Qed.

(** * What turns the saber on and off *)
Definition switches (a : act) : Prop := In a [AIgnite; ARetract; ACancel].
Lemma event_power c e co b ev r co' o a : dual c = false -> Ev c e co b ev r co' o -> In a o -> switches a ->
  b = Some PWR /\ (ev = EB KShort Plain \/ ev = EB KShort First) /\ (a = AIgnite -> IsOn (sab co) = false) /\ (a <> AIgnite -> IsOn (sab co) = true).
Proof.
  unfold switches. intros D H IN SW. destruct H.
  - contradiction.
  - destruct IN as [<-|[]]. cbn in SW. intuition discriminate.
  - destruct H0 as [-> | ->]; destruct IN as [<-|[]]; cbn in SW; intuition discriminate.
  - rewrite eff_single in H0 by exact D. revert IN. inversion H0; subst; intros IN; try contradiction.
    + apply (proj1 (Forall_forall _ _) H1) in IN. cbn in IN, SW. exfalso. intuition subst; discriminate.
    + destruct IN as [<-|[]]. rewrite (H4 D). split; [reflexivity|]. split; [auto|]. split; [auto|congruence].
    + split; [reflexivity|]. split; [auto|]. split; [|auto]. intros ->. exfalso. revert IN. unfold off. destruct (pending (sab co)), (lit (sab co)), (lockup (sab co)), (unmute (sab co)), (muted (sab co)); cbn; intuition discriminate.
    + unfold mute in IN. destruct (muted (sab co)); cbn in IN; try contradiction; destruct IN as [<-|[]]. cbn in SW. intuition discriminate.
    + unfold toggle_colors in IN. destruct (_ && _); cbn in IN; try contradiction; destruct IN as [<-|[]]. cbn in SW. intuition discriminate.
    + destruct IN as [<-|[]]. cbn in SW. intuition discriminate.
    + destruct IN as [<-|[]]. cbn in SW. intuition discriminate.
Qed.
Lemma hsend_power c e co k ev n r co' o a : dual c = false -> hsend c e co k ev n = (r, co', o) -> In a o -> switches a ->
  k = PWR /\ ev = KShort /\ (a = AIgnite -> IsOn (sab co) = false) /\ (a <> AIgnite -> IsOn (sab co) = true).
Proof.
  intros D H IN SW. apply hsend_ev in H as (n' & _ & E). destruct (event_power _ _ _ _ _ _ _ _ _ D E IN SW) as (B & EV & X).
  split; [congruence|]. split; [destruct EV; congruence|exact X].
Qed.
Lemma hsend_released_power c e co k n r co' o : hsend c e co k KReleased n = (r, co', o) -> IsOn (sab co') = IsOn (sab co).
Proof.
  intros H. apply hsend_ev in H as (n' & _ & E). inversion E; subst; try reflexivity. inversion H0; subst; try reflexivity; try congruence.
  destruct H1 as [(_ & [m X] & _)|(_ & X & _)]; congruence.
Qed.
Lemma power_step c h o a : dual c = false -> In a (snd (hilt_step c h o)) -> switches a ->
  (o = CallOff \/ exists e, o = Read PWR false e /\ at_ (bp h) <> P70 /\ ago (now e) (push (bp h)) < 500) /\
  (a = AIgnite -> on_or_pending (sab (cor h)) = false) /\ (a <> AIgnite -> on_or_pending (sab (cor h)) = true).
Proof.
  intros D IN SW. destruct o as [k d e|stab e|e| |]; cbn [hilt_step] in IN.
  - destruct (bloop c e k d (button_of h k) (cor h)) as [[b co] o] eqn:E. cbn [snd] in IN. unfold bloop in E.
    rewrite (hsend_held c e (cor h) k KHeld), (hsend_held c e (cor h) k KHeldMedium), (hsend_held c e (cor h) k KHeldLong) in E by (cbn; tauto).
    set (bb := button_of h k) in *.
    assert (NO : forall ev n r co' o', hsend c e (cor h) k ev n = (r, co', o') -> ev <> KShort -> In a o' -> False).
    { intros ev n r co' o' H N I'. destruct (hsend_power _ _ _ _ _ _ _ _ _ _ D H I' SW) as (_ & X & _). congruence. }
    destruct (at_ bb) eqn:AT.
    + destruct d.
      * destruct (hsend c e (cor h) k KPressed _) as [[r1 co1] o1] eqn:E1. inversion E; subst. exfalso. apply (NO _ _ _ _ _ E1); [discriminate|exact IN].
      * destruct (saved_ bb && _); [|inversion E; subst; contradiction].
        destruct (hsend c e (cor h) k KSaved _) as [[r1 co1] o1] eqn:E1. inversion E; subst. exfalso. apply (NO _ _ _ _ _ E1); [discriminate|exact IN].
    + destruct (d && _); [destruct (_ >? _)|]; inversion E; subst; contradiction.
    + destruct (d && _); [destruct (_ >? _)|]; inversion E; subst; contradiction.
    + destruct (d && _); [destruct (_ >? _)|]; inversion E; subst; contradiction.
    + destruct (d && _); inversion E; subst; contradiction.
    + destruct d; [inversion E; subst; contradiction|].
      destruct (hsend c e (cor h) k KReleased (presses bb)) as [[r1 co1] o1] eqn:E1.
      pose proof (hsend_released_power _ _ _ _ _ _ _ _ E1) as IO.
      destruct (has (cmods co1) k); [|inversion E; subst; exfalso; apply (NO _ _ _ _ _ E1); [discriminate|exact IN]].
      destruct (since (now e) (push bb) <? 500) eqn:S5; [|destruct (since (now e) (push bb) <? 2500)].
      * destruct (hsend c e (Core (sab co1) (put (cmods co1) k false)) k KShort (presses bb)) as [[r2 co2] o2] eqn:E2. inversion E; subst. apply in_app_or in IN as [IN|IN]; [exfalso; apply (NO _ _ _ _ _ E1); [discriminate|exact IN]|].
        destruct (hsend_power _ _ _ _ _ _ _ _ _ _ D E2 IN SW) as (-> & _ & X). cbn [sab] in X. rewrite IO in X. split; [right|exact X].
        exists e. split; [reflexivity|]. unfold bb in *. cbn [button_of] in *. split; [congruence|]. change (ago (now e) (push (bp h))) with (since (now e) (push (bp h))). lia.
      * destruct (hsend c e (Core (sab co1) (put (cmods co1) k false)) k KLong (presses bb)) as [[r2 co2] o2] eqn:E2. inversion E; subst. exfalso. apply in_app_or in IN as [IN|IN]; [apply (NO _ _ _ _ _ E1); [discriminate|exact IN]|].
        destruct (hsend_power _ _ _ _ _ _ _ _ _ _ D E2 IN SW) as (_ & X & _). discriminate.
      * inversion E; subst. exfalso. apply (NO _ _ _ _ _ E1); [discriminate|exact IN].
  - exfalso. unfold clash2 in IN. destruct (event c e (cor h) None (if stab then ESTAB else ECLASH)) as [[r1 co1] o1] eqn:E1. apply event_cases in E1.
    assert (IN' : In a o1).
    { destruct r1; [exact IN|]. destruct (lit (sab co1) && _); [|exact IN]. cbn [snd] in IN. apply in_app_or in IN as [IN|[<-|[]]]; [exact IN|]. exfalso. destruct stab; unfold switches in SW; cbn in SW; intuition discriminate. }
    destruct (event_power _ _ _ _ _ _ _ _ _ D E1 IN' SW) as (X & _). discriminate.
  - exfalso. destruct (event c e (cor h) None ETWIST) as [[r1 co1] o1] eqn:E1. apply event_cases in E1. destruct (event_power _ _ _ _ _ _ _ _ _ D E1 IN SW) as (X & _). discriminate.
  - destruct (pending (sab (cor h))); contradiction.
  - split; [left; reflexivity|]. unfold off, on_or_pending in *. unfold switches in SW. cbn in SW.
    destruct (pending (sab (cor h))), (lit (sab (cor h))), (lockup (sab (cor h))), (unmute (sab (cor h))), (muted (sab (cor h))); cbn in *; intuition (try discriminate; try congruence).
Qed.

(** * Muting *)
Definition mute_on (s : saber) : Prop := muted s = unmute s /\ (muted s = true -> IsOn s = true).
Lemma off_mute s : mute_on s -> ~ In ACancel (snd (off s)) -> mute_on (fst (off s)).
Proof.
  unfold mute_on, off, IsOn. intros [Q M] N. destruct (pending s) eqn:PE; [exfalso; apply N; left; reflexivity|]. destruct (lit s) eqn:L; cbn [negb fst]; [|rewrite L, PE; auto]. cbn. destruct (unmute s) eqn:UM; split; cbn; congruence.
Qed.
Lemma event_mute_on c e co b ev r co' o : Ev c e co b ev r co' o -> ~ In ACancel o -> mute_on (sab co) -> mute_on (sab co').
Proof.
  intros H N M. inversion H; subst; cbn [sab]; auto. inversion H1; subst; auto.
  - unfold on. destruct (agrees e); destruct M as [Q M]; split; cbn; auto. intros X. unfold IsOn. cbn. apply orb_true_r.
  - apply off_mute; assumption.
  - unfold mute. destruct (muted (sab co)); [exact M|]. split; [reflexivity|]. intros _. unfold IsOn. cbn. destruct H4 as [H4|H4]; [exact H4|]. rewrite H4. apply orb_true_r.
  - unfold toggle_colors. destruct (_ && _); exact M.
Qed.
Lemma hsend_mute_on c e co k ev n r co' o : hsend c e co k ev n = (r, co', o) -> ~ In ACancel o -> mute_on (sab co) -> mute_on (sab co').
Proof. intros H N M. apply hsend_ev in H as (n' & _ & E). apply (event_mute_on _ _ _ _ _ _ _ _ E N M). Qed.
Lemma step_mute_on c h o : ~ In ACancel (snd (hilt_step c h o)) -> mute_on (sab (cor h)) -> mute_on (sab (cor (fst (hilt_step c h o)))).
Proof.
  intros N M. destruct o as [k d e|stab e|e| |]; cbn [hilt_step] in *.
  - destruct (bloop c e k d (button_of h k) (cor h)) as [[b co] o] eqn:E. cbn [fst snd] in *. rewrite with_core. unfold bloop in E.
    rewrite (hsend_held c e (cor h) k KHeld), (hsend_held c e (cor h) k KHeldMedium), (hsend_held c e (cor h) k KHeldLong) in E by (cbn; tauto).
    set (bb := button_of h k) in *.
    destruct (at_ bb).
    + destruct d.
      * destruct (hsend c e (cor h) k KPressed _) as [[r1 co1] o1] eqn:E1. inversion E; subst. apply (hsend_mute_on _ _ _ _ _ _ _ _ _ E1 N M).
      * destruct (saved_ bb && _); [|inversion E; subst; exact M].
        destruct (hsend c e (cor h) k KSaved _) as [[r1 co1] o1] eqn:E1. inversion E; subst. apply (hsend_mute_on _ _ _ _ _ _ _ _ _ E1 N M).
    + destruct (d && _); [destruct (_ >? _)|]; inversion E; subst; exact M.
    + destruct (d && _); [destruct (_ >? _)|]; inversion E; subst; exact M.
    + destruct (d && _); [destruct (_ >? _)|]; inversion E; subst; exact M.
    + destruct (d && _); inversion E; subst; exact M.
    + destruct d; [inversion E; subst; exact M|].
      destruct (hsend c e (cor h) k KReleased (presses bb)) as [[r1 co1] o1] eqn:E1.
      destruct (has (cmods co1) k).
      2: { inversion E; subst. apply (hsend_mute_on _ _ _ _ _ _ _ _ _ E1 N M). }
      destruct (since (now e) (push bb) <? 500) eqn:S5; [|destruct (since (now e) (push bb) <? 2500)].
      * destruct (hsend c e (Core (sab co1) (put (cmods co1) k false)) k KShort (presses bb)) as [[r2 co2] o2] eqn:E2. inversion E; subst.
        apply (hsend_mute_on _ _ _ _ _ _ _ _ _ E2); [intros X; apply N, in_or_app; auto|]. apply (hsend_mute_on _ _ _ _ _ _ _ _ _ E1); [intros X; apply N, in_or_app; auto|exact M].
      * destruct (hsend c e (Core (sab co1) (put (cmods co1) k false)) k KLong (presses bb)) as [[r2 co2] o2] eqn:E2. inversion E; subst.
        apply (hsend_mute_on _ _ _ _ _ _ _ _ _ E2); [intros X; apply N, in_or_app; auto|]. apply (hsend_mute_on _ _ _ _ _ _ _ _ _ E1); [intros X; apply N, in_or_app; auto|exact M].
      * inversion E; subst. apply (hsend_mute_on _ _ _ _ _ _ _ _ _ E1 N M).
  - unfold clash2 in *. destruct (event c e (cor h) None (if stab then ESTAB else ECLASH)) as [[r1 co1] o1] eqn:E1. apply event_cases in E1.
    destruct r1; [apply (event_mute_on _ _ _ _ _ _ _ _ E1 N M)|]. destruct (lit (sab co1) && _); cbn [fst snd cor] in *; apply (event_mute_on _ _ _ _ _ _ _ _ E1); auto. intros X. apply N, in_or_app. auto.
  - destruct (event c e (cor h) None ETWIST) as [[r1 co1] o1] eqn:E1. apply event_cases in E1. apply (event_mute_on _ _ _ _ _ _ _ _ E1 N M).
  - destruct (pending (sab (cor h))); cbn [fst cor sab]; [|exact M]. destruct M as [Q M]. split; [exact Q|]. reflexivity.
  - pose proof (off_mute (sab (cor h)) M) as X. destruct (off (sab (cor h))) as [s o]. cbn [fst snd cor sab] in *. auto.
Qed.
Lemma run_mute_on c ops : forall h, ~ In ACancel (acts c h ops) -> mute_on (sab (cor h)) -> mute_on (sab (cor (final c h ops))).
Proof.
  induction ops as [|o ops IH]; intros h N M; [exact M|]. rewrite acts_cons in N. rewrite final_cons. apply IH; [intros X; apply N, in_or_app; auto|].
  apply step_mute_on; [intros X; apply N, in_or_app; auto|exact M].
Qed.

(** * Histories *)
Lemma rest_phase c h : Inv c h -> (forall k, at_ (button_of h k) = P70) -> colors (sab (cor h)) = false ->
  phase (sab (cor h)) nomods all_up h /\ lockup (sab (cor h)) = None /\ quiet_mute (sab (cor h)).
Proof.
  intros I U C. split; [split; [reflexivity|]; split; [apply (inv_mods_up c h I U)|]; intros k; split; [apply U|exact Logic.I]|]. split; [|apply (i_mute _ _ I)].
  destruct (lockup (sab (cor h))) eqn:L; [|reflexivity]. exfalso. destruct (i_held _ _ I ltac:(congruence)) as [X|X]; unfold is_down in X; [pose proof (U PWR) as Y|pose proof (U AX) as Y]; cbn [button_of] in Y; rewrite Y in X; discriminate.
Qed.
