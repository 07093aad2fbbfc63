From Coq Require Import ZArith List Bool Lia ZifyBool.
From Verif Require Import Machine PowerModel PowerSpec PowerProofs.
Import ListNotations.
Open Scope Z_scope.

(** A polyphonic font with pre-on and post-off sounds, one without, and a monophonic one
    without power-off sound. *)
Definition poly : font := Font true true true false false false true true false true.
Definition plain_font : font := Font false true true false false false true true false false.
Definition mono_font : font := Font false false false true false true true false true false.

(** ** C94 *)

(** The effects tell which blades are lit: an ignition lights dark blades, a retraction puts out
    lit ones, and nothing else changes them. *)
Theorem C94_effects : forall f v ops b, Forall usual ops -> from_dark (state0 f v) ops -> 0 <= b ->
  told b (concat (run_outs step (state0 f v) ops)) = Some (lit (run_state step (state0 f v) ops) b).
Proof. intros f v ops b U D B. apply (effects ops f v b U D B). Qed.
Print Assumptions C94_effects.

Definition C94_ops : list op :=
  [On 3 false true; Loop true false true; Loop false false true; Off OFF_NORMAL 2 true; SetPreset plain_font false false true; FastOn 4 false true; Off OFF_BLAST 1 true].
Example C94_effects_ex : Forall usual C94_ops /\ from_dark (state0 poly 100) C94_ops /\
  concat (run_outs step (state0 poly 100) C94_ops) =
    [PREON 3; IGNITION 3; RETRACTION 2; RETRACTION 1; IGNITION 1; FAST_ON 1; IGNITION 4; FAST_ON 4; BLAST 1] /\
  lit (run_state step (state0 poly 100) C94_ops) 0 = false /\ lit (run_state step (state0 poly 100) C94_ops) 2 = true.
Proof.
  split; [repeat constructor|]. split; [|vm_compute; auto].
  intros a loc r fr b E. destruct a as [|? a]; [apply dark_0; reflexivity|]. unfold C94_ops in E. injection E as _ E. exfalso.
  repeat (destruct a as [|? a]; [discriminate E|injection E as _ E]). destruct a; discriminate E.
Qed.

(** Switching on: first the pre-on effect only; the blades light when the sound is over. *)
Theorem C94_preon : forall s loc fr ws off_playing fr2 b0, 0 <= b0 -> Z.testbit loc b0 = true -> lit s b0 = false -> Forall waiting ws ->
  let s1 := run_state step s (On loc false fr :: ws) in
  let s2 := fst (step s1 (Loop false off_playing fr2)) in
  IsOn s1 = true /\ (forall b, 0 <= b -> lit s1 b = lit s b) /\
  Forall (fun o => light_effect o = false) (concat (run_outs step s (On loc false fr :: ws))) /\
  (forall b, 0 <= b -> lit s2 b = lit s b || Z.testbit loc b) /\
  exists d, snd (step s1 (Loop false off_playing fr2)) = [IGNITION d] /\ forall b, 0 <= b -> Z.testbit d b = Z.testbit loc b && negb (lit s b).
Proof.
  intros s loc fr ws op fr2 b0 B L D W. destruct (preon_lights s loc fr ws op fr2 b0 B L D W) as (R1 & R2 & R3 & _ & _ & R6 & R7). auto.
Qed.
Print Assumptions C94_preon.

Example C94_preon_ex : lit (state0 poly 100) 1 = false /\ Forall waiting [Loop true true true; ClashLock 1 true; Hum true true; Toggle] /\
  concat (run_outs step (state0 poly 100) (On 3 false true :: [Loop true true true; ClashLock 1 true; Hum true true; Toggle])) = [PREON 3; LOCKUP_BEGIN 1].
Proof. split; [reflexivity|]. split; [repeat constructor|vm_compute; reflexivity]. Qed.

(** After everything is switched off, or a pending ignition cancelled, the saber is off and stays
    dark until it is asked to light. *)
Theorem C94_stays_off : forall f v ops ty loc fr more, let s := run_state step (state0 f v) ops in
  loc = -1 \/ IsOn s = true /\ dark s -> Forall no_ask more ->
  let s1 := fst (step s (Off ty loc fr)) in
  IsOn s1 = false /\ IsOn (run_state step s1 more) = false /\ Forall (fun o => light_effect o = false) (concat (run_outs step s1 more)).
Proof.
  intros f v ops ty loc fr more s H N. pose proof (off_dark ops f v ty loc fr H) as X. cbv zeta. fold s in X. set (s1 := fst (step s (Off ty loc fr))) in *.
  assert (Q : forall t, no_light t -> IsOn t = false) by (intros t (O & P & _); unfold IsOn; rewrite O, P; reflexivity).
  destruct (no_light_run more s1 N X) as [Y Z]. auto.
Qed.
Print Assumptions C94_stays_off.

Example C94_stays_off_ex : let s := run_state step (state0 poly 100) [On 2 false true; Loop true false true] in
  IsOn s = true /\ dark s /\ Forall no_ask [Loop false false true; Loop false false true; Chdir plain_font; Release true].
Proof. cbv zeta. split; [reflexivity|]. split; [apply dark_0; reflexivity|repeat constructor]. Qed.

(** Switching off: exactly the blades asked for go out, with one retraction of those that were lit. *)
Theorem C94_off : forall s ty loc fr, pending s = false -> ty = OFF_NORMAL \/ ty = OFF_FAST ->
  (forall b, 0 <= b -> lit (fst (step s (Off ty loc fr))) b = lit s b && negb (Z.testbit loc b)) /\
  (filter light_effect (snd (step s (Off ty loc fr))) = [] /\ (forall b, 0 <= b -> lit s b && Z.testbit loc b = false) \/
   exists d, filter light_effect (snd (step s (Off ty loc fr))) = [RETRACTION d] /\ d <> 0 /\ forall b, 0 <= b -> Z.testbit d b = lit s b && Z.testbit loc b).
Proof. intros s ty loc fr P T. split; [apply off_blades; auto|apply off_effects; auto]. Qed.
Print Assumptions C94_off.

Example C94_off_ex : let s := run_state step (state0 poly 100) [FastOn 7 false true; ClashLock 1 true] in
  pending s = false /\ snd (step s (Off OFF_NORMAL 10 true)) = [LOCKUP_END 1; RETRACTION 2].
Proof. vm_compute. auto. Qed.

(** Changing the preset leaves the same blades lit, at once or after the pre-on sound of the
    new font. *)
Theorem C94_preset : forall s f fr, pending s = false ->
  (forall b, 0 <= b -> lit (fst (step s (SetPreset f false false fr))) b = lit s b) /\
  (forall ws off_playing fr2 b, Forall waiting ws -> 0 <= b -> lit s b = true ->
   let s1 := run_state step s (SetPreset f false true fr :: ws) in
   dark s1 /\ IsOn s1 = true /\ forall c, 0 <= c -> lit (fst (step s1 (Loop false off_playing fr2))) c = lit s c).
Proof. intros s f fr P. split; [intros b B; apply preset_fast; auto|]. intros ws op fr2 b W B L. apply (preset_slow s f fr ws op fr2 b); auto. Qed.
Print Assumptions C94_preset.

Example C94_preset_ex : let s := run_state step (state0 poly 100) [FastOn 5 false true] in
  pending s = false /\ snd (step s (SetPreset plain_font false true true)) = [RETRACTION 5; PREON 5] /\
  on (run_state step s [SetPreset plain_font false true true; Loop true true true; Loop false true true]) = 5.
Proof. vm_compute. auto. Qed.

(** Without cd, a pending ignition always ends: once the sound is over some blade lights. *)
Theorem C94_resolves : forall f v ops off_playing fr, Forall (fun o => is_chdir o = false) ops ->
  let s := run_state step (state0 f v) ops in pending s = true ->
  let s1 := fst (step s (Loop false off_playing fr)) in
  pending s1 = false /\ IsOn s1 = true /\ exists d, snd (step s (Loop false off_playing fr)) = [IGNITION d] /\ d <> 0 /\ forall b, 0 <= b -> lit s1 b = lit s b || Z.testbit d b.
Proof. intros f v ops op fr C. apply resolves. auto. Qed.
Print Assumptions C94_resolves.

Example C94_resolves_ex : pending (run_state step (state0 poly 100) [FastOn 1 false true; On 1 false true; On 2 false true; SetPreset poly false true true]) = true /\
  snd (step (run_state step (state0 poly 100) [FastOn 1 false true; On 1 false true; On 2 false true; SetPreset poly false true true]) (Loop false false true)) = [IGNITION 1].
Proof. vm_compute. auto. Qed.

(** Cancelling the ignition of a second blade puts out the first one without a retraction. *)
Theorem C94_cancel_refuted : exists f v ops, Forall usual ops /\
  told 0 (concat (run_outs step (state0 f v) ops)) = Some true /\ dark (run_state step (state0 f v) ops).
Proof.
  exists poly, 100, [On 1 false true; Loop false false true; On 2 false true; Off OFF_NORMAL (-1) true]. split; [repeat constructor|]. split; [reflexivity|apply dark_0; reflexivity].
Qed.
Print Assumptions C94_cancel_refuted.

(** Two ignitions, the second during the pre-on sound of the first: the first never happens. *)
Theorem C94_second_refuted : exists f v ops, ops = [On 1 false true; On 2 false true; Loop false false true] /\
  concat (run_outs step (state0 f v) ops) = [PREON 1; PREON 2; IGNITION 2] /\
  let s := run_state step (state0 f v) ops in lit s 0 = false /\ pending s = false.
Proof. exists poly, 100, [On 1 false true; On 2 false true; Loop false false true]. vm_compute. auto. Qed.
Print Assumptions C94_second_refuted.

(** cd during the pre-on sound: the saber says it is on and stays dark whatever happens, until it
    is switched on or off again. *)
Theorem C94_cd_refuted : forall f g v fr ops, Forall (fun o => no_ask o /\ no_off o) ops ->
  let s := run_state step (state0 f v) (On (-1) false fr :: Chdir g :: ops) in IsOn s = true /\ dark s.
Proof.
  intros f g v fr ops H. cbv zeta.
  assert (R : run_state step (state0 f v) (On (-1) false fr :: Chdir g :: ops) = run_state step (chdir (fst (do_on (state0 f v) (-1) false fr)) g) ops) by (cbn [run_state step]; destruct (do_on _ _ _ _); reflexivity).
  rewrite R. clear R. assert (X : stuck (run_state step (chdir (fst (do_on (state0 f v) (-1) false fr)) g) ops)).
  { apply (run_inv stuck _ stuck_step); [exact H|]. destruct (do_on_accepted (state0 f v) (-1) fr eq_refl) as (A & B & _). unfold stuck. cbn [chdir on pending fst_]. rewrite A, B. auto. }
  destruct X as (A & B & _). split; [unfold IsOn; rewrite B; apply orb_true_r|apply dark_0; exact A].
Qed.
Print Assumptions C94_cd_refuted.

Example C94_cd_refuted_ex : Forall (fun o => no_ask o /\ no_off o) [Loop false false true; Hum true true; Loop false false true; Chdir poly].
Proof. repeat constructor. Qed.

(** Changing the preset during the pre-on sound of one blade lights all of them. *)
Theorem C94_preset_refuted : exists f g v, let s := run_state step (state0 f v) [On 1 false true; SetPreset g false false true] in
  forall b, 0 <= b -> lit s b = true.
Proof. exists poly, poly, 100. cbv zeta. intros b B. unfold lit. change (Z.testbit (-1) b = true). apply Z.bits_m1. exact B. Qed.
Print Assumptions C94_preset_refuted.

(** ** C95 *)

(** A prop that switches all blades together, without cd: the hum is on exactly while they are lit. *)
Theorem C95_hum : forall f v ops b, Forall together ops -> Forall (fun o => is_chdir o = false) ops -> 0 <= b ->
  let s := run_state step (state0 f v) ops in lit s b = true <-> humming (fst_ s).
Proof. intros f v ops b T C B. apply hum_lit; auto. Qed.
Print Assumptions C95_hum.

Definition C95_ops : list op := [On (-1) false true; Loop false false true; Hum true true; Hum true true; LockCmd 1 true; SetPreset poly false true true; Loop false true true; Hum true true].
Example C95_hum_ex : Forall together C95_ops /\ Forall (fun o => is_chdir o = false) C95_ops /\
  lit (run_state step (state0 poly 100) C95_ops) 3 = true /\ fst_ (run_state step (state0 poly 100) C95_ops) = STATE_HUM_FADE_IN.
Proof. split; [repeat constructor|]. split; [repeat constructor|]. vm_compute. auto. Qed.

(** Such a saber, switched off, fades its hum out and then is silent. *)
Theorem C95_silent : forall f v ops, Forall together ops -> let s := run_state step (state0 f v) ops in dark s -> active (fst_ s) = true ->
  fst_ s = STATE_HUM_FADE_OUT /\ (mono (fnt s) = false -> let t := fst (step s (Hum true true)) in fst_ t = STATE_OFF /\ hum t = false).
Proof. intros f v ops T. apply fades_out; auto. Qed.
Print Assumptions C95_silent.

Example C95_silent_ex : let s := run_state step (state0 poly 100) (C95_ops ++ [Off OFF_NORMAL (-1) true]) in
  Forall together (C95_ops ++ [Off OFF_NORMAL (-1) true]) /\ dark s /\ active (fst_ s) = true /\ mono (fnt s) = false /\ hum s = true.
Proof. cbv zeta. split; [repeat constructor|]. split; [apply dark_0; reflexivity|]. vm_compute. auto. Qed.

(** ... and, as long as a wav player is free when needed, no null pointer is used. *)
Theorem C95_no_crash : forall f v ops, Forall together ops -> Forall (fun o => is_chdir o = false) ops -> Forall players ops ->
  ~ In Crash (concat (run_outs step (state0 f v) ops)).
Proof. intros f v ops T C F. apply no_crash; auto. Qed.
Print Assumptions C95_no_crash.

Example C95_no_crash_ex : let ops := [On (-1) false true; Loop false false true; Off OFF_NORMAL (-1) true] in
  Forall together ops /\ Forall players ops /\ mono mono_font = true /\ concat (run_outs step (state0 mono_font 100) ops) = [PREON (-1); IGNITION (-1); RETRACTION (-1)].
Proof. cbv zeta. split; [repeat constructor|]. split; [repeat constructor|]. vm_compute. auto. Qed.

(** Never more post-off effects than retractions. *)
Theorem C95_postoff : forall f v ops, (count is_postoff (concat (run_outs step (state0 f v) ops)) <= count is_retraction (concat (run_outs step (state0 f v) ops)))%nat.
Proof. intros f v ops. apply postoffs. Qed.
Print Assumptions C95_postoff.

Example C95_postoff_ex : concat (run_outs step (state0 poly 100) [FastOn (-1) false true; Off OFF_NORMAL (-1) true; Loop false true true; Loop false false true; Loop false false true]) =
  [IGNITION (-1); FAST_ON (-1); RETRACTION (-1); POSTOFF (-1)].
Proof. vm_compute. reflexivity. Qed.

(** A post-off effect comes only after a normal switching off with a retraction and a font that has a post-off sound. *)
Theorem C95_postoff_why : forall f v ops o l, In (POSTOFF l) (snd (step (run_state step (state0 f v) ops) o)) ->
  exists a o' b, ops = a ++ o' :: b /\ tells_off (run_state step (state0 f v) a) o'.
Proof. intros f v ops o l. apply post_history. Qed.
Print Assumptions C95_postoff_why.

Example C95_postoff_why_ex : tells_off (run_state step (state0 poly 100) [FastOn (-1) false true]) (Off OFF_NORMAL (-1) true) /\
  snd (step (run_state step (state0 poly 100) [FastOn (-1) false true; Off OFF_NORMAL (-1) true]) (Loop false false true)) = [POSTOFF (-1)].
Proof. vm_compute. repeat split. exists (-1). auto. Qed.

(** After a blast that puts out a lit blade the hum fades out. *)
Theorem C95_blast : forall f v ops loc fr b, let s := run_state step (state0 f v) ops in
  mono (fnt s) = false -> pending s = false -> 0 <= b -> lit s b = true -> Z.testbit loc b = true ->
  let t := fst (step s (Off OFF_BLAST loc fr)) in let u := fst (step t (Hum true true)) in fst_ u = STATE_OFF /\ hum u = false.
Proof. intros f v ops loc fr b s. apply blast_silent. Qed.
Print Assumptions C95_blast.

Example C95_blast_ex : let s := run_state step (state0 poly 100) C95_ops in mono (fnt s) = false /\ pending s = false /\ lit s 3 = true /\ hum s = true.
Proof. vm_compute. auto. Qed.

(** A second blade switched on and off alone: its hum never ends. *)
Theorem C95_second_refuted : forall v ops, Forall (fun o => no_ask o /\ is_chdir o = false) ops ->
  let s := run_state step (state0 poly v) (FastOn 2 false true :: Off OFF_NORMAL 2 true :: ops) in IsOn s = false /\ fst_ s = STATE_HUM_ON.
Proof.
  intros v ops H. cbv zeta. change (FastOn 2 false true :: Off OFF_NORMAL 2 true :: ops) with ([FastOn 2 false true; Off OFF_NORMAL 2 true] ++ ops). rewrite run_state_app.
  destruct (run_inv hums_on _ hums_on_step ops _ H (conj eq_refl (conj eq_refl eq_refl) : hums_on (run_state step (state0 poly v) [FastOn 2 false true; Off OFF_NORMAL 2 true]))) as (A & B & C). split; [unfold IsOn; rewrite A, B; reflexivity|exact C].
Qed.
Print Assumptions C95_second_refuted.

Example C95_second_refuted_ex : Forall (fun o => no_ask o /\ is_chdir o = false) [Loop false false true; Hum true true; Off OFF_NORMAL (-1) true].
Proof. repeat constructor. Qed.

(** cd while lit: the saber stays lit and makes no hum until it is switched off. *)
Theorem C95_cd_refuted : forall f g v fr ops, Forall (fun o => no_off o /\ together o) ops ->
  let s := run_state step (state0 f v) (FastOn (-1) false fr :: Chdir g :: ops) in (forall b, 0 <= b -> lit s b = true) /\ active (fst_ s) = false.
Proof.
  intros f g v fr ops H. cbv zeta.
  change (FastOn (-1) false fr :: Chdir g :: ops) with ([FastOn (-1) false fr] ++ Chdir g :: ops). rewrite run_state_app.
  change (run_state step (run_state step (state0 f v) [FastOn (-1) false fr]) (Chdir g :: ops)) with (run_state step (chdir (run_state step (state0 f v) [FastOn (-1) false fr]) g) ops).
  assert (X : mute_lit (chdir (run_state step (state0 f v) [FastOn (-1) false fr]) g)).
  { unfold mute_lit. cbn [run_state step]. pose proof (do_fast_on_fst (state0 f v) (-1) false fr) as E. destruct (do_fast_on _ _ _ _). cbn [fst] in E. subst s. unfold CommonIgnition, TurnOn. cbn [none without state0 on Z.ldiff Z.eqb negb andb fst].
    cbn [chdir on pending fst_]. rewrite SB_On_on, SB_On_pending. auto. }
  destruct (run_inv mute_lit _ (fun s o p => mute_lit_step s o (proj1 p) (proj2 p)) ops _ H X) as (A & B & C). split; [|rewrite C; reflexivity]. intros b Hb. unfold lit. rewrite A. apply Z.bits_m1. exact Hb.
Qed.
Print Assumptions C95_cd_refuted.

Example C95_cd_refuted_ex : Forall (fun o => no_off o /\ together o) [Loop false false true; Hum true true; On (-1) false true; LockCmd 2 true].
Proof. repeat constructor. Qed.

(** Two blades of a monophonic font without power-off sound, switched off one after the other. *)
Theorem C95_crash_refuted : exists f v ops, Forall usual ops /\ Forall players ops /\ In Crash (concat (run_outs step (state0 f v) ops)).
Proof. exists mono_font, 100, [FastOn 3 false true; Off OFF_NORMAL 1 true; Off OFF_NORMAL 2 true]. split; [repeat constructor|]. split; [repeat constructor|]. vm_compute. auto 10. Qed.
Print Assumptions C95_crash_refuted.

(** Switched on again before the power-off sound is over: the post-off effect comes while lit. *)
Theorem C95_postoff_refuted : exists f v ops, Forall together ops /\ let s := run_state step (state0 f v) ops in
  lit s 0 = true /\ snd (step s (Loop false false true)) = [POSTOFF (-1)].
Proof. exists poly, 100, [FastOn (-1) false true; Off OFF_NORMAL (-1) true; FastOn (-1) false true]. split; [repeat constructor|]. vm_compute. auto. Qed.
Print Assumptions C95_postoff_refuted.

(** ** C96 *)

(** The lockup effects tell which lockup there is, and a lockup sound of its kind plays only during it. *)
Theorem C96_lockups : forall f v ops, all_along good_lock (state0 f v) ops ->
  lock_told (concat (run_outs step (state0 f v) ops)) = Some (lockup (run_state step (state0 f v) ops)) /\
  forall k, lock_player (run_state step (state0 f v) ops) = Some k -> k = lockup (run_state step (state0 f v) ops) /\ k <> 0.
Proof. intros f v ops G. apply (lock_run ops f v G). Qed.
Print Assumptions C96_lockups.

Definition C96_ops : list op := [FastOn (-1) false true; ClashLock 2 true; ClashLock 1 true; Release true; LockCmd 3 true].
Example C96_lockups_ex : all_along good_lock (state0 poly 100) C96_ops /\
  concat (run_outs step (state0 poly 100) C96_ops) = [IGNITION (-1); FAST_ON (-1); LOCKUP_BEGIN 2; LOCKUP_END 2; LOCKUP_BEGIN 3] /\
  lock_player (run_state step (state0 poly 100) C96_ops) = Some 3.
Proof.
  split; [|vm_compute; auto]. intros a o b E. unfold C96_ops in E.
  repeat (destruct a as [|? a]; [injection E as <- _; cbn; auto; try discriminate|injection E as _ E]). destruct a; discriminate E.
Qed.

(** Switching off a lit saber, or letting go, ends the lockup and its sound. *)
Theorem C96_ends : forall s b, pending s = false -> 0 <= b -> lit s b = true -> lockup s <> 0 ->
  (forall ty loc fr, lockup (fst (step s (Off ty loc fr))) = 0 /\ lock_player (fst (step s (Off ty loc fr))) = None /\ In (LOCKUP_END (lockup s)) (snd (step s (Off ty loc fr)))) /\
  (forall fr, lockup (fst (step s (Release fr))) = 0 /\ lock_player (fst (step s (Release fr))) = None /\ snd (step s (Release fr)) = [LOCKUP_END (lockup s)]).
Proof.
  intros s b P B L K. assert (NZ : on s <> 0) by (intros Z0; unfold lit in L; rewrite Z0, Z.testbit_0_l in L; discriminate). split.
  - intros ty loc fr. destruct (off_lockup s ty loc fr b P B L) as [X Y]. repeat apply conj; auto. cbn [step]. rewrite do_off_eq by auto. cbn [snd]. apply in_or_app. left. unfold off_lock_out. replace (lockup s =? 0) with false by lia. left. reflexivity.
  - intros fr. cbn [step]. unfold IsOn. replace (none (on s)) with false by (unfold none; lia). replace (lockup s =? 0) with false by lia. cbn [negb orb andb]. destruct (end_lockup_same s fr) as (_ & _ & _ & _ & _ & _ & A & C & _). auto.
Qed.
Print Assumptions C96_ends.

Example C96_ends_ex : let s := run_state step (state0 poly 100) C96_ops in pending s = false /\ lit s 5 = true /\ lockup s = 3.
Proof. vm_compute. auto. Qed.

(** A lockup begun during the pre-on sound stays when the ignition is cancelled. *)
Theorem C96_cancel_refuted : exists f v ops, all_along good_lock (state0 f v) ops /\ let s := run_state step (state0 f v) ops in IsOn s = false /\ lockup s <> 0 /\ lock_player s <> None.
Proof.
  exists poly, 100, [On (-1) false true; ClashLock 1 true; Off OFF_NORMAL (-1) true]. split; [|vm_compute; repeat split; discriminate].
  intros a o b E. repeat (destruct a as [|? a]; [injection E as <- _; cbn; auto; try discriminate|injection E as _ E]). destruct a; discriminate E.
Qed.
Print Assumptions C96_cancel_refuted.

(** Lightning block during a lockup: a second begins before the first has ended, with the sound of the first. *)
Theorem C96_lightning_refuted : exists f v ops, lock_told (concat (run_outs step (state0 f v) ops)) = None /\
  let s := run_state step (state0 f v) ops in lock_player s = Some 1 /\ lockup s = 6.
Proof. exists poly, 100, [FastOn (-1) false true; ClashLock 1 true; Lightning true]. vm_compute. auto. Qed.
Print Assumptions C96_lightning_refuted.

(** ** C97 *)

(** As long as nobody sets the volume, it is either what it was at first or muted, and unmuting
    always brings it back. *)
Theorem C97_restore : forall f v ops, 0 < v -> Forall no_set_volume ops -> let s := run_state step (state0 f v) ops in
  (volume s = v \/ volume s = 0) /\ volume (fst (step s Unmute)) = v /\ volume (fst (step s Mute)) = 0 /\
  volume (fst (step s Toggle)) = v - volume s.
Proof.
  intros f v ops V N. cbv zeta. pose proof (mute_run ops f v V N) as M. set (s := run_state _ _ _) in *.
  destruct (mute_SetMute v s false V M) as (_ & A & _). destruct (mute_SetMute v s true V M) as (_ & _ & B). repeat apply conj.
  - destruct M as [[M _]|[M _]]; auto.
  - apply A. reflexivity.
  - apply B. reflexivity.
  - cbn [step]. unfold SetMute. destruct M as [[M1 M2]|[M1 M2]]; rewrite M1.
    + replace (v =? 0) with false by lia. cbn. lia.
    + cbn. rewrite M2. replace (v =? 0) with false by lia. cbn. lia.
Qed.
Print Assumptions C97_restore.

Example C97_restore_ex : Forall no_set_volume [FastOn (-1) false true; DoubleClick; Toggle; Mute; Mute; Poll] /\
  volume (run_state step (state0 poly 1500) [FastOn (-1) false true; DoubleClick; Toggle; Mute; Mute; Poll]) = 0.
Proof. split; [repeat constructor|]. vm_compute. auto. Qed.

(** Muted by a double click, the saber gets its volume back when it is switched off. *)
Theorem C97_off : forall f v ops more ty loc fr b, 0 < v -> Forall no_set_volume ops -> Forall no_set_volume more -> Forall no_off more ->
  let s := run_state step (state0 f v) ops in volume s = v -> IsOn s = true ->
  let t := run_state step s (DoubleClick :: more) in
  volume (fst (step s DoubleClick)) = 0 /\ (pending t = false -> 0 <= b -> lit t b = true -> volume (fst (step t (Off ty loc fr))) = v).
Proof. intros f v ops more ty loc fr b V N1 N2 N3. apply double_click; auto. Qed.
Print Assumptions C97_off.

Example C97_off_ex : let s := run_state step (state0 poly 1500) [On 1 false true] in
  let t := run_state step s [DoubleClick; Loop false false true; Toggle; DoubleClick] in
  volume s = 1500 /\ IsOn s = true /\ pending t = false /\ lit t 0 = true /\ volume t = 0.
Proof. vm_compute. auto. Qed.

(** Setting the volume while muted: unmuting then puts back the old one. *)
Theorem C97_set_refuted : exists f v ops, volume (run_state step (state0 f v) ops) = 200 /\
  volume (run_state step (state0 f v) (ops ++ [Unmute])) = 1500.
Proof. exists poly, 1500, [Mute; SetVolume 200]. vm_compute. auto. Qed.
Print Assumptions C97_set_refuted.

(** While muted, 0 is what is saved as the volume. *)
Theorem C97_saved_refuted : exists f v ops, 0 < v /\ Forall no_set_volume ops /\ stored (run_state step (state0 f v) ops) = 0.
Proof. exists poly, 1500, [Mute; Poll]. split; [lia|]. split; [repeat constructor|reflexivity]. Qed.
Print Assumptions C97_saved_refuted.
