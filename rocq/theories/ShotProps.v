From Coq Require Import ZArith List Bool Lia ZifyBool.
From Verif Require Import Machine ArithModel PowerModel PowerSpec PowerProofs ShotModel ShotSpec ShotProofs.
Import ListNotations.
Open Scope Z_scope.

(** A font with a pre-on sound and a power-on sound, and one with neither; an uneventful event. *)
Definition font_a : font := Font true true true true false false true true false false.
Definition font_b : font := Font false true true false false false true true false false.
Definition ev (r : Z) : env := Env r true false font_b 100.
Definition two : cfg := Cfg 2 true (Some 30) MODE_STUN.
(** Switching on with the power button, and waiting for the blade *)
Definition start : list bop := [Send 1 1 1 (ev 0); Base (Loop false false true)].
Definition pull (r : Z) : list bop := [Send 8 1 1 (ev r); Hold 8; Send 8 2 1 (ev r); LetGo 8].
Definition click_mode : list bop := [Send 16 1 1 (ev 0); Hold 16; Send 16 2 1 (ev 0); LetGo 16; Send 16 7 1 (ev 0)].

(** ** C98 *)

(** Rounds are used one by one, never beyond the last, and the count shown is the count left. *)
Theorem C98_ammo : forall c f v ops, 0 <= max_shots c ->
  let s := run_state (bstep c) (bstate0 c f v) ops in
  told (ammo_tell (max_shots c)) (max_shots c) (concat (run_outs (bstep c) (bstate0 c f v) ops)) = Some (GetBulletCount c s) /\
  0 <= GetBulletCount c s <= max_shots c.
Proof. intros c f v ops H. exact (ammo c f v ops H). Qed.
Print Assumptions C98_ammo.
Definition C98_ops : list bop := start ++ pull 50 ++ click_mode ++ pull 99 ++ pull 40 ++ [Send 64 1 1 (ev 0)] ++ pull 80.
Example C98_ammo_ex : 0 <= max_shots two /\
  concat (run_outs (bstep two) (bstate0 two font_b 0) C98_ops) = [P (PREON (-1)); P (IGNITION (-1)); STUN; MODE MODE_KILL; FIRE; EMPTY; RELOAD; FIRE] /\
  GetBulletCount two (run_state (bstep two) (bstate0 two font_b 0) C98_ops) = 1.
Proof. vm_compute. repeat split; discriminate. Qed.

Theorem C98_unlimited : forall c f v ops, max_shots c = -1 -> ~ In EMPTY (concat (run_outs (bstep c) (bstate0 c f v) ops)).
Proof. exact unlimited. Qed.
Print Assumptions C98_unlimited.
Example C98_unlimited_ex : let c := Cfg (-1) false None MODE_KILL in
  concat (run_outs (bstep c) (bstate0 c font_b 0) (start ++ pull 1 ++ [Latch 32 false (ev 0)] ++ pull 2)) = [P (PREON (-1)); P (IGNITION (-1)); FIRE; CLIP_OUT; FIRE].
Proof. reflexivity. Qed.

(** Pulling the trigger, with no other button held, does what the rounds left, the jam and the mode
    say, whatever happened before. *)
Theorem C98_trigger : forall c f v ops n w, Forall no_auto_cmd ops -> max_shots c = -1 \/ 0 <= max_shots c ->
  let s := run_state (bstep c) (bstate0 c f v) ops in let os := concat (run_outs (bstep c) (bstate0 c f v) ops) in
  IsOn (pw s) = true -> Z.ldiff (mods s) 8 = 0 -> 1 <= n <= 4 ->
  exists rounds jammed m,
    told jam_tell false os = Some jammed /\ told (mode_tell (auto_enabled c)) (default_mode c) os = Some m /\
    (0 <= max_shots c -> told (ammo_tell (max_shots c)) (max_shots c) os = Some rounds) /\
    snd (bstep c s (Send 8 1 n w)) = shot (0 <=? max_shots c) (jam_percentage c) (rnd w) rounds jammed m.
Proof. exact trigger. Qed.
Print Assumptions C98_trigger.
Example C98_trigger_ex : let s := run_state (bstep two) (bstate0 two font_b 0) C98_ops in
  Forall no_auto_cmd C98_ops /\ IsOn (pw s) = true /\ Z.ldiff (mods s) 8 = 0 /\
  snd (bstep two s (Send 8 1 1 (ev 29))) = [JAM] /\ snd (bstep two s (Send 8 1 2 (ev 30))) = [FIRE].
Proof. cbn zeta. split; [repeat constructor|]. repeat split; reflexivity. Qed.

(** Autofire uses no rounds: with a single round it can be fired again and again. *)
Theorem C98_autofire_refuted : exists c f v ops, max_shots c = 1 /\
  length (filter (fun o => match o with P (LOCKUP_BEGIN 4) => true | _ => false end) (concat (run_outs (bstep c) (bstate0 c f v) ops))) = 3%nat /\
  GetBulletCount c (run_state (bstep c) (bstate0 c f v) ops) = 1.
Proof. exists (Cfg 1 true None MODE_AUTO), font_b, 0, (start ++ pull 0 ++ pull 0 ++ pull 0). vm_compute. auto. Qed.
Print Assumptions C98_autofire_refuted.

(** With a clip that is detected by a plain button, the trigger is dead while the clip is in. *)
Theorem C98_clip_refuted : exists c f v, let s := run_state (bstep c) (bstate0 c f v) (start ++ [Send 32 1 1 (ev 0); Hold 32]) in
  GetBulletCount c s = 2 /\ IsOn (pw s) = true /\ forall n r, 1 <= n <= 4 -> snd (bstep c s (Send 8 1 n (ev r))) = [].
Proof.
  exists (Cfg 2 true None MODE_KILL), font_b, 0. cbn zeta. split; [reflexivity|]. split; [reflexivity|].
  intros n r H. assert (n = 1 \/ n = 2 \/ n = 3 \/ n = 4) as [-> | [-> | [-> | ->]]] by lia; reflexivity.
Qed.
Print Assumptions C98_clip_refuted.

(** ** C99 *)

(** Once jammed, nothing is fired until it is unjammed. *)
Theorem C99_jam : forall c f v ops, Forall no_auto_cmd ops ->
  told jam_tell false (concat (run_outs (bstep c) (bstate0 c f v) ops)) <> None.
Proof. intros c f v ops H. destruct (told_all c f v ops H) as (J&_). cbn zeta in J. rewrite J. discriminate. Qed.
Print Assumptions C99_jam.
Definition C99_ops : list bop := start ++ pull 29 ++ pull 99 ++ [Bang; Bang] ++ pull 30.
Example C99_jam_ex : Forall no_auto_cmd C99_ops /\
  concat (run_outs (bstep two) (bstate0 two font_b 0) C99_ops) = [P (PREON (-1)); P (IGNITION (-1)); JAM; JAM; UNJAM; STUN].
Proof. split; [repeat constructor|reflexivity]. Qed.
(** Banging it unjams it. *)
Theorem C99_bang : forall c f v ops, Forall no_auto_cmd ops ->
  let s := run_state (bstep c) (bstate0 c f v) ops in let os := concat (run_outs (bstep c) (bstate0 c f v) ops) in
  exists jammed, told jam_tell false os = Some jammed /\ snd (bstep c s Bang) = if jammed then [UNJAM] else [].
Proof. exact bang. Qed.
Print Assumptions C99_bang.
Example C99_bang_ex : Forall no_auto_cmd (start ++ pull 0) /\
  told jam_tell false (concat (run_outs (bstep two) (bstate0 two font_b 0) (start ++ pull 0))) = Some true.
Proof. split; [repeat constructor|reflexivity]. Qed.
(** It never jams unless it was configured to. *)
Theorem C99_never : forall c f v ops, jam_percentage c = None -> ~ In JAM (concat (run_outs (bstep c) (bstate0 c f v) ops)).
Proof. exact never_jams. Qed.
Print Assumptions C99_never.
Example C99_never_ex : let c := Cfg 2 true None MODE_STUN in
  concat (run_outs (bstep c) (bstate0 c font_b 0) (start ++ pull 0)) = [P (PREON (-1)); P (IGNITION (-1)); STUN].
Proof. reflexivity. Qed.

(** ** C100 *)

(** The modes announced follow each other, each shot is of the mode announced last, and the
    mode reported is that one. *)
Theorem C100_modes : forall c f v ops, Forall no_auto_cmd ops ->
  told (mode_tell (auto_enabled c)) (default_mode c) (concat (run_outs (bstep c) (bstate0 c f v) ops)) = Some (bmode (run_state (bstep c) (bstate0 c f v) ops)).
Proof. intros c f v ops H. apply (told_all c f v ops H). Qed.
Print Assumptions C100_modes.
(** The mode does not change while autofire is going on. *)
Theorem C100_steady : forall c f v ops, Forall no_auto_cmd ops ->
  told firing_tell false (concat (run_outs (bstep c) (bstate0 c f v) ops)) <> None.
Proof. intros c f v ops H. destruct (told_all c f v ops H) as (_&_&K&_). cbn zeta in K. rewrite K. discriminate. Qed.
Print Assumptions C100_steady.
Definition C100_ops : list bop := start ++ click_mode ++ click_mode ++ [Send 8 1 1 (ev 90); Hold 8; Send 16 7 1 (ev 0); Send 8 2 1 (ev 0); LetGo 8] ++ click_mode.
Example C100_modes_ex : Forall no_auto_cmd C100_ops /\
  concat (run_outs (bstep two) (bstate0 two font_b 0) C100_ops) =
    [P (PREON (-1)); P (IGNITION (-1)); MODE MODE_KILL; MODE MODE_AUTO; P (LOCKUP_BEGIN 4); P (LOCKUP_END 4); MODE MODE_STUN].
Proof. split; [repeat constructor|reflexivity]. Qed.
(** A click changes the mode, unless autofire was started and the trigger has not ended it since. *)
Theorem C100_click : forall c f v ops w, Forall proper ops -> Forall no_auto_cmd ops ->
  let s := run_state (bstep c) (bstate0 c f v) ops in let os := concat (run_outs (bstep c) (bstate0 c f v) ops) in
  IsOn (pw s) = true -> Z.ldiff (mods s) 16 = 0 ->
  exists m, told (mode_tell (auto_enabled c)) (default_mode c) os = Some m /\
    snd (bstep c s (Send 16 7 1 w)) = if held c (bstate0 c f v) ops false then [] else [MODE (next_mode (auto_enabled c) m)].
Proof. exact click. Qed.
Print Assumptions C100_click.
Example C100_click_ex : Forall proper C100_ops /\ held two (bstate0 two font_b 0) C100_ops false = false /\
  IsOn (pw (run_state (bstep two) (bstate0 two font_b 0) C100_ops)) = true /\ Z.ldiff (mods (run_state (bstep two) (bstate0 two font_b 0) C100_ops)) 16 = 0.
Proof. split; [unfold C100_ops, start, click_mode; cbn [app]; repeat (constructor; [cbn; lia|]); constructor|]. repeat split; reflexivity. Qed.
(** Releasing the trigger, with no other button held, ends autofire. *)
Theorem C100_release : forall c f v ops n w, Forall no_auto_cmd ops ->
  let s := run_state (bstep c) (bstate0 c f v) ops in let os := concat (run_outs (bstep c) (bstate0 c f v) ops) in
  told firing_tell false os = Some true -> IsOn (pw s) = true -> Z.ldiff (mods s) 8 = 0 -> 1 <= n <= 4 ->
  snd (bstep c s (Send 8 2 n w)) = [P (LOCKUP_END 4)].
Proof. exact release_ends. Qed.
Print Assumptions C100_release.
Definition auto_cfg : cfg := Cfg (-1) true None MODE_AUTO.
Example C100_release_ex : let ops := start ++ [Send 8 1 1 (ev 0); Hold 8] in
  Forall no_auto_cmd ops /\ told firing_tell false (concat (run_outs (bstep auto_cfg) (bstate0 auto_cfg font_b 0) ops)) = Some true.
Proof. split; [repeat constructor|reflexivity]. Qed.
(** So does switching off. *)
Theorem C100_off : forall c s n v, IsOn (pw s) = true -> pending (pw s) = false -> Z.ldiff (mods s) 1 = 0 -> 1 <= n <= 4 ->
  lockup (pw (fst (bstep c s (Send 1 1 n v)))) = 0.
Proof. exact power_off_ends. Qed.
Print Assumptions C100_off.
Example C100_off_ex : let s := run_state (bstep auto_cfg) (bstate0 auto_cfg font_b 0) (start ++ [Send 8 1 1 (ev 0)]) in
  IsOn (pw s) = true /\ pending (pw s) = false /\ Z.ldiff (mods s) 1 = 0 /\ lockup (pw s) = 4.
Proof. repeat split; reflexivity. Qed.
(** Releasing the trigger while another button is held does not end autofire. *)
Theorem C100_held_refuted : exists c f v,
  let ops := start ++ [Send 8 1 1 (ev 0); Hold 8; Send 16 1 1 (ev 0); Hold 16; Send 8 2 1 (ev 0); LetGo 8; Send 16 2 1 (ev 0); LetGo 16] in
  told firing_tell false (concat (run_outs (bstep c) (bstate0 c f v) ops)) = Some true.
Proof. exists auto_cfg, font_b, 0. reflexivity. Qed.
Print Assumptions C100_held_refuted.
(** Nor does switching off before the blade has lit, and then releasing it does nothing. *)
Theorem C100_preon_refuted : exists c f v,
  let ops := [Send 1 1 1 (ev 0); Send 8 1 1 (ev 0); Send 1 1 1 (ev 0); Send 8 2 1 (ev 0)] in
  let s := run_state (bstep c) (bstate0 c f v) ops in
  told firing_tell false (concat (run_outs (bstep c) (bstate0 c f v) ops)) = Some true /\ IsOn (pw s) = false.
Proof. exists auto_cfg, font_a, 0. split; reflexivity. Qed.
Print Assumptions C100_preon_refuted.
(** After a low battery switched it off during autofire, clicks do not change the mode. *)
Theorem C100_stuck_refuted : exists c f v,
  let ops := start ++ [Base (Loop false true true); Send 8 1 1 (ev 0); Hold 8; LowBattery (ev 0); Send 8 2 1 (ev 0); LetGo 8; Send 1 1 1 (ev 0); Base (Loop false true true)] in
  let s := run_state (bstep c) (bstate0 c f v) ops in
  told firing_tell false (concat (run_outs (bstep c) (bstate0 c f v) ops)) = Some false /\ IsOn (pw s) = true /\ mods s = 0 /\
  forall w, snd (bstep c s (Send 16 7 1 w)) = [].
Proof.
  exists auto_cfg, font_a, 0. cbn zeta. split; [reflexivity|]. split; [reflexivity|]. split; [reflexivity|].
  intros w. reflexivity.
Qed.
Print Assumptions C100_stuck_refuted.

(** ** C101 *)

(** It only explodes after it was armed and then the button was released, and the sounds were over. *)
Theorem C101_explosion : forall f vol ops o loc, Forall dplain (ops ++ [o]) -> timed (ops ++ [o]) ->
  In (BLAST loc) (snd (dstep (run_state dstep (dstate0 f vol) ops) o)) ->
  exists a r d t fr t2 l, o = DPoll t fr /\ ops = a ++ r :: d /\ was_armed (dstate0 f vol) a /\ releases (dstate0 f vol) a r t2 l /\
    untouched (dstate0 f vol) (a ++ [r]) d /\ l < t - t2.
Proof. exact explosion. Qed.
Print Assumptions C101_explosion.
Definition det_start : list dop := [DLatch 1 true 0 (ev 0); DBase (Loop false false true)].
Definition det_ops : list dop := det_start ++ [DSend 4 1 1 1000 (ev 0); DHold 4; DPoll 1050 true; DPoll 1101 true; DSend 4 2 1 2000 (ev 0); DLetGo 4].
Example C101_explosion_ex : Forall dplain (det_ops ++ [DPoll 2101 true]) /\
  snd (dstep (run_state dstep (dstate0 font_b 0) det_ops) (DPoll 2101 true)) = [BLAST (-1)] /\
  snd (dstep (run_state dstep (dstate0 font_b 0) det_ops) (DPoll 2100 true)) = [].
Proof. split; [|split; reflexivity]. unfold det_ops, det_start. cbn [app]. repeat (constructor; [cbn; try lia; auto|]). constructor. Qed.
Example C101_timed_ex : timed (det_ops ++ [DPoll 2101 true]).
Proof. apply (times_up_timed _ 0). reflexivity. Qed.
(** Held until the sound is over, released, and after the next sound it does explode. *)
Theorem C101_explodes : forall s n1 t1 v1 t2 f2 n3 t3 v3 t4 f4,
  pending (dpw s) = false -> on (dpw s) <> 0 -> Z.ldiff (dmods s) 4 = 0 -> n1 = 1 \/ n1 = 3 \/ n1 = 4 -> 1 <= n3 <= 4 ->
  0 <= len v1 < t2 - t1 -> t2 - t1 < 4294967296 -> 0 <= len v3 < t4 - t3 -> t4 - t3 < 4294967296 ->
  let ops := [DSend 4 1 n1 t1 v1; DHold 4; DPoll t2 f2; DSend 4 2 n3 t3 v3; DPoll t4 f4] in
  concat (run_outs dstep s ops) = [LOCKUP_BEGIN 3; LOCKUP_END 3; BLAST (on (dpw s))] /\ on (dpw (run_state dstep s ops)) = 0.
Proof. exact explodes. Qed.
Print Assumptions C101_explodes.
Example C101_explodes_ex : let s := run_state dstep (dstate0 font_b 0) det_start in pending (dpw s) = false /\ on (dpw s) = -1 /\ dmods s = 0.
Proof. repeat split; reflexivity. Qed.
(** Switching it off does not stop an explosion: switched on again, it still goes off, untouched. *)
Theorem C101_pending_refuted : exists f vol, let ops := det_ops ++ [DLatch 1 false 2010 (ev 0); DLatch 1 true 2020 (ev 0); DBase (Loop false false true)] in
  armed (run_state dstep (dstate0 f vol) ops) = false /\ snd (dstep (run_state dstep (dstate0 f vol) ops) (DPoll 2101 true)) = [BLAST (-1)].
Proof. exists font_b, 0. split; reflexivity. Qed.
Print Assumptions C101_pending_refuted.
(** Switched on by command after an explosion it is still armed: a short tap makes it explode. *)
Theorem C101_rearm_refuted : exists f vol,
  let ops := det_ops ++ [DPoll 2101 true; DBase (On (-1) false true); DBase (Loop false false true); DSend 4 1 1 10000 (ev 0); DSend 4 2 1 10001 (ev 0)] in
  snd (dstep (run_state dstep (dstate0 f vol) ops) (DPoll 10102 true)) = [BLAST (-1)].
Proof. exists font_b, 0. reflexivity. Qed.
Print Assumptions C101_rearm_refuted.
(** A double click, which is for the track, ends a lockup that never began. *)
Theorem C101_double_refuted : exists f vol,
  concat (run_outs dstep (run_state dstep (dstate0 f vol) det_start) [DSend 4 1 2 1000 (ev 0); DHold 4; DSend 4 2 2 1050 (ev 0)]) = [LOCKUP_END 0].
Proof. exists font_b, 0. reflexivity. Qed.
Print Assumptions C101_double_refuted.

(** ** C102 *)

(** Without a power-on sound the blaster is on, or about to be, after every change of preset, and
    a low battery does not switch it off. *)
Theorem C102_always_on : forall c s v, refuse v = false -> poweron (efont v) = false -> IsOn (pw (fst (bstep c s (Preset v)))) = true.
Proof. intros c s v. exact (preset_on s v). Qed.
Print Assumptions C102_always_on.
Theorem C102_battery : forall c s v, poweron (fnt (pw s)) = false -> bstep c s (LowBattery v) = (s, []).
Proof. intros c s v H. cbn. rewrite H. reflexivity. Qed.
Print Assumptions C102_battery.
Example C102_ex : poweron (efont (ev 0)) = false /\ snd (bstep two (bstate0 two font_a 0) (Preset (ev 0))) = [P (PREON (-1))].
Proof. split; reflexivity. Qed.
(** The documentation says the opposite: that it is on if there is a power-on sound. *)
Theorem C102_doc_refuted : exists c s v, poweron (efont v) = true /\ refuse v = false /\ IsOn (pw (fst (bstep c s (Preset v)))) = false.
Proof. exists two, (bstate0 two font_a 0), (Env 0 true false font_a 0). repeat split; reflexivity. Qed.
Print Assumptions C102_doc_refuted.
