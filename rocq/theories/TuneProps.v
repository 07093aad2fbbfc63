(** C137, C138: menus that change a setting. *)
From Coq Require Import ZArith QArith List Bool Lia Lqa ZifyBool.
From Verif Require Import ArithModel TuneModel TuneSpec TuneProofs.
Import ListNotations.
Local Open Scope Z_scope.

(** ** C137: the blade length menu *)

(** Cancelling leaves all blade lengths as they were, in memory, on the card and in the styles. *)
Theorem C137_cancel blades b s l s2 : 1 <= b <= blades -> 1 <= leds s b <= 65535 -> in_step s ->
  turns blades b (activate blades b s) l = Some s2 ->
  let s3 := exit blades b s2 in
  (forall j, mem s3 j = mem s j) /\ disk s3 = disk s /\ (forall j, made s3 j = real (leds s j) (mem s j)).
Proof. intros. eapply cancel_spec; eauto. Qed.
Definition ex_lens : lens := Lens (fun b => if b =? 2 then 100 else -1) (fun b => if b =? 2 then 100 else -1) true (fun _ => 144) (fun b => if b =? 2 then 100 else 144) 0 0.
Example C137_cancel_ex : in_step ex_lens /\ exists s2, turns 2 2 (activate 2 2 ex_lens) [true; true; false; true] = Some s2 /\
  mem s2 2 = 144 /\ pos s2 = 101 /\ mem (exit 2 2 s2) 2 = 100 /\ made (exit 2 2 s2) 2 = 100.
Proof. split; [intros b; reflexivity|]. eexists. split; [reflexivity|]. repeat split. Qed.

(** Selecting gives the blade the length that is shown, which is the old one plus the steps, around
    the end, on the card too; other blades keep theirs. *)
Theorem C137_select blades b s l s2 : 1 <= b <= blades -> 1 <= leds s b <= 65535 -> in_step s -> card s = true ->
  1 <= real (leds s b) (mem s b) <= leds s b ->
  turns blades b (activate blades b s) l = Some s2 ->
  let n := (real (leds s b) (mem s b) - 1 + net l) mod leds s b + 1 in
  let s3 := select blades b s2 in
  1 <= n <= leds s b /\ (forall led, lit s2 led = true <-> led = n - 1) /\
  made s3 b = n /\ disk s3 b = n /\ mem s3 b = n /\
  (forall j, j <> b -> made s3 j = real (leds s j) (mem s j) /\ disk s3 j = disk s j /\ mem s3 j = mem s j).
Proof.
  intros B N I C R T n s3. destruct (select_spec blades b s l s2 B I C T N R) as (S1 & S2 & S3 & S4 & S5 & _).
  fold n in S1, S2, S3, S5. fold s3 in S1, S2, S3, S4.
  split. { unfold n. pose proof (Z.mod_pos_bound (real (leds s b) (mem s b) - 1 + net l) (leds s b) ltac:(lia)). lia. }
  split. { intros led. unfold lit. rewrite S5. lia. }
  repeat split; try assumption; apply S4; assumption.
Qed.
Example C137_select_ex : exists s2, turns 2 2 (activate 2 2 ex_lens) (repeat true 50) = Some s2 /\
  made (select 2 2 s2) 2 = 6 /\ disk (select 2 2 s2) 2 = 6 /\ disk (select 2 2 s2) 1 = -1 /\ made (select 2 2 s2) 1 = 144.
Proof. eexists. split; [vm_compute; reflexivity|]. repeat split. Qed.

(** Until then the card keeps the old lengths: power lost in the menu changes nothing. *)
Theorem C137_disk blades b s l s2 : 1 <= b <= blades -> 1 <= leds s b <= 65535 ->
  turns blades b (activate blades b s) l = Some s2 -> disk s2 = disk s /\ made s2 = made s.
Proof.
  intros B N T. destruct (activate_spec blades b s B) as (A1 & A2 & A3 & A4 & A5 & A6 & A7).
  destruct (turns_spec blades b (leds s b) B N l (activate blades b s)) as (p & E & _); [rewrite A5; reflexivity|].
  rewrite E in T. injection T as <-. cbn. auto.
Qed.
Example C137_disk_ex : exists s2, turns 2 2 (activate 2 2 ex_lens) [true] = Some s2 /\ disk s2 2 = 100.
Proof. eexists. split; reflexivity. Qed.

(** Without a card the selected length is lost at once: the blade gets its full length. *)
Theorem C137_card_refuted blades b s l s2 : 1 <= b <= blades -> 1 <= leds s b <= 65535 -> card s = false ->
  turns blades b (activate blades b s) l = Some s2 -> forall j, made (select blades b s2) j = leds s j.
Proof.
  intros B N C T. destruct (activate_spec blades b s B) as (A1 & A2 & A3 & A4 & A5 & A6 & A7).
  destruct (turns_spec blades b (leds s b) B N l (activate blades b s)) as (p & E & _); [rewrite A5; reflexivity|].
  rewrite E in T. injection T as <-. intros j.
  unfold select, SetBladeLength, is_blade. replace ((1 <=? b) && (b <=? blades)) with true by lia.
  unfold SaveState, at_pos. cbn. rewrite A4, C. unfold UpdateStyle, ReadState. cbn. rewrite ?A4, ?C, ?A5. reflexivity.
Qed.
(** A stored length that does not suit the blade (of another blade, or 0) is shown, and stored again if
    it is selected without turning. *)
Theorem C137_fit_refuted blades b s : 1 <= b <= blades -> 1 <= leds s b <= 65535 -> card s = true ->
  mem s b = leds s b + 10 \/ mem s b = 0 ->
  let s3 := select blades b (activate blades b s) in
  (mem s b <> 0 -> made s3 b = leds s b + 10 \/ leds s b + 10 >= 65536) /\ (mem s b = 0 -> made s3 b = 65536).
Proof.
  intros B N C M s3. destruct (activate_spec blades b s B) as (A1 & A2 & A3 & A4 & A5 & A6 & A7).
  unfold s3, select, SetBladeLength, is_blade. replace ((1 <=? b) && (b <=? blades)) with true by lia.
  unfold SaveState, UpdateStyle, ReadState, getLength. cbn. rewrite A4, C. cbn. rewrite ?A4, ?C, ?A2, ?A5, ?upd_same.
  unfold real, u16. split; intros H.
  - destruct M as [M|M]; [|congruence]. rewrite M. destruct (Z.eqb_spec (leds s b + 10) (-1)); [lia|].
    destruct (Z_lt_ge_dec (leds s b + 10) 65536); [left|right; lia].
    rewrite Z.mod_small by lia. replace (leds s b + 10 - 1 + 1) with (leds s b + 10) by lia.
    destruct (Z.eqb_spec (leds s b + 10) (-1)); [lia|]. destruct (Z.eqb_spec (leds s b + 10) (leds s b)); [lia|]. reflexivity.
  - rewrite H. replace (((if 0 =? -1 then leds s b else 0) - 1) mod 65536 + 1) with 65536 by reflexivity.
    destruct (Z.eqb_spec 65536 (leds s b)); [lia|reflexivity].
Qed.
(** A blade without LEDs: turning divides by zero. *)
Theorem C137_none_refuted blades b s d : leds s b = 0 \/ ~ 1 <= b <= blades -> turned blades b s d = None.
Proof.
  intros H. unfold turned, size, GetMaxBladeLength, is_blade, u16.
  destruct H as [H|H]; [rewrite H; destruct (_ && _); reflexivity|].
  replace ((1 <=? b) && (b <=? blades)) with false by lia. reflexivity.
Qed.

(** ** C138: color variation, clash threshold, menu volume, switches *)

Theorem C138_variation s l : 0 <= variation s < 4294967296 ->
  let s1 := fold_left sv_turned l (sv_activate s) in
  mode s1 = CStepped /\ variation s1 = (variation s + net l) mod 4294967296 /\ changes s1 = changes s + Z.of_nat (length l) /\
  variation (sv_exit s1) = variation s /\ mode (sv_exit s1) = CNone /\
  variation (sv_select s1) = variation s1 /\ mode (sv_select s1) = CNone /\
  (mode s = CNone -> entered s1 = entered s + 1 /\ exited (sv_exit s1) = exited s + 1 /\ exited (sv_select s1) = exited s + 1).
Proof.
  intros V s1. destruct (sv_run l (sv_activate s)) as (I1 & I2 & I3 & I4 & I5 & I6). fold s1 in I1, I2, I3, I4, I5, I6.
  assert (A : mode (sv_activate s) = CStepped /\ variation (sv_activate s) = variation s /\ v_saved (sv_activate s) = to_int (variation s) /\
              changes (sv_activate s) = changes s /\ exited (sv_activate s) = exited s /\ (mode s = CNone -> entered (sv_activate s) = entered s + 1)).
  { unfold sv_activate, SetColorChangeMode. destruct s as [v m ? ? ? ?]. destruct m; cbn; repeat split; congruence. }
  destruct A as (A1 & A2 & A3 & A4 & A5 & A6). rewrite A1 in I2. rewrite A2 in I1. rewrite A3 in I3. rewrite A4 in I4. rewrite A5 in I6.
  split; [exact I2|]. split; [apply I1; exact V|]. split; [exact I4|].
  split. { unfold sv_exit. cbn. rewrite I3. unfold u32, to_int. destruct (Z.ltb_spec (variation s) 2147483648). apply Z.mod_small; lia.
           rewrite <- (Z.mod_add _ 1) by lia. rewrite Z.mod_small; lia. }
  split; [reflexivity|]. split; [reflexivity|]. split; [reflexivity|].
  intros M. rewrite I5. split; [apply A6; exact M|]. cbn. rewrite I6. auto.
Qed.
Example C138_variation_ex :
  let s := fold_left sv_turned [false; false; true; false] (sv_activate (Vari 1 CNone 0 0 0 0)) in
  variation s = 4294967295 /\ variation (sv_exit s) = 1 /\ variation (sv_exit (sv_turned (sv_activate (Vari 4294967290 CNone 0 0 0 0)) true)) = 4294967290.
Proof. repeat split. Qed.

(** The threshold set is the value shown, cut to whole G: 0 to 15. *)
Theorem C138_threshold s v : 0 <= v <= 32767 ->
  exists t, (threshold (ct_select (ct_set s v)) == inject_Z t)%Q /\ 0 <= t <= 15 /\
    (inject_Z t <= ct_said (ct_set s v) /\ ct_said (ct_set s v) < inject_Z (t + 1))%Q /\
    (ct_said (ct_set s v) == inject_Z (v * v) / inject_Z (8192 * 8192))%Q.
Proof.
  intros V. exists (v * v * 16 / 1073741824).
  assert (N : (0 <= ct_said (ct_set s v))%Q).
  { unfold ct_said, ct_bent, ct_set. cbn [value]. assert (0 <= inject_Z v / 32768)%Q.
    { apply Qle_shift_div_l; [reflexivity|]. rewrite Qmult_0_l. change 0%Q with (inject_Z 0). rewrite <- Zle_Qle. lia. }
    apply Qmult_le_0_compat; [apply Qmult_le_0_compat; assumption|discriminate]. }
  destruct (cut_nonneg _ N) as [[C1 C2] C3].
  pose proof (bent_cut v ltac:(lia)) as B.
  assert (SB : cut (ct_said (ct_set s v)) = v * v * 16 / 1073741824) by exact B.
  rewrite SB in C1, C2, C3. split; [unfold ct_select, prop_Set; cbn [threshold]; rewrite <- SB; reflexivity|].
  split. { split; [exact C3|]. assert (v * v <= 32767 * 32767) by nia. apply Z.lt_succ_r. apply Z.div_lt_upper_bound; lia. }
  split; [split; assumption|].
  unfold ct_said, ct_bent, ct_set. cbn [value]. rewrite inject_Z_mult. change (inject_Z (8192 * 8192)) with 67108864%Q. field.
Qed.
Example C138_threshold_ex : (threshold (ct_select (ct_set (ClashMenu 2 0) 14200)) == 3)%Q /\ (threshold (ct_select (ct_set (ClashMenu 2 0) 14188)) == 2)%Q.
Proof. split; reflexivity. Qed.
(** Cancelling leaves it, to the last digit. *)
Theorem C138_threshold_cancel s vs : threshold (ct_exit (fold_left ct_set vs s) (ct_get s)) = threshold s.
Proof. revert s. induction vs as [|v vs IH]; intros s; [reflexivity|]. exact (IH (ct_set s v)). Qed.
Example C138_threshold_cancel_ex : threshold (ct_exit (fold_left ct_set [1; 20000] (ClashMenu (5 # 2) 0)) 12585) = (5 # 2)%Q.
Proof. reflexivity. Qed.

(** Hence what is said is hardly ever what is set. *)
Lemma sq_even v m : v * v = 4 * m -> exists w, v = 2 * w /\ w * w = m.
Proof.
  intros H. exists (v / 2). pose proof (Z.div_mod v 2 ltac:(lia)) as D. pose proof (Z.mod_pos_bound v 2 ltac:(lia)) as B.
  assert (v mod 2 = 0).
  { assert (v mod 2 = 0 \/ v mod 2 = 1) as [E|E] by lia; [exact E|]. exfalso. rewrite E in D. set (k := v / 2) in *. clearbody k.
    assert (v * v = 4 * (k * k + k) + 1) by (rewrite D; ring). lia. }
  split; [lia|]. set (k := v / 2) in *. clearbody k. assert (E : v = 2 * k) by lia. subst v. clear - H. lia.
Qed.
Theorem C138_said_refuted s v : 0 <= v <= 32767 -> v mod 8192 <> 0 ->
  ~ (threshold (ct_select (ct_set s v)) == ct_said (ct_set s v))%Q.
Proof.
  intros V M E. destruct (C138_threshold s v V) as (t & T1 & T2 & _ & T4).
  rewrite E, T4 in T1.
  assert (H : (inject_Z (v * v) == inject_Z t * inject_Z (8192 * 8192))%Q).
  { rewrite <- T1. field. change (8192 * 8192) with 67108864. discriminate. }
  rewrite <- inject_Z_mult in H. unfold Qeq, inject_Z in H. cbn [Qnum Qden] in H.
  assert (H1 : v * v = 67108864 * t) by lia. clear - H1 M.
  assert (G : exists w, v = 8192 * w); [|destruct G as (w & ->); apply M; rewrite Z.mul_comm; apply Z_mod_mult].
  destruct (sq_even v (16777216 * t) ltac:(lia)) as (w1 & -> & S1).
  destruct (sq_even w1 (4194304 * t) ltac:(lia)) as (w2 & -> & S2).
  destruct (sq_even w2 (1048576 * t) ltac:(lia)) as (w3 & -> & S3).
  destruct (sq_even w3 (262144 * t) ltac:(lia)) as (w4 & -> & S4).
  destruct (sq_even w4 (65536 * t) ltac:(lia)) as (w5 & -> & S5).
  destruct (sq_even w5 (16384 * t) ltac:(lia)) as (w6 & -> & S6).
  destruct (sq_even w6 (4096 * t) ltac:(lia)) as (w7 & -> & S7).
  destruct (sq_even w7 (1024 * t) ltac:(lia)) as (w8 & -> & S8).
  destruct (sq_even w8 (256 * t) ltac:(lia)) as (w9 & -> & S9).
  destruct (sq_even w9 (64 * t) ltac:(lia)) as (w10 & -> & S10).
  destruct (sq_even w10 (16 * t) ltac:(lia)) as (w11 & -> & S11).
  destruct (sq_even w11 (4 * t) ltac:(lia)) as (w12 & -> & S12).
  destruct (sq_even w12 t ltac:(lia)) as (w13 & -> & S13).
  exists w13. lia.
Qed.
(** Selecting at the value the menu starts with keeps a threshold of 0, 1, 4 or 9 G and takes 1 G from
    any other whole threshold; fractions are lost first. *)
Theorem C138_keep_refuted s t : 0 <= t <= 15 -> (inject_Z t <= threshold s /\ threshold s < inject_Z (t + 1))%Q ->
  (threshold (ct_select (ct_set s (ct_get s))) == inject_Z (if (t =? 0) || (t =? 1) || (t =? 4) || (t =? 9) then t else t - 1))%Q.
Proof.
  intros T [B1 B2].
  assert (N : (0 <= threshold s)%Q).
  { apply Qle_trans with (inject_Z t); [|exact B1]. change 0%Q with (inject_Z 0). rewrite <- Zle_Qle. lia. }
  pose proof (cut_unique _ _ N B1 B2) as C. unfold ct_get, prop_Get. rewrite C. unfold ct_select, prop_Set, ct_bent, ct_set. cbn [threshold value].
  rewrite bent_cut by apply Z.sqrt_nonneg. clear - T.
  assert (t = 0 \/ t = 1 \/ t = 2 \/ t = 3 \/ t = 4 \/ t = 5 \/ t = 6 \/ t = 7 \/ t = 8 \/ t = 9 \/ t = 10 \/ t = 11 \/ t = 12 \/ t = 13 \/ t = 14 \/ t = 15) as H by lia.
  repeat (destruct H as [-> | H]; [reflexivity|]). subst t. reflexivity.
Qed.
Example C138_keep_ex : (threshold (ct_select (ct_set (ClashMenu 3 0) (ct_get (ClashMenu 3 0)))) == 2)%Q.
Proof. reflexivity. Qed.

(** The menu is quiet, and leaving it restores the font's volumes ... *)
Theorem C138_volume s l : Forall (fun i => i = Return) l ->
  let s1 := fold_left top_step l (top_activate s false) in
  hum s1 = 1 /\ eff s1 = 1 /\ hum (top_exit s1) = hum s /\ eff (top_exit s1) = eff s.
Proof.
  intros F s1. assert (E : s1 = top_activate s false).
  { unfold s1. clear s1. generalize (top_activate s false) as z. induction F as [|i l -> F IH]; intros z; cbn [fold_left]; [reflexivity|]. apply (IH z). }
  rewrite E. repeat split.
Qed.
(** ... but those of the font in use when the menu was entered, whatever font is in use when it is left. *)
Theorem C138_volume_refuted s l h e : 
  let s1 := fold_left top_step (l ++ [Font h e]) (top_activate s false) in
  hum s1 = h /\ eff s1 = e /\ hum (top_exit s1) = hum s /\ eff (top_exit s1) = eff s.
Proof.
  intros s1. assert (E : hum_ s1 = hum s /\ eff_ s1 = eff s).
  { unfold s1. generalize (l ++ [Font h e]) as m. intros m. assert (G : forall m z, hum_ (fold_left top_step m z) = hum_ z /\ eff_ (fold_left top_step m z) = eff_ z).
    { clear. induction m as [|i m IH]; intros z; cbn [fold_left]; [auto|]. destruct (IH (top_step z i)) as [-> ->]. destruct i; auto. }
    destruct (G m (top_activate s false)) as [-> ->]. auto. }
  split; [|split; [|split; apply E]]; unfold s1; rewrite fold_left_app; reflexivity.
Qed.
Example C138_volume_ex :
  let s1 := fold_left top_step [Return; Font 5 8; Return] (top_activate (Vols 15 16 0 0) false) in
  hum s1 = 5 /\ hum (top_exit s1) = 15.
Proof. split; reflexivity. Qed.

(** A direct switch turns over each time it is selected, and says what it has become; of the two entries
    of an indirect one each sets what it says. *)
Theorem C138_switch v n entry :
  Nat.iter n (fun v => fst (direct_select v)) v = xorb v (Nat.odd n) /\
  fst (direct_select v) = snd (direct_select v) /\
  (entry = 0 \/ entry = 1 -> fst (indirect_select v entry) = (entry =? 1) /\ snd (indirect_select v entry) = fst (indirect_select v entry)).
Proof.
  split; [|split; [reflexivity|auto]].
  induction n as [|n IH]; [destruct v; reflexivity|]. change (Nat.iter (S n) (fun v => fst (direct_select v)) v) with (fst (direct_select (Nat.iter n (fun v => fst (direct_select v)) v))).
  rewrite IH. cbn [direct_select fst]. rewrite Nat.odd_succ, <- Nat.negb_odd. destruct v, (Nat.odd n); reflexivity.
Qed.
Example C138_switch_ex : Nat.iter 3 (fun v => fst (direct_select v)) true = false.
Proof. reflexivity. Qed.

Print Assumptions C137_cancel.
Print Assumptions C137_select.
Print Assumptions C137_disk.
Print Assumptions C137_card_refuted.
Print Assumptions C137_fit_refuted.
Print Assumptions C137_none_refuted.
Print Assumptions C138_variation.
Print Assumptions C138_threshold.
Print Assumptions C138_threshold_cancel.
Print Assumptions C138_said_refuted.
Print Assumptions C138_keep_refuted.
Print Assumptions C138_volume.
Print Assumptions C138_volume_refuted.
Print Assumptions C138_switch.
