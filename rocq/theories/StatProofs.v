From Coq Require Import ZArith QArith Qabs List Bool Lia ZifyBool Lqa.
From Verif Require Import ArithModel PovModel PovSpec PovProofs StatModel StatSpec.
Import ListNotations.
Local Open Scope Z_scope.

Lemma elapsed_u32 : forall a b, u32 (b - a) = elapsed a b.
Proof. reflexivity. Qed.

(** Blinking *)
Definition blinking (n : Z) (again : bool) (start : Z) (l : led) : Prop :=
  blinks l = n /\ repeat_ l = again /\ blink_start l = start.
Lemma elapsed_range : forall a b, 0 <= elapsed a b < 4294967296.
Proof. intros. unfold elapsed. apply Z.mod_pos_bound. lia. Qed.

Lemma loop_blink : forall n again start i l, 0 < n -> blinking n again start l ->
  elapsed start (ms i) < length_of n -> 5 <= elapsed (last_ms l) (ms i) ->
  blinking n again start (Loop i l) /\ pin (Loop i l) = Some (flash n (elapsed start (ms i))) /\ last_ms (Loop i l) = ms i.
Proof.
  intros n again start i l Hn (B1 & B2 & B3) HD HT. unfold length_of in HD.
  unfold Loop. rewrite elapsed_u32. replace (elapsed (last_ms l) (ms i) <? 5) with false by lia.
  cbn [blinks active]. rewrite B1. replace (n =? 0) with false by lia.
  replace (negb _) with false by (cbn; rewrite orb_true_r; reflexivity).
  set (l1 := if active l then _ else _).
  assert (F : blinks l1 = n /\ repeat_ l1 = again /\ blink_start l1 = start /\ last_ms l1 = ms i)
    by (unfold l1; destruct (active l); cbn; auto).
  clearbody l1. destruct F as (F1 & F2 & F3 & F4). unfold show. rewrite F1, F3, elapsed_u32.
  replace (n =? 0) with false by lia. pose proof (elapsed_range start (ms i)) as R. set (d := elapsed start (ms i)) in *.
  unfold flash, blinking. pose proof (Z.div_mod d 500 ltac:(lia)) as DM. pose proof (Z.mod_pos_bound d 500 ltac:(lia)) as MB.
  destruct (d / 500 <? n) eqn:E1.
  - cbn [set_pin blinks repeat_ blink_start pin last_ms]. rewrite F1, F2, F3, F4. repeat split; auto.
    f_equal. replace (d <? 500 * n) with true by nia. cbn [andb]. rewrite Z.gtb_ltb. reflexivity.
  - replace (d / 500 <? n + 3) with true by nia. cbn [set_pin blinks repeat_ blink_start pin last_ms].
    rewrite F1, F2, F3, F4. repeat split; auto. replace (d <? 500 * n) with false by nia. reflexivity.
Qed.
Lemma loop_keep : forall n again start i l, 0 < n -> blinking n again start l ->
  elapsed start (ms i) < length_of n -> blinking n again start (Loop i l).
Proof.
  intros n again start i l Hn B HD. destruct (Z_lt_le_dec (elapsed (last_ms l) (ms i)) 5) as [H|H].
  - unfold Loop. rewrite elapsed_u32. replace (elapsed (last_ms l) (ms i) <? 5) with true by lia. exact B.
  - apply loop_blink; auto.
Qed.
Lemma loops_keep : forall n again start is l, 0 < n -> blinking n again start l ->
  Forall (fun i => elapsed start (ms i) < length_of n) is -> blinking n again start (Loops l is).
Proof.
  intros n again start is. induction is as [|i is IH]; intros l Hn B H; auto.
  inversion H; subst. cbn [Loops]. apply IH; auto. apply loop_keep; auto.
Qed.

Lemma loop_restart : forall n start i l, 0 < n -> blinking n true start l ->
  length_of n <= elapsed start (ms i) -> 5 <= elapsed (last_ms l) (ms i) ->
  blinking n true (ms i) (Loop i l) /\ last_ms (Loop i l) = ms i /\ (active l = true -> pin (Loop i l) = pin l).
Proof.
  intros n start i l Hn (B1 & B2 & B3) HD HT. unfold length_of in HD.
  unfold Loop. rewrite elapsed_u32. replace (elapsed (last_ms l) (ms i) <? 5) with false by lia.
  cbn [blinks active]. rewrite B1. replace (n =? 0) with false by lia.
  replace (negb _) with false by (cbn; rewrite orb_true_r; reflexivity).
  set (l1 := if active l then _ else _).
  assert (F : blinks l1 = n /\ repeat_ l1 = true /\ blink_start l1 = start /\ last_ms l1 = ms i /\ (active l = true -> pin l1 = pin l))
    by (unfold l1; destruct (active l); cbn; repeat split; auto; discriminate).
  clearbody l1. destruct F as (F1 & F2 & F3 & F4 & F5). unfold show. rewrite F1, F3, elapsed_u32.
  replace (n =? 0) with false by lia. pose proof (elapsed_range start (ms i)) as R. set (d := elapsed start (ms i)) in *.
  pose proof (Z.div_mod d 500 ltac:(lia)) as DM. pose proof (Z.mod_pos_bound d 500 ltac:(lia)) as MB.
  replace (d / 500 <? n) with false by nia. replace (d / 500 <? n + 3) with false by nia. rewrite F2.
  unfold blinking. cbn [blinks repeat_ blink_start last_ms pin]. auto.
Qed.
Lemma loops_again : forall n is start l, 0 < n -> blinking n true start l -> spaced (last_ms l) (map ms is) ->
  blinking n true (began n start (map ms is)) (Loops l is).
Proof.
  intros n is. induction is as [|i is IH]; intros start l Hn B S; auto.
  cbn [map spaced Loops began] in *. destruct S as [S1 S2].
  destruct (length_of n <=? elapsed start (ms i)) eqn:E.
  - destruct (loop_restart n start i l Hn B ltac:(lia) S1) as (B' & L & _). apply IH; auto. rewrite L. auto.
  - destruct (loop_blink n true start i l Hn B ltac:(lia) S1) as (B' & _ & L). apply IH; auto. rewrite L. auto.
Qed.
Lemma loop_end : forall n start i l, 0 < n -> blinking n false start l ->
  length_of n <= elapsed start (ms i) -> 5 <= elapsed (last_ms l) (ms i) ->
  blinks (Loop i l) = 0 /\ last_ms (Loop i l) = ms i /\ active (Loop i l) = true.
Proof.
  intros n start i l Hn (B1 & B2 & B3) HD HT. unfold length_of in HD.
  unfold Loop. rewrite elapsed_u32. replace (elapsed (last_ms l) (ms i) <? 5) with false by lia.
  cbn [blinks active]. rewrite B1. replace (n =? 0) with false by lia.
  replace (negb _) with false by (cbn; rewrite orb_true_r; reflexivity).
  set (l1 := if active l then _ else _).
  assert (F : blinks l1 = n /\ repeat_ l1 = false /\ blink_start l1 = start /\ last_ms l1 = ms i /\ active l1 = true)
    by (unfold l1; destruct (active l) eqn:A; cbn; auto).
  clearbody l1. destruct F as (F1 & F2 & F3 & F4 & F5). unfold show. rewrite F1, F3, elapsed_u32.
  replace (n =? 0) with false by lia. pose proof (elapsed_range start (ms i)) as R. set (d := elapsed start (ms i)) in *.
  pose proof (Z.div_mod d 500 ltac:(lia)) as DM. pose proof (Z.mod_pos_bound d 500 ltac:(lia)) as MB.
  replace (d / 500 <? n) with false by nia. replace (d / 500 <? n + 3) with false by nia. rewrite F2.
  unfold pulse. cbn [blinks last_ms active]. auto.
Qed.

(** The pulse *)
Lemma speed_range : forall q, (50 <= speed q <= 250)%Q.
Proof.
  intros q. unfold speed. set (s := (500000 / (q + 1))%Q). clearbody s.
  destruct (Qle_bool 50 s) eqn:E; cbn [negb].
  - apply Qle_bool_iff in E. destruct (Qle_bool s 250) eqn:F; cbn [negb].
    + apply Qle_bool_iff in F. split; auto.
    + split; lra.
  - destruct (Qle_bool 50 250) eqn:F; cbn [negb]; split; lra.
Qed.
Lemma wave_range : forall u p, (0 <= p)%Q -> (p < 1)%Q -> (0 <= wave u p <= 1)%Q.
Proof.
  intros u p H1 H2. unfold wave. destruct u; [split; lra|].
  destruct (Qlt_le_dec (2 * p - 1) 0).
  - rewrite (Qabs_neg (2 * p - 1)) by lra. split; lra.
  - rewrite (Qabs_pos (2 * p - 1)) by lra. split; lra.
Qed.
Lemma level_floor : forall i p, (0 <= p)%Q -> (p < 1)%Q -> charging i && (ms i mod 2048 <? 100) = false ->
  floor_of (level i p) (wave (usb_on i) p * (if ignited i then 32767 else 4096)) /\ 0 <= level i p.
Proof.
  intros i p H1 H2 HC. unfold level.
  change 2047 with (Z.ones 11). rewrite Z.land_ones by lia. change (2 ^ 11) with 2048. rewrite HC.
  set (v := if usb_on i then p else _).
  assert (E : (v == wave (usb_on i) p)%Q).
  { unfold v, wave. destruct (usb_on i); [lra|]. destruct (Qle_bool p (1 # 2)) eqn:E; cbn [negb].
    - apply Qle_bool_iff in E. rewrite Qabs_neg by lra. lra.
    - assert (~ (p <= 1 # 2)%Q) by (intros X; apply Qle_bool_iff in X; congruence).
      rewrite Qabs_pos by lra. lra. }
  clearbody v. pose proof (wave_range (usb_on i) p H1 H2) as W.
  set (k := (if ignited i then 32767 else 4096)%Q). assert (K : (0 <= k)%Q) by (unfold k; destruct (ignited i); lra).
  destruct (to_int_floor (v * k)) as [F P]; [rewrite E; apply Qmult_le_0_compat; lra|].
  split; auto. unfold floor_of in *. rewrite <- E. exact F.
Qed.
Lemma level_charge : forall i p, charging i = true -> ms i mod 2048 < 100 -> level i p = 32767.
Proof.
  intros i p H1 H2. unfold level. change 2047 with (Z.ones 11). rewrite Z.land_ones by lia. change (2 ^ 11) with 2048.
  rewrite H1. replace (ms i mod 2048 <? 100) with true by lia. reflexivity.
Qed.
Lemma level_range : forall i p, (0 <= p)%Q -> (p < 1)%Q -> 0 <= level i p <= 32767.
Proof.
  intros i p H1 H2. destruct (charging i && (ms i mod 2048 <? 100)) eqn:E.
  - rewrite level_charge; lia.
  - destruct (level_floor i p H1 H2 E) as [[F _] P]. split; auto.
    pose proof (wave_range (usb_on i) p H1 H2) as W.
    assert (X : (inject_Z (level i p) <= inject_Z 32767)%Q).
    { eapply Qle_trans; [exact F|]. change (inject_Z 32767) with 32767%Q. destruct (ignited i); lra. }
    rewrite <- Zle_Qle in X. exact X.
Qed.

(** Histories *)
Definition inv (l : led) : Prop :=
  match pin l with None => active l = false | Some v => active l = true /\ 0 <= v <= 32768 end.
Lemma show_inv : forall i l, inv l -> active l = true -> inv (show i l).
Proof.
  intros i l H A. unfold show.
  assert (P : forall l, active l = true -> inv (pulse i l)).
  { intros x Ax. unfold pulse, inv. cbn [pin active]. split; auto.
    match goal with |- context [level i ?p] => pose proof (fract_range) as FR;
      assert (0 <= level i p <= 32767) by (apply level_range; apply FR) end. lia. }
  destruct (blinks l =? 0); [apply P; auto|].
  destruct (_ <? blinks l). { unfold inv. cbn [pin set_pin active]. split; auto. destruct (_ >? 250); lia. }
  destruct (_ <? blinks l + 3). { unfold inv. cbn [pin set_pin active]. split; auto. lia. }
  destruct (repeat_ l); [exact H|]. apply P. exact A.
Qed.
Lemma loop_inv : forall i l, inv l -> inv (Loop i l).
Proof.
  intros i l H. unfold Loop. destruct (_ <? 5); auto.
  destruct (negb _).
  - cbn [active]. destruct (active l) eqn:A; [reflexivity|]. unfold inv in *. cbn [pin active]. rewrite A in H. exact H.
  - cbn [active]. destruct (active l) eqn:A.
    + apply show_inv; [|exact A || reflexivity]. unfold inv in *. cbn [pin active]. rewrite A in H. exact H.
    + apply show_inv; [|reflexivity]. unfold inv. cbn. split; auto. lia.
Qed.
Lemma after_inv : forall es l, inv l -> inv (after l es).
Proof.
  intros es. induction es as [|e es IH]; intros l H; auto. cbn [after fold_left]. apply IH.
  destruct e; cbn [happen]; [exact H|apply loop_inv; auto].
Qed.
Lemma fresh_inv : forall l, fresh l -> inv l.
Proof. intros l (A & P & _). unfold inv. rewrite P. exact A. Qed.

Lemma loop_dark : forall i l, inv l -> blinks l = 0 -> wanted i = false -> 5 <= elapsed (last_ms l) (ms i) ->
  pin (Loop i l) = None.
Proof.
  intros i l H B W T. unfold Loop. rewrite elapsed_u32. replace (_ <? 5) with false by lia. cbn [blinks active].
  rewrite B. unfold wanted in W. cbn [negb Z.eqb]. rewrite orb_false_r.
  rewrite W. cbn [negb]. destruct (active l) eqn:A; [reflexivity|]. cbn [pin]. unfold inv in H.
  destruct (pin l); auto. destruct H. congruence.
Qed.
Lemma loop_pulse : forall i l, blinks l = 0 -> wanted i = true -> 5 <= elapsed (last_ms l) (ms i) ->
  let p := pos (Loop i l) in
  pin (Loop i l) = Some (level i p) /\ last_us (Loop i l) = us i /\ last_ms (Loop i l) = ms i /\ blinks (Loop i l) = 0 /\
  p = fract (pos l + speed (lps i) * inject_Z (elapsed (last_us l) (us i)) * (1 # 1000000) / 60)%Q.
Proof.
  intros i l B W T. unfold Loop. rewrite elapsed_u32. replace (_ <? 5) with false by lia. cbn [blinks active].
  rewrite B. unfold wanted in W. cbn [negb Z.eqb]. rewrite orb_false_r. rewrite W. cbn [negb].
  destruct (active l); unfold show; cbn [blinks Z.eqb]; unfold pulse; cbn; auto.
Qed.
