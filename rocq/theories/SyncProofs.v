From Coq Require Import List ZArith Bool Lia ZifyBool ZifyNat.
From Verif Require Import ArithModel ArithProofs ColorModel SyncModel SyncSpec.
Import ListNotations.
Local Open Scope Z_scope.

Lemma i32_signed : forall v, 0 <= v < 2 ^ 32 -> i32 v = signed v.
Proof.
  intros v H. unfold i32, signed. destruct (Z.ltb_spec v (2 ^ 31)).
  - rewrite Z.mod_small by lia. lia.
  - replace (v + 2 ^ 31) with (v - 2 ^ 31 + 1 * 2 ^ 32) by lia.
    rewrite Z.mod_add, Z.mod_small by lia. lia.
Qed.

Definition wf (s : sync) : Prop :=
  0 <= variation s < 2 ^ 32 /\ 0 < alts s < 2 ^ 31 /\ 0 <= alt s < alts s.

Definition op_ok (o : sync_op) : Prop :=
  match o with AltSound k => -1 <= k | _ => True end.

Lemma var_eq : forall s, wf s ->
  MOD (i32 (variation s)) (alts s) = stands_for (variation s) (alts s).
Proof.
  intros s (V & N & A). rewrite MOD_correct by lia. now rewrite i32_signed.
Qed.

Lemma stands_range : forall v n, 0 < n -> 0 <= stands_for v n < n.
Proof. intros. apply Z.mod_pos_bound. lia. Qed.

Lemma stands_alt : forall a n, 0 <= a < n -> n < 2 ^ 31 -> stands_for a n = a.
Proof.
  intros a n H N. unfold stands_for, signed.
  destruct (Z.ltb_spec a (2 ^ 31)); [|lia]. apply Z.mod_small. lia.
Qed.

Lemma alt_sound_spec : forall s k, wf s -> -1 <= k ->
  alt_sound s k = Sync (variation s)
    (if k =? -1 then (if alt s + 1 =? alts s then 0 else alt s + 1)
     else Z.min k (alts s - 1)) (alts s) (seen s) (sounds s).
Proof.
  intros s k (V & N & A) K. unfold alt_sound.
  destruct (Z.eqb_spec (alts s) 0); [lia|].
  destruct (Z.eqb_spec k (-1)); auto.
  destruct (Z.geb_spec (alt s + 1) (alts s)), (Z.eqb_spec (alt s + 1) (alts s));
    try lia; reflexivity.
Qed.

(** One turn, in words. *)
Lemma sync_loop_cases : forall s, wf s ->
  let var := stands_for (variation s) (alts s) in
  sync_loop s =
    if (var =? seen s) && (alt s =? seen s) then s
    else if seen s =? 2147483647 then
      Sync (variation s) var (alts s) var (sounds s)
    else if negb (var =? seen s) then
      Sync (variation s) var (alts s) var (sounds s ++ [var])
    else Sync (alt s) (alt s) (alts s) (alt s) (sounds s).
Proof.
  intros s W var. unfold sync_loop. rewrite (var_eq s W). fold var.
  pose proof W as (V & N & A).
  assert (R : 0 <= var < alts s) by (apply stands_range; lia). clearbody var.
  destruct (Z.eqb_spec (alts s) 0); [lia|].
  rewrite (alt_sound_spec s var) by (auto; lia). cbn [variation alt alts sounds].
  destruct (Z.eqb_spec var (-1)); [lia|].
  replace (Z.min var (alts s - 1)) with var by lia.
  rewrite Z.mod_small by lia. reflexivity.
Qed.

Lemma wf_step : forall s o, wf s -> op_ok o ->
  wf (sync_step s o) /\ alts (sync_step s o) = alts s.
Proof.
  intros s o W K. pose proof W as (V & N & A). destruct o; cbn [sync_step].
  - unfold wf; cbn. pose proof (Z.mod_pos_bound v (2 ^ 32) ltac:(lia)). repeat split; lia.
  - unfold wf; cbn.
    pose proof (Z.mod_pos_bound (variation s + d) (2 ^ 32) ltac:(lia)). repeat split; lia.
  - cbn in K. rewrite (alt_sound_spec s n) by auto. unfold wf; cbn [variation alt alts].
    destruct (Z.eqb_spec n (-1)); [destruct (Z.eqb_spec (alt s + 1) (alts s))|];
      repeat split; lia.
  - rewrite (sync_loop_cases s W). set (var := stands_for _ _).
    assert (R : 0 <= var < alts s) by (apply stands_range; lia). clearbody var.
    destruct ((var =? seen s) && (alt s =? seen s)); [split; auto|].
    destruct (seen s =? 2147483647); [unfold wf; cbn; repeat split; lia|].
    destruct (negb (var =? seen s)); unfold wf; cbn; repeat split; lia.
Qed.

Lemma wf_run : forall ops s, wf s -> Forall op_ok ops ->
  wf (fold_left sync_step ops s) /\ alts (fold_left sync_step ops s) = alts s.
Proof.
  induction ops as [|o ops IH]; intros s W K; cbn [fold_left]; auto.
  inversion K as [|? ? K1 K2]; subst.
  destruct (wf_step s o W K1) as [W' E]. destruct (IH _ W' K2) as [W2 E2].
  split; auto. congruence.
Qed.

Lemma loop_agrees : forall s, wf s ->
  let s' := sync_loop s in
  alt s' = stands_for (variation s') (alts s') /\ seen s' = alt s'.
Proof.
  intros s W s'. unfold s'. clear s'. rewrite (sync_loop_cases s W).
  pose proof W as (V & N & A).
  set (var := stands_for _ _).
  assert (R : 0 <= var < alts s) by (apply stands_range; lia).
  destruct ((var =? seen s) && (alt s =? seen s)) eqn:E.
  - apply andb_true_iff in E. destruct E as [E1 E2].
    apply Z.eqb_eq in E1. apply Z.eqb_eq in E2. fold var. split; congruence.
  - destruct (seen s =? 2147483647); [cbn; split; auto|].
    destruct (negb (var =? seen s)); [cbn; split; auto|].
    cbn [alt variation alts seen]. rewrite stands_alt by lia. auto.
Qed.

Lemma agree : forall ops s, wf s -> Forall op_ok ops ->
  let s' := fold_left sync_step (ops ++ [SyncLoop]) s in
  alt s' = stands_for (variation s') (alts s) /\ 0 <= alt s' < alts s.
Proof.
  intros ops s W K s'. unfold s'. rewrite fold_left_app. cbn [fold_left].
  destruct (wf_run ops s W K) as [W1 E1].
  destruct (wf_step _ SyncLoop W1 I) as [W2 E2]. rewrite E1 in E2.
  destruct (loop_agrees _ W1) as [A _]. cbn [sync_step] in *.
  rewrite E2 in A. split; auto. destruct W2 as (_ & _ & W2). lia.
Qed.

Lemma change : forall s, wf s -> seen s <> 2147483647 ->
  let var := stands_for (variation s) (alts s) in
  let s' := sync_loop s in
  (var <> seen s ->
     alt s' = var /\ variation s' = variation s /\ sounds s' = sounds s ++ [var]) /\
  (var = seen s -> alt s <> seen s ->
     alt s' = alt s /\ variation s' = alt s /\ sounds s' = sounds s) /\
  (var = seen s -> alt s = seen s -> s' = s).
Proof.
  intros s W S var s'. unfold s'. rewrite (sync_loop_cases s W). fold var.
  clearbody var. destruct (Z.eqb_spec (seen s) 2147483647); [easy|].
  destruct (Z.eqb_spec var (seen s)), (Z.eqb_spec (alt s) (seen s));
    cbn [andb negb]; repeat split; intros; try easy; try reflexivity.
Qed.

(** ** LengthFinder *)

Lemma u32_small : forall x, 0 <= x < 2 ^ 32 -> u32 x = x.
Proof. intros. unfold u32. apply Z.mod_small. lia. Qed.

Lemma signed_small : forall v, 0 <= v < 2 ^ 31 -> i32 v = v.
Proof. intros. unfold i32. rewrite Z.mod_small; lia. Qed.

Lemma u32_led : forall l, -1 <= l < 2 ^ 31 -> forall v, 0 <= v < 2 ^ 31 ->
  (v =? u32 l) = (v =? l).
Proof.
  intros l L v V. unfold u32.
  destruct (Z.eq_dec l (-1)) as [->|]; [|rewrite Z.mod_small by lia; reflexivity].
  replace ((-1) mod 2 ^ 32) with (2 ^ 32 - 1) by reflexivity. lia.
Qed.

Definition finder_ok (f : finder) : Prop := -1 <= led f < 2 ^ 31.

Lemma finder_run_spec : forall leds f var now, 0 < leds < 2 ^ 31 ->
  0 <= var < 2 ^ 32 -> finder_ok f ->
  let v := Z.min var (leds - 1) in
  let say := (say_it f || negb (v =? led f)) in
  finder_run leds f var now =
    if say && (3000 <? u32 (now - last_speak f))
    then (Finder false v now, v, Some (v + 1))
    else (Finder say v (last_speak f), v, None).
Proof.
  intros leds f var now L V F v say. unfold finder_run.
  destruct (Z.ltb_spec var 0); [lia|].
  rewrite (u32_small leds), (u32_small (leds - 1)) by lia.
  assert (E : (if leds <=? var then leds - 1 else var) = v)
    by (unfold v; destruct (Z.leb_spec leds var); lia).
  rewrite E. clear E.
  assert (R : 0 <= v < 2 ^ 31) by (unfold v; lia). clearbody v.
  rewrite (u32_led (led f) F v R), signed_small by lia. unfold say.
  destruct (Z.eqb_spec v (led f)) as [E|E]; cbn [negb say_it led last_speak].
  - rewrite orb_false_r. subst v. destruct (say_it f && _); auto. now destruct f.
  - rewrite orb_true_r. cbn [andb]. destruct (3000 <? _); reflexivity.
Qed.

Lemma finder_keeps : forall leds f var now, 0 < leds < 2 ^ 31 -> 0 <= var < 2 ^ 32 ->
  finder_ok f -> finder_ok (fst (fst (finder_run leds f var now))).
Proof.
  intros. rewrite finder_run_spec by auto. unfold finder_ok.
  destruct (_ && _); cbn [fst led]; lia.
Qed.

Definition vars_ok (l : list (Z * Z)) : Prop :=
  Forall (fun x => 0 <= fst x < 2 ^ 32) l.

Lemma finder_pace : forall leds l f, 0 < leds < 2 ^ 31 -> finder_ok f -> vars_ok l ->
  forall said, snd (finder_history leds f l) = said ->
  (forall k x, nth_error said k = Some x ->
     3000 < u32 (fst x - match k with
                         | O => last_speak f
                         | S k => fst (nth k said (0, 0))
                         end)) /\
  last_speak (fst (finder_history leds f l)) =
    last (map fst said) (last_speak f).
Proof.
  intros leds l. induction l as [|[var now] l IH]; intros f L F V said E.
  - cbn in E. subst said. split; [intros [|k]; discriminate | reflexivity].
  - inversion V as [|? ? V1 V2]; subst. cbn [fst] in V1. cbn [finder_history].
    pose proof (finder_keeps leds f var now L V1 F) as F'.
    rewrite finder_run_spec in F' |- * by auto.
    set (v := Z.min var (leds - 1)) in *. set (say := say_it f || _) in *.
    destruct (say && (3000 <? u32 (now - last_speak f))) eqn:S; cbn [fst] in F'.
    + apply andb_true_iff in S. destruct S as [_ S].
      specialize (IH _ L F' V2 _ eq_refl).
      destruct (finder_history leds _ l) as [f' said'] eqn:H.
      cbn [fst snd last_speak] in IH |- *. destruct IH as [IH1 IH2]. split.
      * intros [|k] x X; cbn [nth_error] in X.
        { injection X as <-. cbn [fst]. lia. }
        specialize (IH1 k x X). destruct k; cbn [nth fst]; exact IH1.
      * rewrite IH2. cbn [map fst]. clear.
        destruct (map fst said'); [reflexivity|]. cbn [last].
        revert z. induction l as [|y l IHl]; intros z; [reflexivity|].
        cbn [last] in *. destruct l; auto.
    + specialize (IH _ L F' V2 _ eq_refl).
      destruct (finder_history leds _ l) as [f' said'] eqn:H.
      cbn [fst snd last_speak] in IH |- *. exact IH.
Qed.

(** What was said last is what is lit, unless it is still to be said. *)
Lemma finder_last : forall leds l f k0, 0 < leds < 2 ^ 31 -> finder_ok f -> vars_ok l ->
  (say_it f = false -> k0 = led f + 1) ->
  let '(f', said) := finder_history leds f l in
  finder_ok f' /\
  (say_it f' = false -> last (map snd said) k0 = led f' + 1).
Proof.
  intros leds l. induction l as [|[var now] l IH]; intros f k0 L F V E.
  - cbn. auto.
  - inversion V as [|? ? V1 V2]; subst. cbn [fst] in V1. cbn [finder_history].
    pose proof (finder_keeps leds f var now L V1 F) as F'.
    rewrite finder_run_spec in F' |- * by auto.
    set (v := Z.min var (leds - 1)) in *.
    destruct ((say_it f || negb (v =? led f)) && (3000 <? u32 (now - last_speak f)));
      cbn [fst] in F'.
    + specialize (IH (Finder false v now) (v + 1) L F' V2 ltac:(intros; reflexivity)).
      destruct (finder_history leds _ l) as [f' said'].
      destruct IH as [A B]. split; auto. intros S. rewrite <- (B S). cbn [map snd].
      clear. destruct (map snd said'); [reflexivity|]. cbn [last].
      revert z. induction l as [|y l IHl]; intros z; [reflexivity|].
      cbn [last] in *. destruct l; auto.
    + assert (E' : say_it f || negb (v =? led f) = false -> k0 = v + 1).
      { intros S. apply orb_false_iff in S. destruct S as [S1 S2]. rewrite (E S1). lia. }
      specialize (IH (Finder (say_it f || negb (v =? led f)) v (last_speak f)) k0
                     L F' V2 E').
      destruct (finder_history leds _ l) as [f' said']. exact IH.
Qed.

Lemma finder_history_app : forall leds a b f,
  finder_history leds f (a ++ b) =
  let '(f1, s1) := finder_history leds f a in
  let '(f2, s2) := finder_history leds f1 b in (f2, s1 ++ s2).
Proof.
  intros leds. induction a as [|[var now] a IH]; intros b f; cbn [app finder_history].
  - now destruct (finder_history leds f b).
  - destruct (finder_run leds f var now) as [[f1 v] o]. rewrite IH.
    destruct (finder_history leds f1 a) as [f2 s1].
    destruct (finder_history leds f2 b) as [f3 s2]. now destruct o.
Qed.

Lemma finder_told : forall leds l var now, 0 < leds < 2 ^ 31 -> vars_ok l ->
  0 <= var < 2 ^ 32 ->
  3000 < u32 (now - last_speak (fst (finder_history leds finder0 l))) ->
  last (map snd (snd (finder_history leds finder0 (l ++ [(var, now)])))) 0 =
    Z.min var (leds - 1) + 1.
Proof.
  intros leds l var now L V V1 T.
  assert (F0 : finder_ok finder0) by (unfold finder_ok, finder0; cbn; lia).
  assert (F : finder_ok (fst (finder_history leds finder0 l))).
  { pose proof (finder_last leds l finder0 0 L F0 V ltac:(discriminate)) as H.
    destruct (finder_history leds finder0 l). apply H. }
  assert (VA : vars_ok (l ++ [(var, now)]))
    by (apply Forall_app; split; auto).
  pose proof (finder_last leds (l ++ [(var, now)]) finder0 0 L F0 VA
                ltac:(discriminate)) as H.
  rewrite finder_history_app in H |- *.
  destruct (finder_history leds finder0 l) as [f1 s1]. cbn [fst] in T, F.
  cbn [finder_history] in H |- *. rewrite finder_run_spec in H |- * by auto.
  set (v := Z.min var (leds - 1)) in *.
  destruct (Z.ltb_spec 3000 (u32 (now - last_speak f1))) as [_|]; [|lia].
  rewrite andb_true_r in H |- *.
  destruct (say_it f1 || negb (v =? led f1)) eqn:S; cbn [snd] in H |- *;
    destruct H as [_ H]; cbn [say_it led] in H; exact (H eq_refl).
Qed.

(** ** The loop that sets the LEDs *)

Lemma dimmed_spec : forall d c, 0 <= d <= 16384 -> channels_ok c ->
  dimmed d c = map1 (dim_channel d) c.
Proof.
  intros d [x y z] D (R & G & B). cbn [r g b] in *. unfold dimmed, map1, dim_channel.
  cbn [r g b]. rewrite !Z.shiftr_div_pow2 by lia. change (2 ^ 14) with 16384.
  assert (K : forall u, 0 <= u <= 65535 ->
            clampi32 (u * d / 16384) 0 65535 = u * d / 16384).
  { intros u U. assert (0 <= u * d / 16384) by (apply Z.div_pos; nia).
    assert (u * d / 16384 <= 65535) by (apply Z.div_le_upper_bound; nia).
    unfold clampi32. set (q := u * d / 16384) in *. clearbody q.
    destruct (Z.ltb_spec q 0); [lia|]. destruct (Z.gtb_spec q 65535); lia. }
  now rewrite !K by auto.
Qed.

Lemma dimmed_full : forall c, channels_ok c -> dimmed 16384 c = c.
Proof.
  intros c H. rewrite dimmed_spec by (auto; lia). destruct c as [x y z].
  unfold map1, dim_channel. cbn [r g b]. now rewrite !Z.div_mul by lia.
Qed.

Lemma runloop_nth : forall handled colorless var dimming leds style i,
  (i < leds)%nat ->
  nth_error (runloop handled colorless var dimming leds style) i =
  Some (let '(c, od) := style (Z.of_nat i) in
        let c := if negb handled && negb colorless && negb (Z.land var 32767 =? 0)
                 then rotate c (Z.land var 32767 * 3) else c in
        if od then Write (Z.of_nat i) c true
        else Write (Z.of_nat i) (dimmed dimming c) false).
Proof.
  intros. unfold runloop, runloop2.
  set (f := fun i : nat => _).
  assert (N : nth_error (seq 0 leds) i = Some i).
  { rewrite (nth_error_nth' _ 0%nat) by (rewrite seq_length; lia).
    now rewrite seq_nth by lia. }
  rewrite (map_nth_error f i (seq 0 leds) N). reflexivity.
Qed.

Lemma runloop_length : forall handled colorless var dimming leds style,
  length (runloop handled colorless var dimming leds style) = leds.
Proof. intros. unfold runloop, runloop2. now rewrite map_length, seq_length. Qed.

Lemma nth_error_same : forall (a b : list color),
  (forall i, nth_error a i = nth_error b i) -> a = b.
Proof.
  induction a as [|x a IH]; intros [|y b] H; auto.
  - specialize (H 0%nat). discriminate.
  - specialize (H 0%nat). discriminate.
  - pose proof (H 0%nat) as H0. injection H0 as ->. f_equal. apply IH.
    intros i. exact (H (S i)).
Qed.

(** Writing the LEDs from [k] on, in order. *)
Lemma set_leds_row : forall ws done rest k, k = length done ->
  (length ws <= length rest)%nat ->
  (forall i w, nth_error ws i = Some w -> w_led w = Z.of_nat (k + i)) ->
  set_leds (done ++ rest) ws =
    Some (done ++ map w_color ws ++ skipn (length ws) rest).
Proof.
  induction ws as [|w ws IH]; intros done rest k K L E; cbn [set_leds length map app skipn].
  - reflexivity.
  - destruct rest as [|c rest]; [cbn in L; lia|].
    pose proof (E 0%nat w eq_refl) as E0. rewrite Nat.add_0_r in E0.
    unfold set_led. rewrite E0, app_length. cbn [length].
    destruct (Z.ltb_spec (Z.of_nat k) 0); [lia|].
    destruct (Z.leb_spec (Z.of_nat (length done + S (length rest))) (Z.of_nat k)); [lia|].
    cbn [orb]. rewrite Nat2Z.id. subst k.
    rewrite firstn_app, firstn_all, Nat.sub_diag. cbn [firstn]. rewrite app_nil_r.
    rewrite skipn_app. rewrite skipn_all2 by lia.
    replace (length done + 1 - length done)%nat with 1%nat by lia. cbn [skipn app].
    replace (done ++ w_color w :: rest) with ((done ++ [w_color w]) ++ rest)
      by now rewrite <- app_assoc.
    rewrite (IH _ _ (S (length done))).
    + rewrite <- !app_assoc. reflexivity.
    + rewrite app_length. cbn. lia.
    + cbn in L. lia.
    + intros i w' W. rewrite (E (S i) w' W). f_equal. lia.
Qed.

Lemma shorten_shown : forall shown len frame, 0 <= len ->
  let k := Z.min (Z.of_nat (length shown)) len in
  length (frame k) = Z.to_nat k ->
  (forall i w, nth_error (frame k) i = Some w -> w_led w = Z.of_nat i) ->
  set_leds shown (snd (shorten (Z.of_nat (length shown)) len frame)) =
    Some (map w_color (frame k) ++ repeat black (length shown - Z.to_nat k)).
Proof.
  intros shown len frame L k FL FE. unfold shorten. fold k. cbn [snd].
  assert (K : 0 <= k <= Z.of_nat (length shown)) by (unfold k; lia). clearbody k.
  set (m := Z.to_nat (Z.of_nat (length shown) - k)).
  pose proof (set_leds_row
    (frame k ++ map (fun i => Write (k + Z.of_nat i) (Color 0 0 0) false) (seq 0 m))
    [] shown 0 eq_refl) as H. cbn [app] in H. rewrite H; clear H.
  - rewrite map_app, map_map. cbn [w_color].
    rewrite app_length, map_length, seq_length, FL.
    rewrite skipn_all2 by (unfold m; lia). rewrite app_nil_r.
    replace (length shown - Z.to_nat k)%nat with m by (unfold m; lia).
    do 2 f_equal. generalize 0%nat. clear.
    induction m as [|m IH]; intros a; cbn; auto. now rewrite IH.
  - rewrite app_length, map_length, seq_length, FL. unfold m. lia.
  - intros i w W. cbn [Nat.add].
    destruct (Nat.lt_ge_cases i (length (frame k))) as [Lt|Ge].
    + rewrite nth_error_app1 in W by lia. auto.
    + rewrite nth_error_app2 in W by lia. rewrite nth_error_map in W.
      destruct (nth_error (seq 0 m) (i - length (frame k))) as [j|] eqn:J; [|discriminate].
      cbn in W. injection W as <-. cbn [w_led].
      assert (JL : (i - length (frame k) < m)%nat).
      { rewrite <- (seq_length m 0). apply nth_error_Some. congruence. }
      rewrite (nth_error_nth' _ 0%nat) in J by (rewrite seq_length; lia).
      rewrite seq_nth in J by lia. injection J as <-. lia.
Qed.

(** ** RGBCycle *)

Lemma cycle_next : forall s now, 0 <= n s < 256 -> now <> at_last s ->
  0 <= n (cycle_run s now) <= 2 /\ at_last (cycle_run s now) = now /\
  (0 <= n s <= 2 -> n (cycle_run s now) = (n s + 1) mod 3).
Proof.
  intros s now N T. unfold cycle_run. destruct (Z.eqb_spec now (at_last s)) as [|_]; [easy|].
  pose proof (Z.mod_pos_bound (n s + 1) 256 ltac:(lia)).
  cbn [n at_last].
  destruct (Z.leb_spec 3 ((n s + 1) mod 256)); repeat split; try lia;
    intros R; rewrite Z.mod_small in * by lia;
    assert (n s = 0 \/ n s = 1 \/ n s = 2) as [-> | [-> | ->]] by lia; cbn in *; lia.
Qed.
