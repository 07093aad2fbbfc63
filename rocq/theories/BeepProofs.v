From Coq Require Import ZArith QArith Qround List Bool Lia Lqa ZifyBool ZifyNat.
From Verif Require Import BeepModel BeepSpec.
Import ListNotations.
Local Open Scope Z_scope.

Definition songb (b : beeper) : list Z := song (x_ b) (value_ b) (q b).

Lemma upto_len n : length (upto n) = Z.to_nat n.
Proof. unfold upto. rewrite map_length, seq_length. reflexivity. Qed.
Lemma upto_in n k : In k (upto n) -> 0 <= k < n.
Proof. unfold upto. intros H. apply in_map_iff in H. destruct H as (i & <- & H). apply in_seq in H. lia. Qed.
Lemma map_upto_ext (g h : Z -> Z) n : (forall k, 0 <= k < n -> g k = h k) -> map g (upto n) = map h (upto n).
Proof. intros H. apply map_ext_in. intros k K. apply H. apply upto_in. exact K. Qed.
Lemma upto_split s n : 0 <= s <= n -> upto n = upto s ++ map (fun k => s + k) (upto (n - s)).
Proof.
  intros H. unfold upto. replace (Z.to_nat n) with (Z.to_nat s + Z.to_nat (n - s))%nat by lia.
  rewrite seq_app, map_app. f_equal. rewrite Nat.add_0_l.
  assert (G : forall m a, map Z.of_nat (seq (Z.to_nat s + a) m) = map (fun k => s + k) (map Z.of_nat (seq a m))).
  { induction m; intros a; cbn [seq map]; [reflexivity|]. f_equal. lia.
    replace (S (Z.to_nat s + a)) with (Z.to_nat s + S a)%nat by lia. apply IHm. }
  specialize (G (Z.to_nat (n - s)) 0%nat). rewrite Nat.add_0_r in G. exact G.
Qed.
Lemma map_const (v : Z) n : map (fun _ => v) (upto n) = repeat v (Z.to_nat n).
Proof.
  rewrite <- (upto_len n). induction (upto n); cbn [map repeat length]; congruence.
Qed.

Lemma even_S k : Z.even (k + 1) = negb (Z.even k).
Proof. rewrite Z.even_add. cbn. destruct (Z.even k); reflexivity. Qed.
Lemma first_opp v : first (first v) = - first v.
Proof. unfold first. destruct (v <=? 0); reflexivity. Qed.
Lemma wave_next f v k : 0 < f -> f <= k -> wave f (first v) (k - f) = wave f v k.
Proof.
  intros F K. unfold wave. destruct (Z.eqb_spec f 0); [lia|]. rewrite first_opp.
  replace (k / f) with ((k - f) / f + 1) by (rewrite <- Z.div_add by lia; f_equal; lia).
  rewrite even_S. destruct (Z.even ((k - f) / f)); cbn [negb]; lia.
Qed.
Lemma wave_start f v k : 0 < f -> 0 <= k < f -> wave f v k = first v.
Proof. intros F K. unfold wave. destruct (Z.eqb_spec f 0); [lia|]. rewrite Z.div_small by lia. reflexivity. Qed.

(** Beginning a half wave early or late makes no difference. *)
Lemma song_begin f n rest v : 0 <= f -> 0 < n ->
  song 0 v ((f, n) :: rest) =
  song (if f =? 0 then n else f) (if f =? 0 then 0 else first v) ((f, n) :: rest).
Proof.
  intros F N. cbn [song]. destruct (Z.eqb_spec f 0) as [->|Z0].
  - f_equal.
    + apply map_upto_ext. intros k K. unfold sound, wave. cbn [Z.eqb].
      destruct (Z.ltb_spec k 0); [lia|]. destruct (Z.ltb_spec k n); [reflexivity|lia].
    + f_equal.
      * unfold left_x. destruct (Z.leb_spec n 0); [lia|]. destruct (Z.leb_spec n n); [cbn; lia|lia].
      * unfold left_v, wave. destruct (Z.leb_spec n 0); [lia|]. destruct (Z.leb_spec n n); [reflexivity|lia].
  - assert (P : 0 < f) by lia. f_equal.
    + apply map_upto_ext. intros k K. unfold sound. destruct (Z.ltb_spec k 0); [lia|]. rewrite Z.sub_0_r.
      destruct (Z.ltb_spec k f). apply wave_start; lia. symmetry. apply wave_next; lia.
    + f_equal.
      * unfold left_x. destruct (Z.leb_spec n 0); [lia|]. destruct (Z.eqb_spec f 0); [lia|]. rewrite Z.sub_0_r.
        destruct (Z.leb_spec n f).
        { symmetry. apply Z.mod_unique with (-1); lia. }
        { replace (- (n - f)) with (- n + 1 * f) by lia. rewrite Z.mod_add by lia. reflexivity. }
      * unfold left_v. destruct (Z.leb_spec n 0); [lia|]. rewrite Z.sub_0_r.
        destruct (Z.leb_spec n f). apply wave_start; lia.
        replace (n - f - 1) with (n - 1 - f) by lia. symmetry. apply wave_next; lia.
Qed.
(** Playing [s] samples of a half wave. *)
Lemma song_play f n rest x v s : 0 <= f -> 0 < s <= n -> s <= x ->
  song x v ((f, n) :: rest) = repeat v (Z.to_nat s) ++ song (x - s) v (if n - s =? 0 then rest else (f, n - s) :: rest).
Proof.
  intros F S1 S2. cbn [song]. destruct (Z.eqb_spec (n - s) 0) as [E|E].
  - assert (n = s) by lia. subst s. f_equal.
    + rewrite <- map_const. apply map_upto_ext. intros k K. unfold sound. destruct (Z.ltb_spec k x); [reflexivity|lia].
    + unfold left_x, left_v. destruct (Z.leb_spec n x); [reflexivity|lia].
  - rewrite (upto_split s n) by lia. rewrite map_app, <- app_assoc. f_equal.
    + rewrite <- map_const. apply map_upto_ext. intros k K. unfold sound. destruct (Z.ltb_spec k x); [reflexivity|lia].
    + cbn [song]. rewrite map_map. f_equal.
      * apply map_upto_ext. intros k K. unfold sound. destruct (Z.ltb_spec (s + k) x), (Z.ltb_spec k (x - s)); try lia.
        f_equal. lia.
      * f_equal.
        { unfold left_x. destruct (Z.leb_spec n x), (Z.leb_spec (n - s) (x - s)); try lia.
          replace (n - s - (x - s)) with (n - x) by lia. reflexivity. }
        { unfold left_v. destruct (Z.leb_spec n x), (Z.leb_spec (n - s) (x - s)); try lia.
          replace (n - s - (x - s)) with (n - x) by lia. reflexivity. }
Qed.
Lemma firstn_rep (v : Z) s m (l : list Z) : (s <= m)%nat -> firstn m (repeat v s ++ l) = repeat v s ++ firstn (m - s) l.
Proof. intros H. rewrite firstn_app, repeat_length. rewrite firstn_all2 by (rewrite repeat_length; lia). reflexivity. Qed.
Lemma skipn_rep (v : Z) s m (l : list Z) : (s <= m)%nat -> skipn m (repeat v s ++ l) = skipn (m - s) l.
Proof. intros H. rewrite skipn_app, repeat_length. rewrite skipn_all2 by (rewrite repeat_length; lia). reflexivity. Qed.

Lemma read_spec : forall fuel b e, proper b -> 0 <= e -> (Z.to_nat e < fuel)%nat ->
  let '(o, b') := read fuel b e in
  o = firstn (Z.to_nat e) (songb b) /\ songb b' = skipn (Z.to_nat e) (songb b) /\ proper b' /\
  (Z.to_nat e < length (songb b) -> q b' <> [])%nat.
Proof.
  induction fuel as [|fuel IH]; intros b e [PX PQ] E F; [lia|].
  cbn [read]. destruct b as [qq x v]. cbn [q x_ value_] in *. destruct qq as [|[f n] rest].
  - unfold songb. cbn [q x_ value_ song]. rewrite firstn_nil, skipn_nil. repeat split; try assumption. cbn. lia.
  - inversion PQ as [|? ? [F0 N0] PR]; subst. cbn [fst snd] in *.
    set (x1 := if x =? 0 then (if f =? 0 then n else f) else x).
    set (v1 := if x =? 0 then (if f =? 0 then 0 else first v) else v).
    assert (XV : (if x =? 0 then if f =? 0 then (n, 0) else (f, if v <=? 0 then 200 else -200) else (x, v)) = (x1, v1)).
    { unfold x1, v1, first. destruct (x =? 0), (f =? 0); reflexivity. }
    rewrite XV. clear XV.
    assert (SB : songb (Beeper ((f, n) :: rest) x v) = song x1 v1 ((f, n) :: rest)).
    { unfold songb. cbn [q x_ value_]. unfold x1, v1. destruct (Z.eqb_spec x 0) as [->|]; [|reflexivity]. apply song_begin; assumption. }
    assert (X1 : 0 < x1).
    { unfold x1. destruct (Z.eqb_spec x 0); [destruct (Z.eqb_spec f 0); lia|lia]. }
    rewrite SB. clear SB. clearbody x1 v1.
    set (s := Z.min (Z.min e n) x1). destruct (Z.leb_spec s 0) as [S0|S0].
    + assert (e = 0) by (unfold s in S0; lia). subst e. cbn [Z.to_nat firstn skipn].
      unfold songb. cbn [q x_ value_]. repeat split.
      cbn [x_]. lia. exact PQ. intros _. discriminate.
    + assert (S1 : s <= e /\ s <= n /\ s <= x1) by (unfold s; lia). clearbody s.
      rewrite (song_play f n rest x1 v1 s) by lia.
      set (q' := if n - s =? 0 then rest else (f, n - s) :: rest).
      assert (PQ' : Forall (fun p => 0 <= fst p /\ 0 < snd p) q').
      { unfold q'. destruct (Z.eqb_spec (n - s) 0). exact PR. constructor; [cbn; lia|exact PR]. }
      specialize (IH (Beeper q' (x1 - s) v1) (e - s)).
      destruct (read fuel (Beeper q' (x1 - s) v1) (e - s)) as [o b'] eqn:R.
      destruct IH as (I1 & I2 & I3 & I4); [split; [cbn [x_]; lia|exact PQ']|lia|lia|].
      unfold songb at 1 in I1. unfold songb at 2 in I2. unfold songb at 1 in I4. cbn [q x_ value_] in I1, I2, I4.
      rewrite firstn_rep by lia. rewrite skipn_rep by lia.
      replace (Z.to_nat e - Z.to_nat s)%nat with (Z.to_nat (e - s)) by lia.
      split; [rewrite I1; reflexivity|]. split; [exact I2|]. split; [exact I3|].
      rewrite app_length, repeat_length. intros L. apply I4. lia.
Qed.
Lemma Read_spec b e : proper b -> 0 <= e ->
  fst (Read b e) = firstn (Z.to_nat e) (songb b) /\ songb (snd (Read b e)) = skipn (Z.to_nat e) (songb b) /\ proper (snd (Read b e)).
Proof.
  intros P E. unfold Read. pose proof (read_spec (Z.to_nat e + 1) b e P E ltac:(lia)) as H.
  destruct (read (Z.to_nat e + 1) b e). tauto.
Qed.
Lemma song_length : forall qq x v, Forall (fun p => 0 <= fst p /\ 0 < snd p) qq ->
  Z.of_nat (length (song x v qq)) = fold_right (fun p s => snd p + s) 0 qq.
Proof.
  induction qq as [|[f n] qq IH]; intros x v F; cbn [song fold_right]. reflexivity.
  inversion F as [|? ? [F0 N0] FR]; subst. cbn [fst snd] in *. rewrite app_length, map_length, upto_len.
  rewrite Nat2Z.inj_add, IH by assumption. lia.
Qed.
Lemma song_nil b : proper b -> songb b = [] -> q b = [].
Proof.
  intros [_ F] H. destruct b as [[|[f n] qq] x v]; [reflexivity|]. cbn [q] in *. inversion F as [|? ? [F0 N0] FR]; subst. cbn [fst snd] in *.
  unfold songb in H. cbn [q x_ value_ song] in H. apply app_eq_nil in H. destruct H as [H _].
  apply (f_equal (@length Z)) in H. rewrite map_length, upto_len in H. cbn in H. lia.
Qed.
Lemma firstn_plus (l : list Z) : forall a m, firstn (a + m) l = firstn a l ++ firstn m (skipn a l).
Proof.
  induction l as [|y l IH]; intros a m. rewrite skipn_nil, !firstn_nil. reflexivity.
  destruct a as [|a]; [reflexivity|]. cbn [Nat.add firstn skipn app]. rewrite IH. reflexivity.
Qed.
Lemma skipn_plus (l : list Z) : forall a m, skipn (a + m) l = skipn m (skipn a l).
Proof.
  induction l as [|y l IH]; intros a m. rewrite !skipn_nil. reflexivity.
  destruct a as [|a]; [reflexivity|]. cbn [Nat.add skipn]. apply IH.
Qed.
Lemma reads_spec : forall sizes b, proper b -> Forall (fun n => 0 <= n) sizes ->
  fst (reads b sizes) = firstn (Z.to_nat (fold_right Z.add 0 sizes)) (songb b) /\
  songb (snd (reads b sizes)) = skipn (Z.to_nat (fold_right Z.add 0 sizes)) (songb b) /\ proper (snd (reads b sizes)).
Proof.
  induction sizes as [|n sizes IH]; intros b P F; cbn [reads fold_right].
  - cbn. repeat split; apply P.
  - inversion F as [|? ? N FR]; subst. destruct (Read_spec b n P N) as (R1 & R2 & R3).
    destruct (Read b n) as [o b1]. cbn [fst snd] in *. destruct (IH b1 R3 FR) as (I1 & I2 & I3).
    destruct (reads b1 sizes) as [o' b2]. cbn [fst snd] in *.
    assert (S0 : 0 <= fold_right Z.add 0 sizes).
    { clear - FR. induction FR; cbn [fold_right]; lia. }
    replace (Z.to_nat (n + fold_right Z.add 0 sizes)) with (Nat.add (Z.to_nat n) (Z.to_nat (fold_right Z.add 0 sizes))) by lia.
    split; [|split; [|exact I3]].
    + rewrite I1, R1, R2. set (l := songb b). set (m := Z.to_nat (fold_right Z.add 0 sizes)). clear.
      symmetry. apply firstn_plus.
    + rewrite I2, R2. symmetry. apply skipn_plus.
Qed.
Lemma first_cases v : first v = 200 \/ first v = -200.
Proof. unfold first. destruct (v <=? 0); auto. Qed.

Lemma wave_values f v k : wave f v k = 0 \/ wave f v k = 200 \/ wave f v k = -200.
Proof.
  unfold wave. destruct (f =? 0); [auto|]. right. destruct (first_cases v) as [-> | ->]; destruct (Z.even (k / f)); auto.
Qed.
Lemma song_values : forall qq x v, (v = 0 \/ v = 200 \/ v = -200) ->
  Forall (fun s => s = 0 \/ s = 200 \/ s = -200) (song x v qq).
Proof.
  induction qq as [|[f n] qq IH]; intros x v V; cbn [song]; [constructor|].
  apply Forall_app. split.
  - apply Forall_forall. intros s H. apply in_map_iff in H. destruct H as (k & <- & _). unfold sound.
    destruct (k <? x); [exact V|]. apply wave_values.
  - apply IH. unfold left_v. destruct (n <=? x); [exact V|]. apply wave_values.
Qed.
Lemma Forall_firstn (P : Z -> Prop) l : forall n, Forall P l -> Forall P (firstn n l).
Proof. induction l; intros [|n] H; cbn [firstn]; try constructor; inversion H; auto. Qed.
Lemma nth_upto (g : Z -> Z) n k d : (k < Z.to_nat n)%nat -> nth k (map g (upto n)) d = g (Z.of_nat k).
Proof.
  intros H. rewrite (nth_indep _ d (g 0)) by (rewrite map_length, upto_len; exact H). rewrite map_nth. f_equal.
  unfold upto. change 0 with (Z.of_nat 0). rewrite map_nth, seq_nth by exact H. reflexivity.
Qed.
Lemma nth_firstn (l : list Z) d : forall m k, (k < m)%nat -> nth k (firstn m l) d = nth k l d.
Proof. induction l as [|y l IH]; intros [|m] [|k] H; cbn [firstn nth]; try reflexivity; try lia. apply IH. lia. Qed.

Lemma trunc_bounds r : (0 <= r)%Q -> (inject_Z (trunc r) <= r /\ r < inject_Z (trunc r + 1))%Q /\ 0 <= trunc r.
Proof.
  destruct r as [a d]. unfold Qle, Qlt, trunc, inject_Z. cbn [Qnum Qden]. intros H.
  assert (A : 0 <= a) by lia. rewrite Z.quot_div_nonneg by lia.
  pose proof (Z.div_mod a (Zpos d) ltac:(lia)) as E. pose proof (Z.mod_pos_bound a (Zpos d) ltac:(lia)) as B.
  assert (0 <= a / Zpos d) by (apply Z.div_pos; lia).
  repeat split; try lia.
Qed.
Lemma half_bounds freq : (0 < freq)%Q ->
  (inject_Z (2 * half_period freq) <= inject_Z 44100 / freq /\ inject_Z 44100 / freq < inject_Z (2 * half_period freq + 2))%Q /\ 0 <= half_period freq.
Proof.
  intros F. unfold half_period. destruct (Qeq_bool freq 0) eqn:E.
  { apply Qeq_bool_iff in E. rewrite E in F. discriminate F. }
  assert (P : (0 <= inject_Z 44100 / freq)%Q).
  { apply Qle_shift_div_l; [exact F|]. rewrite Qmult_0_l. discriminate. }
  set (r := (inject_Z AUDIO_RATE / freq)%Q) in *. change (inject_Z 44100 / freq)%Q with r in *.
  assert (H : (0 <= r / 2)%Q) by (apply Qle_shift_div_l; [reflexivity|rewrite Qmult_0_l; exact P]).
  destruct (trunc_bounds _ H) as [[B1 B2] B3]. split; [|exact B3].
  assert (R : (r == 2 * (r / 2))%Q) by field. rewrite !inject_Z_plus, !inject_Z_mult.
  rewrite !inject_Z_plus in B2. change (inject_Z 2) with 2%Q. change (inject_Z 1) with 1%Q in *. set (t := inject_Z (trunc (r / 2))) in *.
  set (h := (r / 2)%Q) in *. clearbody h t. split; lra.
Qed.
Definition note (p : Q * Q) : Z * Z := (half_period (snd p), trunc (inject_Z AUDIO_RATE * fst p)).
Lemma beeps_queue : forall l b, (length (q b) <= 16)%nat ->
  q (fold_left (fun b p => Beep b (fst p) (snd p)) l b) = firstn 16 (q b ++ map note l) /\
  x_ (fold_left (fun b p => Beep b (fst p) (snd p)) l b) = x_ b /\
  value_ (fold_left (fun b p => Beep b (fst p) (snd p)) l b) = value_ b.
Proof.
  induction l as [|p l IH]; intros b L; cbn [fold_left map].
  - rewrite app_nil_r, firstn_all2 by exact L. auto.
  - destruct (Nat.ltb_spec (length (q b)) 16) as [H|H].
    + assert (E : Beep b (fst p) (snd p) = Beeper (q b ++ [note p]) (x_ b) (value_ b)).
      { unfold Beep, push. destruct (Nat.ltb_spec (length (q b)) 16); [reflexivity|lia]. }
      rewrite E. destruct (IH (Beeper (q b ++ [note p]) (x_ b) (value_ b))) as (I1 & I2 & I3).
      { cbn [q]. rewrite app_length. cbn [length]. lia. }
      rewrite I1, I2, I3. cbn [q x_ value_]. rewrite <- app_assoc. auto.
    + assert (E : Beep b (fst p) (snd p) = b).
      { unfold Beep, push. destruct (Nat.ltb_spec (length (q b)) 16); [lia|reflexivity]. }
      rewrite E. destruct (IH b L) as (I1 & I2 & I3). rewrite I1, I2, I3. repeat split.
      rewrite !firstn_app. replace (16 - length (q b))%nat with 0%nat by lia. reflexivity.
Qed.
Lemma samples_len b : proper b -> Z.of_nat (length (songb b)) = samples b.
Proof. intros [_ F]. apply song_length. exact F. Qed.

(** A beep without samples. *)
Lemma read_stuck fuel b e f rest : 0 <= x_ b -> q b = (f, 0) :: rest -> 0 <= f -> 0 <= e ->
  fst (read fuel b e) = [] /\ q (snd (read fuel b e)) = (f, 0) :: rest /\ 0 <= x_ (snd (read fuel b e)).
Proof.
  intros X Q F E. destruct fuel as [|fuel]; [cbn; auto|]. cbn [read]. rewrite Q.
  set (xv := if x_ b =? 0 then _ else _).
  assert (0 <= fst xv).
  { unfold xv. destruct (x_ b =? 0); [destruct (f =? 0)|]; cbn [fst]; lia. }
  destruct xv as [x v]. cbn [fst] in *. destruct (Z.leb_spec (Z.min (Z.min e 0) x) 0); [|lia]. cbn. auto.
Qed.
Lemma reads_stuck : forall sizes b f rest, 0 <= x_ b -> q b = (f, 0) :: rest -> 0 <= f -> Forall (fun n => 0 <= n) sizes ->
  fst (reads b sizes) = [] /\ q (snd (reads b sizes)) = (f, 0) :: rest.
Proof.
  induction sizes as [|n sizes IH]; intros b f rest X Q F S; cbn [reads]; [auto|]. inversion S as [|? ? N SR]; subst.
  destruct (read_stuck (Z.to_nat n + 1) b n f rest X Q F N) as (R1 & R2 & R3). unfold Read.
  destruct (read (Z.to_nat n + 1) b n) as [o b1]. cbn [fst snd] in *.
  destruct (IH b1 f rest R3 R2 F SR) as (I1 & I2). destruct (reads b1 sizes) as [o' b2]. cbn [fst snd] in *.
  rewrite R1, I1. auto.
Qed.
