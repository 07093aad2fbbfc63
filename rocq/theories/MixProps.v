(** C44, C45: mixing and volume. *)
From Coq Require Import ZArith List Bool Lia ZifyBool ZifyNat.
From Verif Require Import Machine ArithModel ArithProofs MixModel MixSpec MixProofs.
Import ListNotations.
Open Scope Z_scope.

(** ** C44 *)
(** Whatever up to 64 streams of 16-bit samples deliver, block after block, and for any volume
    for which a full-scale sum times the volume fits an int: nothing overflows, and the output
    is the one specified: a fixed function of the sums alone. *)
Theorem C44_mix : forall volume streams elements l q,
  Forall (Forall sample) streams -> (length streams <= 64)%nat ->
  32768 * Z.of_nat (length streams) * Z.abs volume <= 2147483647 ->
  0 <= l <= 255 * (32768 * Z.of_nat (length streams)) -> 0 <= q <= 46340 ->
  let sums := map (total streams) (seq 0 elements) in
  exists q', 0 <= q' <= 46340 /\
  mix_block volume (Mixer l q) streams elements = Some (Mixer (fold_left louder sums l) q', mixed volume l sums) /\
  0 <= fold_left louder sums l <= 255 * (32768 * Z.of_nat (length streams)).
Proof.
  intros volume streams elements l q F N V L Q sums. unfold mix_block. set (M := 32768 * Z.of_nat (length streams)) in *.
  assert (FM : Forall (fun v => Z.abs v <= M) sums). { apply Forall_forall. intros v I. apply in_map_iff in I. destruct I as (i & <- & _). apply total_bound. exact F. }
  destruct (mix_all_ok volume M sums) with (l := l) (q := q) as (l' & q' & E & L' & Q' & EQ); auto; try (unfold M; lia).
  exists q'. split; [exact Q'|]. rewrite <- EQ. split; [|exact L'].
  rewrite (map_ext _ _ (sum_total streams)). exact E.
Qed.
Example C44_mix_ex : let streams := [[1000; 20000; -3]; [500; 20000]] in
  Forall (Forall sample) streams /\ mix_block 1000 (Mixer 0 0) streams 3 = Some (Mixer 41172 202, [10869; 32767; -9]).
Proof. split; [repeat (apply Forall_cons || apply Forall_nil); unfold sample; lia|vm_compute; reflexivity]. Qed.

(** Every output sample is a 16-bit value. *)
Theorem C44_range : forall volume m streams elements m' out,
  mix_block volume m streams elements = Some (m', out) -> Forall sample out /\ length out = elements.
Proof.
  intros volume m streams elements m' out. unfold mix_block. assert (G : forall vs m m' out, mix_all volume m vs = Some (m', out) -> Forall sample out /\ length out = length vs).
  { induction vs as [|v vs IH]; intros a a' o; cbn [mix_all]; [intros X; injection X as _ <-; auto|]. unfold mix_step. destruct (negb _); [discriminate|]. destruct (my_sqrt _ _); try discriminate. destruct (negb _); [discriminate|].
    destruct (mix_all volume _ vs) as [[m2 o2]|] eqn:E; [|discriminate]. intros X; injection X as _ <-. destruct (IH _ _ _ E) as (A & B). split; [constructor; [|exact A]|cbn; rewrite B; reflexivity]. rewrite clamp_clip. apply clip_range. }
  intros H. destruct (G _ _ _ _ H) as (A & B). split; [exact A|]. rewrite B, map_length, seq_length. reflexivity.
Qed.

(** A silent sum gives a silent sample at every place, and no sample changes sign. *)
Theorem C44_silence_sign : forall volume vs l i, 0 <= volume -> 0 <= l -> (i < length vs)%nat ->
  let v := nth i vs 0 in let o := nth i (mixed volume l vs) 0 in
  (v = 0 -> o = 0) /\ (0 <= v -> 0 <= o) /\ (v <= 0 -> o <= 0).
Proof.
  intros volume vs l i V. revert vs l. induction i as [|i IH]; intros vs l L N; (destruct vs as [|v vs]; [cbn in N; lia|]); cbn [nth mixed length] in *.
  - set (d := Z.sqrt (louder l v) + 100). assert (D : 0 < d) by (pose proof (Z.sqrt_nonneg (louder l v)); unfold d; lia).
    assert (P : 0 <= Z.abs (v * volume) / d) by (apply Z.div_pos; lia). unfold clip16. repeat split; intros H.
    + subst v. rewrite Z.mul_0_l. cbn. reflexivity.
    + assert (0 <= Z.sgn (v * volume)) by (apply Z.sgn_nonneg; nia). nia.
    + assert (Z.sgn (v * volume) <= 0) by (apply Z.sgn_nonpos; nia). nia.
  - apply IH; [|lia]. unfold louder. apply Z.div_pos; lia.
Qed.
Example C44_silence_sign_ex : mixed 1000 0 [500; 0; -500] = [4098; 0; -3816]. Proof. reflexivity. Qed.

(** How the output is cut into blocks does not matter. *)
Theorem C44_blocks : forall volume a b l, mixed volume l (a ++ b) = mixed volume l a ++ mixed volume (fold_left louder a l) b.
Proof. intros. apply mixed_app. Qed.
(** The bound on the volume is needed: nine full-scale streams at volume 7282 overflow. *)
Theorem C44_volume_refuted : exists volume streams, Forall (Forall sample) streams /\ length streams = 9%nat /\ volume = 7282 /\ mix_block volume (Mixer 0 0) streams 1 = None.
Proof. exists 7282, (repeat [-32768] 9). split; [|repeat split]. apply Forall_forall. intros s I. apply repeat_spec in I. subst s. apply Forall_cons; [unfold sample; lia|apply Forall_nil]. Qed.

(** ** C45 *)
(** One step goes towards the target by at most the speed, and does not pass it; after k steps
    the ramp is where the closed formula says. *)
Theorem C45_steps : forall c t s k, 0 <= s -> Nat.iter k advance (Ramp c t s) = Ramp (volume_after c t s k) t s.
Proof. intros c t s k S0. induction k as [|k IH]; [cbn; rewrite after_0; reflexivity|]. cbn [Nat.iter nat_rect]. unfold Nat.iter in IH. rewrite IH. apply advance_after. exact S0. Qed.
Theorem C45_monotone : forall c t s k, 0 <= s ->
  let a := volume_after c t s k in let b := volume_after c t s (S k) in
  Z.abs (b - a) <= s /\ (c <= t -> c <= a <= b /\ b <= t) /\ (t <= c -> t <= b <= a /\ a <= c).
Proof.
  intros c t s k S0 a b. unfold a, b, volume_after. replace (Z.of_nat (S k)) with (Z.of_nat k + 1) by lia. set (j := Z.of_nat k). assert (0 <= j) by (unfold j; lia). clearbody j.
  destruct (Z.leb_spec c t); repeat split; intros; nia.
Qed.
Theorem C45_arrives : forall c t s k, 0 < s -> Z.abs (t - c) <= Z.of_nat k * s -> volume_after c t s k = t.
Proof. intros c t s k S0 H. unfold volume_after. destruct (Z.leb_spec c t); lia. Qed.
Example C45_steps_ex : map (fun k => current (Nat.iter k advance (Ramp 1000 0 185))) [0%nat; 1%nat; 5%nat; 6%nat; 7%nat] = [1000; 815; 75; 0; 0].
Proof. reflexivity. Qed.

(** However the stream is read, in blocks of any sizes, the concatenated output is the input
    times the ramp; and a stream that is told to fade and stop is stopped by the first block
    that begins after the volume has reached zero, not earlier. *)
Theorem C45_overlay : forall c t s stop bs, 0 <= s -> 0 <= c <= 65535 -> 0 <= t <= 65535 -> Forall (Forall sample) bs ->
  exists o' rs, blocks (Overlay (Ramp c t s) stop) bs = Some (o', rs) /\
  concat (map fst rs) = ramped c t s 0 (concat bs) /\
  forall i, (i < length bs)%nat ->
    snd (nth i rs ([], false)) = true <-> (stop = true /\ t = 0 /\ volume_after c t s (length (concat (firstn i bs))) = 0).
Proof.
  intros c t s stop bs S0 C T F. destruct (blocks_ok c t s bs S0 C T F 0%nat stop (Overlay (Ramp c t s) stop)) as (o' & E); try reflexivity; [cbn; rewrite after_0; reflexivity|left; reflexivity|].
  exists o', (combine (outs c t s 0 bs) (stops stop c t s 0 bs)). split; [exact E|]. split.
  - rewrite map_fst_combine by apply outs_stops_length. apply outs_concat.
  - assert (G : forall bs k i, (i < length bs)%nat -> snd (nth i (combine (outs c t s k bs) (stops stop c t s k bs)) ([], false)) = true <-> (stop = true /\ t = 0 /\ volume_after c t s (k + length (concat (firstn i bs))) = 0)).
    { clear. induction bs as [|b bs IH]; intros k i L; [cbn in L; lia|]. destruct i as [|i]; cbn [outs stops combine nth firstn concat].
      - cbn [length snd]. rewrite Nat.add_0_r. rewrite !andb_true_iff, !Z.eqb_eq. tauto.
      - rewrite app_length, Nat.add_assoc. apply IH. cbn [length] in L. lia. }
    intros i L. apply (G bs 0%nat i L).
Qed.
Example C45_overlay_ex : exists o', blocks (Overlay (Ramp 370 0 185) true) [[16384; 16384; 16384]; [16384]] = Some (o', [([370; 185; 0], false); ([0], true)]).
Proof. eexists. reflexivity. Qed.

(** Over any history of reads and volume changes nothing overflows and every delivered sample
    is a 16-bit value; and each read follows the ramp that is set at that moment. *)
Theorem C45_history : forall ps, Forall op_ok ps -> exists o' rs, history (ov_set (Overlay (Ramp 0 0 0) false) OReset) ps = Some (o', rs) /\ Forall (fun r => Forall sample (fst r)) rs.
Proof. intros ps F. destruct (history_ok ps (Overlay (Ramp 8192 8192 kDefaultSpeed) false)) as (o' & rs & E & _ & FS); [unfold ov_ok, kDefaultSpeed; cbn; lia|exact F|]. exists o', rs. auto. Qed.
Theorem C45_read : forall o xs, 0 <= current (ov_ramp o) <= 65535 -> 0 <= target (ov_ramp o) <= 65535 -> 0 <= speed (ov_ramp o) -> Forall sample xs ->
  exists o' h, ov_read o xs = Some (o', ramped (current (ov_ramp o)) (target (ov_ramp o)) (speed (ov_ramp o)) 0 xs, h) /\
  current (ov_ramp o') = volume_after (current (ov_ramp o)) (target (ov_ramp o)) (speed (ov_ramp o)) (length xs).
Proof. intros o xs C T S0 F. destruct (ov_read_keeps o xs) as (o' & h & E & _ & CU & _); [unfold ov_ok; auto|exact F|]. exists o', h. auto. Qed.
Example C45_history_ex : exists o', history (ov_set (Overlay (Ramp 0 0 0) false) OReset) [ORead [100]; OVolumeNow 16384; ORead [100]; OFadeAndStop; OSpeed 8192; ORead [100; 100; 100]; ORead [100]]
  = Some (o', [([50], false); ([100], false); ([100; 50; 0], false); ([0], true)]).
Proof. eexists. vm_compute. reflexivity. Qed.
(** C45: what the player hears after an instruction: a new volume is approached from the present
    one, a volume set at once is there with the first sample, and a fade out goes from the
    present volume to silence and then stops the stream. *)
Theorem C45_told : forall o v bs, 0 <= current (ov_ramp o) <= 65535 -> 0 <= speed (ov_ramp o) -> 0 <= v <= 65535 -> Forall (Forall sample) bs ->
  let c := current (ov_ramp o) in let s := speed (ov_ramp o) in
  let heard p from to stop := exists o' rs, history o (p :: map ORead bs) = Some (o', rs) /\
    concat (map fst rs) = ramped from to s 0 (concat bs) /\
    forall i, (i < length bs)%nat ->
      snd (nth i rs ([], false)) = true <-> (stop = true /\ to = 0 /\ volume_after from to s (length (concat (firstn i bs))) = 0) in
  heard (OVolume v) c v (stop_when_zero o) /\ heard (OVolumeNow v) v v (stop_when_zero o) /\ heard OFadeAndStop c 0 true.
Proof.
  intros o v bs C S0 V F c s heard. unfold heard. cbn [history]. rewrite !history_blocks. unfold ov_set. rewrite (Z.mod_small v) by lia.
  split; [|split]; apply C45_overlay; (assumption || lia).
Qed.
Example C45_told_ex : exists o', history (Overlay (Ramp 16384 16384 8192) false) [OFadeAndStop; ORead [100; 100]; ORead [100; 100]; ORead [100]] = Some (o', [([100; 50], false); ([0; 0], true); ([0], true)]).
Proof. eexists. vm_compute. reflexivity. Qed.
(** Setting a volume of 65536 or more at once truncates it to 16 bits: the stream starts silent. *)
Theorem C45_now_refuted : exists v, 65536 <= v /\ current (ov_ramp (ov_set (Overlay (Ramp 16384 16384 185) false) (OVolumeNow v))) = 0.
Proof. exists 65536. split; [lia|reflexivity]. Qed.

Print Assumptions C44_mix.
Print Assumptions C44_range.
Print Assumptions C44_silence_sign.
Print Assumptions C44_blocks.
Print Assumptions C44_volume_refuted.
Print Assumptions C45_steps.
Print Assumptions C45_monotone.
Print Assumptions C45_arrives.
Print Assumptions C45_overlay.
Print Assumptions C45_told.
Print Assumptions C45_history.
Print Assumptions C45_read.
Print Assumptions C45_now_refuted.
