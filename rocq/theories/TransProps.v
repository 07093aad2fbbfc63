(** C46, C47: transitions. *)
From Coq Require Import ZArith List Bool Lia ZifyBool ZifyNat.
From Verif Require Import Machine ArithModel ArithProofs ColorModel ColorSpec ColorProofs TransModel TransSpec TransProofs.
Import ListNotations.
Open Scope Z_scope.

(** The library's own color mixing is a proper way of mixing. *)
Theorem C46_colors : mixes opaque_ok mix_opaque.
Proof.
  assert (K : forall c s, s = 8 \/ s = 14 -> 0 <= c <= 65535 -> u16 (Z.shiftr (u32 (u32 (c * u16 (2 ^ s)))) s) = c).
  { intros c s S0 HC. destruct S0 as [-> | ->]; [change (u16 (2 ^ 8)) with 256|change (u16 (2 ^ 14)) with 16384]; rewrite !(u32_id (c * _)) by lia; rewrite Z.shiftr_div_pow2 by lia; [change (2 ^ 8) with 256|change (2 ^ 14) with 16384]; rewrite Z.div_mul by lia; apply u16_id; lia. }
  assert (Z0 : forall c, mul32 c 0 = 0) by (intros; unfold mul32; change (u16 0) with 0; rewrite Z.mul_0_r; reflexivity).
  split.
  - intros a b s S0 ((B1 & B2) & (B3 & B4) & (B5 & B6)). unfold mix_opaque. destruct b as [c d]. cbn [oc o_od] in *. f_equal.
    + apply color_eq; cbn [r g ColorModel.b map2]; unfold mix32; rewrite Z.sub_diag, Z0, Z.add_0_l; apply K; auto.
    + destruct S0 as [-> | ->]; reflexivity.
  - intros a b s S0 ((B1 & B2) & (B3 & B4) & (B5 & B6)). unfold mix_opaque. destruct a as [c d]. cbn [oc o_od] in *. f_equal.
    + apply color_eq; cbn [r g ColorModel.b map2]; unfold mix32; rewrite Z.sub_0_r, Z0, Z.add_0_r; apply K; auto.
    + destruct S0 as [-> | ->]; reflexivity.
Qed.

(** A begun timed transition of L milliseconds, in frames at any moments: what it computes in
    each frame, and whether it reports done, is exactly the specified progress, across clock
    wrap; after the first late frame it stays over for ever. *)
Theorem C46_progress : forall m L scale b f fs T0 Ts,
  val f m = L -> 0 < L < 2147483648 -> 0 <= scale -> scale * L < 2147483648 ->
  Forall2 (fun f T => now f = clock T) (f :: fs) (T0 :: Ts) -> timely L T0 Ts ->
  run_outs (b_frame (Plain m) scale) (b_begin b) (f :: fs) = shown scale L T0 false (T0 :: Ts).
Proof. intros m L scale b f fs T0 Ts V HL S0 SL F TM. inversion F; subst. apply progress_begun; auto. Qed.
(** What is shown: until a late frame the proportional progress, from then on full scale. *)
Theorem C46_shown : forall scale L T0 Ts i, 0 < L -> 0 <= scale -> T0 <= hd T0 Ts ->
  (forall j, (S j < length Ts)%nat -> nth j Ts 0 <= nth (S j) Ts 0) -> (i < length Ts)%nat ->
  nth i (shown scale L T0 false Ts) (0, false) = (progress scale L T0 (nth i Ts 0), L <? nth i Ts 0 - T0).
Proof.
  intros scale L T0 Ts i HL S0 _ MONO. revert i. assert (G : forall Ts over, (forall j, (S j < length Ts)%nat -> nth j Ts 0 <= nth (S j) Ts 0) -> (over = true -> L < hd (T0 + L + 1) Ts - T0) -> forall i, (i < length Ts)%nat ->
    nth i (shown scale L T0 over Ts) (0, false) = (progress scale L T0 (nth i Ts 0), L <? nth i Ts 0 - T0)).
  { clear. induction Ts as [|T Ts IH]; intros over M O i I; [cbn in I; lia|]. cbn [shown].
    assert (OO : over || (L <? T - T0) = (L <? T - T0)). { destruct over; [|reflexivity]. specialize (O eq_refl). cbn in O. cbn [orb]. symmetry. apply Z.ltb_lt. exact O. }
    rewrite OO. destruct i as [|i]; cbn [nth].
    - unfold progress. destruct (Z.ltb_spec L (T - T0)), (Z.leb_spec (T - T0) L); try lia; reflexivity.
    - apply IH; [intros j J; apply (M (S j)); cbn [length]; lia| |cbn [length] in I; lia]. intros H. apply Z.ltb_lt in H. destruct Ts as [|T' Ts]; cbn [hd]; [lia|]. specialize (M 0%nat ltac:(cbn; lia)). cbn in M. lia. }
  intros i I. apply G; auto. discriminate.
Qed.
(** A reversed time runs the progress backwards, from full scale down, over the same moments, and
    the transition is over at the same frame. *)
Theorem C46_reverse : forall m L scale b f fs T0 Ts,
  val f m = L -> 0 < L < 2147483648 -> 0 <= scale -> scale * L < 2147483648 ->
  Forall2 (fun f T => now f = clock T) (f :: fs) (T0 :: Ts) -> timely L T0 Ts ->
  run_outs (b_frame (Reverse (Plain m)) scale) (b_begin b) (f :: fs) = map (fun p : Z * bool => if snd p then (scale, true) else (scale - fst p, false)) (shown scale L T0 false (T0 :: Ts)).
Proof.
  intros m L scale b f fs T0 Ts V HL S0 SL F TM. rewrite reverse_frames, (C46_progress m L scale b f fs T0 Ts) by assumption.
  assert (TM2 : timely L T0 (T0 :: Ts)) by (cbn; split; [lia|intros; assumption]). revert TM2. generalize (T0 :: Ts). clear - HL S0 SL. intros Ts TM. generalize false as over.
  induction Ts as [|T Ts IH]; intros over; cbn [shown map snd fst]; [reflexivity|]. destruct TM as (T1 & T2). destruct over; cbn [orb].
  - f_equal. rewrite shown_over. clear. induction Ts; cbn; [reflexivity|]. f_equal. exact IHTs.
  - destruct (Z.ltb_spec L (T - T0)).
    + f_equal. rewrite shown_over. clear. induction Ts; cbn; [reflexivity|]. f_equal. exact IHTs.
    + rewrite IH by (apply T2; lia). f_equal. f_equal. pose proof (progress_range scale L T0 T ltac:(lia) S0 ltac:(lia)) as P. unfold progress in P. destruct (Z.leb_spec (T - T0) L); [|lia]. apply i32_small. nia.
Qed.
Example C46_reverse_ex : run_outs (b_frame (Reverse (Plain 0)) 16384) (b_begin base0) (map (fun t => Frame (clock t) 10 (fun _ => 1000) true true) [4294967290; 4294967790; 4294968290; 4294968291]) = [(16384, false); (8192, false); (0, false); (16384, true)].
Proof. vm_compute. reflexivity. Qed.
(** Progress starts at nothing, never falls, never exceeds full scale and is full at the end. *)
Theorem C46_monotone : forall scale L T0 T T', 0 < L -> 0 <= scale -> T0 <= T <= T' ->
  progress scale L T0 T0 = 0 /\ 0 <= progress scale L T0 T <= progress scale L T0 T' /\ progress scale L T0 T' <= scale /\ (L <= T - T0 -> progress scale L T0 T = scale).
Proof.
  intros scale L T0 T T' HL S0 TT. split; [unfold progress; rewrite Z.sub_diag, Z.mul_0_r; destruct (0 <=? L) eqn:E; [reflexivity|lia]|].
  pose proof (progress_mono scale L T0 T T' HL S0 TT). pose proof (progress_range scale L T0 T HL S0 ltac:(lia)). pose proof (progress_range scale L T0 T' HL S0 ltac:(lia)). split; [lia|]. split; [lia|].
  intros E. unfold progress. destruct (Z.leb_spec (T - T0) L); [|reflexivity]. replace (T - T0) with L by lia. apply Z.div_mul. lia.
Qed.
Definition fr (t : Z) : frame := Frame (clock t) 10 (fun _ => 1000) true true.
Example C46_progress_ex : run_outs (b_frame (Plain 0) 16384) (b_begin base0) (map fr [4294967290; 4294967790; 4294968290; 4294968291; 9000000000])
  = [(0, false); (8192, false); (16384, false); (16384, true); (16384, true)] /\ timely 1000 4294967290 [4294967790; 4294968290; 4294968291; 9000000000].
Proof. split; [vm_compute; reflexivity|]. cbn. repeat split; try lia. all: intros; lia. Qed.

(** The cubic fade starts at nothing, ends at full scale, stays in range, keeps within two
    steps of the exact curve x^2 (3 - x) / 2 and never falls by more than one step. *)
Theorem C46_smooth : smooth 0 = 0 /\ smooth 32768 = 16384 /\ forall x y, 0 <= x <= y -> y <= 32768 ->
  0 <= smooth x <= 16384 /\ smooth x * 2 ^ 30 <= x * x * (3 * 2 ^ 14 - x) < (smooth x + 2) * 2 ^ 30 /\ smooth x <= smooth y + 1.
Proof.
  split; [reflexivity|]. split; [reflexivity|]. intros x y X Y. pose proof (smooth_near x ltac:(lia)) as NX. pose proof (smooth_near y ltac:(lia)) as NY. pose proof (cubic_mono x y X Y) as M. pose proof (cubic_mono y 32768 ltac:(lia) ltac:(lia)) as ME. change (32768 * 32768 * (49152 - 32768)) with (16384 * 1073741824) in ME.
  assert (0 <= smooth x). { rewrite smooth_exact by lia. apply Z.div_pos; [|lia]. apply Z.mul_nonneg_nonneg; [apply Z.div_pos; nia|lia]. }
  change (2 ^ 30) with 1073741824. change (3 * 2 ^ 14) with 49152. repeat split; lia.
Qed.
(** It can fall by one step: the curve is not monotone. *)
Theorem C46_smooth_refuted : exists x, 0 <= x /\ x + 1 <= 32768 /\ smooth (x + 1) < smooth x.
Proof. exists 1024. vm_compute. repeat split; discriminate. Qed.

(** Long transitions: the product of time and scale wraps around, so a fade longer than 262
    seconds falls back to the old color. *)
Theorem C46_long_refuted : exists f g : frame, val f 0%nat = 300000 /\ now g - now f = 262144 /\
  run_outs (b_frame (Plain 0) 16384) (b_begin base0) [f; g] = [(0, false); (0, false)].
Proof. exists (Frame 0 10 (fun _ => 300000) true true), (Frame 262144 10 (fun _ => 300000) true true). vm_compute. auto. Qed.

(** Whatever the transition is made of, whatever happened since some begin(): in the frame in
    which it reports done it shows the new color at every led, and it stays done in all
    later frames until it is begun again. *)
Theorem C46_ends_at_new : forall (C : Type) (ok : C -> Prop) mix colors t os f (a b : C) led,
  mixes ok mix -> ok b -> 0 <= led < leds f -> leds f <= 8388607 -> ends_at_new t -> positions_ok f t -> boings_ok t ->
  Forall (fun o => match o with Begin => True | Run f => counts_ok f t end) (os ++ [Run f]) ->
  let u := fold_left step (os ++ [Run f]) (begin t) in
  done u = true -> getColor mix colors u a b led = b.
Proof. intros C ok mix colors t os f a b led M OK L1 L2 EN PO BO F. apply (end_color ok); auto. split; assumption. Qed.
Theorem C46_stays_done : forall t os f fs,
  Forall (fun o => match o with Begin => True | Run f => counts_ok f t end) (os ++ Run f :: map Run fs) ->
  done (fold_left step (os ++ [Run f]) (begin t)) = true -> done (fold_left step (os ++ Run f :: map Run fs) (begin t)) = true.
Proof. exact stays_done. Qed.
Definition sample_tr : tr := Concat3 (Join (Fade (Plain 0) base0 77) (WipeIn (Plain 1) base0 (Range 0 0))) 0 (LoopN 2 0 (Alt Sequence [Boing 1 (Plain 0) base0 5; CenterWipe 3 (Plain 0) base0 (Range 1 1)] 0 false)) false.
Definition frs (t : Z) : frame := Frame (clock t) 10 (fun n => nth n [100; 200; 1; 16384] 0) true true.
Example C46_ends_at_new_ex : ends_at_new sample_tr /\ positions_ok (frs 0) sample_tr /\ boings_ok sample_tr /\ counts_ok (frs 0) sample_tr /\
  let u t := fold_left step (map (fun t => Run (frs t)) t) (begin sample_tr) in
  done (u [0; 150; 201; 250; 302; 303; 404; 405]) = true /\ done (u [0; 150; 201; 250; 302; 303; 404]) = false.
Proof. cbn [ends_at_new positions_ok boings_ok counts_ok sample_tr]. repeat split; try discriminate; try (cbn; lia); vm_compute; reflexivity. Qed.
(** A blink does not end at the new color. *)
Theorem C46_blink_refuted : exists t f g, let u := runs (begin t) [f; g] in done u = true /\ forall (C : Type) mix colors (a b : C) led, getColor mix colors u a b led = a.
Proof.
  exists (Blink 2 1 (Plain 0) base0 false), (Frame 0 10 (fun n => if (n =? 0)%nat then 100 else 16384) true true), (Frame 101 10 (fun n => if (n =? 0)%nat then 100 else 16384) true true).
  split; [vm_compute; reflexivity|]. intros. vm_compute. reflexivity.
Qed.

(** At the beginning a fade and a wipe show the old color, in between a mix. *)
Theorem C46_fade_color : forall (C : Type) (ok : C -> Prop) mix colors m b f x (a c : C) led, mixes ok mix -> ok a ->
  val f m <> 0 -> 0 < val f m < 2147483648 -> getColor mix colors (run f (begin (Fade (Plain m) b x))) a c led = a.
Proof.
  intros C ok mix colors m b f x a c led (_ & M) A V V2. unfold run. cbn [begin go began]. unfold b_run, b_begin. cbn [restart ms_value]. unfold b_update, b_done. cbn [len start].
  rewrite u32_small by lia. destruct (Z.eqb_spec (val f m) 0); [lia|]. cbv zeta. rewrite Z.sub_diag. change (u32 0) with 0. destruct (Z.gtb_spec 0 (val f m)); [lia|]. cbn [bend getColor]. rewrite Z.mul_0_r. change (u32 0) with 0. rewrite Z.div_0_l by lia. apply (M a c 14); auto.
Qed.
(** A wipe of progress x covers x units from the bottom: each led by the part of it below x. *)
Theorem C46_wipe : forall (C : Type) mix colors m b x (a c : C) led, 0 <= led -> led * 256 + 256 < 4294967296 -> 0 <= x < 4294967296 ->
  getColor mix colors (Wipe m b x) a c led = mix a c (Z.max 0 (Z.min 256 (x - led * 256))) 8.
Proof. intros. cbn [getColor]. rewrite covered_prefix by assumption. reflexivity. Qed.

(** TransitionHelper shows the transition while it runs and the new color otherwise, and it
    stops exactly when the transition is done. *)
Theorem C46_helper : forall (C : Type) mix colors h f (a b : C) led,
  (active h = false -> h_run f h = h /\ h_color mix colors h a b led = b) /\
  (active h = true -> h_tr (h_run f h) = run f (h_tr h) /\ active (h_run f h) = negb (done (run f (h_tr h))) /\ h_color mix colors h a b led = getColor mix colors (h_tr h) a b led).
Proof. intros. unfold h_run, h_color. split; intros E; rewrite E; auto. Qed.

(** ** C47 *)
(** A concatenation behaves as its first part until that is done; from that frame on it
    behaves as its second part, begun in that frame. *)
Theorem C47_concat : forall t u r fs,
  let c := begin (Concat2 t u r) in
  (never_done (begin t) fs -> done (runs c fs) = false /\ forall (C : Type) mix colors (a b : C) led, getColor mix colors (runs c fs) a b led = getColor mix colors (runs (begin t) fs) a b led) /\
  (forall fs1 f gs, fs = fs1 ++ f :: gs -> just_done (begin t) (fs1 ++ [f]) ->
     done (runs c fs) = done (runs (begin u) (f :: gs)) /\ forall (C : Type) mix colors (a b : C) led, getColor mix colors (runs c fs) a b led = getColor mix colors (runs (begin u) (f :: gs)) a b led).
Proof.
  intros t u r fs c. unfold c. cbn [begin]. split.
  - intros N. rewrite concat2_first by exact N. split; reflexivity.
  - intros fs1 f gs -> J. apply just_done_split in J. destruct J as (fs1' & f' & E & N & D). apply app_inj_tail in E. destruct E as (<- & <-). rewrite concat2_handover by assumption. split; reflexivity.
Qed.
(** With an intermediate color: first from the old color to it, then from it to the new. *)
Theorem C47_concat_color : forall t c u r fs,
  let k := begin (Concat3 t c u r) in
  (never_done (begin t) fs -> done (runs k fs) = false /\ forall (C : Type) mix colors (a b : C) led, getColor mix colors (runs k fs) a b led = getColor mix colors (runs (begin t) fs) a (colors c led) led) /\
  (forall fs1 f gs, fs = fs1 ++ f :: gs -> just_done (begin t) (fs1 ++ [f]) ->
     done (runs k fs) = done (runs (begin u) (f :: gs)) /\
     forall (C : Type) mix colors (a b : C) led, getColor mix colors (runs k fs) a b led = if done (runs k fs) then b else getColor mix colors (runs (begin u) (f :: gs)) (colors c led) b led).
Proof.
  intros t c u r fs k. unfold k. cbn [begin]. split.
  - intros N. rewrite concat3_first by exact N. split; reflexivity.
  - intros fs1 f gs -> J. apply just_done_split in J. destruct J as (fs1' & f' & E & N & D). apply app_inj_tail in E. destruct E as (<- & <-). rewrite concat3_handover by assumption. split; reflexivity.
Qed.
Example C47_concat_ex : just_done (begin (Fade (Plain 0) base0 0)) [fr 0; fr 500; fr 1001].
Proof. exists [fr 0; fr 500], (fr 1001). split; [reflexivity|]. split; [vm_compute; reflexivity|]. intros k K. cbn in K. destruct k as [|[|[|k]]]; [lia|vm_compute; reflexivity|vm_compute; reflexivity|lia]. Qed.
(** A join runs both parts on every frame, and is done exactly when both are. *)
Theorem C47_join : forall t u fs,
  done (runs (begin (Join t u)) fs) = done (runs (begin t) fs) && done (runs (begin u) fs) /\
  done (runs (begin (JoinR t u)) fs) = done (runs (begin t) fs) && done (runs (begin u) fs) /\
  forall (C : Type) mix colors (a b : C) led,
    getColor mix colors (runs (begin (Join t u)) fs) a b led = getColor mix colors (runs (begin u) fs) (getColor mix colors (runs (begin t) fs) a b led) b led /\
    getColor mix colors (runs (begin (JoinR t u)) fs) a b led = getColor mix colors (runs (begin u) fs) a (getColor mix colors (runs (begin t) fs) a b led) led.
Proof. intros t u fs. cbn [begin]. rewrite join_runs, joinR_runs. repeat split. Qed.
(** An extension is the transition, held for its extra time after the transition's end. *)
Theorem C47_extend : forall m e x t fs,
  let k := begin (Extend m e x t) in
  (never_done (begin t) fs -> done (runs k fs) = false) /\
  (forall fs1 f gs, fs = fs1 ++ f :: gs -> just_done (begin t) (fs1 ++ [f]) ->
     exists e', done (runs k fs) = b_done (fold_left (fun b f => fst (b_frame m 0 b f)) (f :: gs) (b_begin e'))) /\
  forall (C : Type) mix colors (a b : C) led, getColor mix colors (runs k fs) a b led = getColor mix colors (runs (begin t) fs) a b led.
Proof.
  intros m e x t fs k. unfold k. cbn [begin]. split; [|split].
  - intros N. destruct (extend_first m e (begin t) fs N) as (b' & ->). reflexivity.
  - intros fs1 f gs -> J. apply just_done_split in J. destruct J as (fs1' & f' & E & N & D). apply app_inj_tail in E. destruct E as (<- & <-).
    destruct (extend_first m e (begin t) fs1 N) as (b' & E). exists b'. rewrite runs_app, E, runs_cons, run_eq. cbv zeta. rewrite D. cbn [negb andb]. rewrite extend_second. cbn [done fold_left andb]. f_equal. f_equal. unfold b_frame. destruct (b_update f m (b_run f m (b_begin b')) 0). reflexivity.
  - intros C mix colors a b led. assert (G : forall fs e x t, exists e' x', runs (Extend m e x t) fs = Extend m e' x' (runs t fs)).
    { clear. induction fs as [|f fs IH]; intros e x t; [eexists _, _; reflexivity|]. rewrite !runs_cons, run_eq. cbv zeta. destruct (negb x && done (run f t)); apply IH. }
    destruct (G fs e false (begin t)) as (e' & x' & ->). reflexivity.
Qed.
(** A sequence cycles through its alternatives: after each begun run the next one, in order. *)
Theorem C47_sequence : forall ts s g css, 0 <= s < Z.of_nat (length ts) -> Z.of_nat (length ts) <= 4294967295 -> Forall (fun fs => fs <> []) css -> css <> [] ->
  exists ts', length ts' = length ts /\ forall (C : Type) mix colors (a b : C) led,
    getColor mix colors (cycles (Alt Sequence ts s g) css) a b led =
    getColor mix colors (nth (Z.to_nat ((s + Z.of_nat (length css)) mod Z.of_nat (length ts))) ts' Instant) a b led.
Proof.
  intros ts s g css S0 S1 F NE. destruct (sequence_cycles css ts s g S0 S1 F) as (ts' & g' & E & L). exists ts'. split; [exact L|]. intros C mix colors a b led. rewrite E. cbn [getColor].
  pose proof (Z.mod_pos_bound (s + Z.of_nat (length css)) (Z.of_nat (length ts)) ltac:(lia)) as B. set (q := (s + Z.of_nat (length css)) mod Z.of_nat (length ts)) in *.
  destruct (slot_in ts' q) as [-> |]; [lia| |lia]. assert (Q : (Z.to_nat q < length ts')%nat) by lia. clearbody q. generalize (Z.to_nat q), Q. clear - ts'. induction ts' as [|t ts' IH]; intros n N; cbn in *; [lia|]. destruct n; [reflexivity|]. apply IH. lia.
Qed.
(** The documentation says the first selection is the first alternative.  With zeroed memory
    it is the second (and with arbitrary memory any). *)
Theorem C47_sequence_first_refuted : exists f t u, t <> u /\ forall (C : Type) mix colors (a b : C) led,
  getColor mix colors (cycles (Alt Sequence [t; u] 0 false) [[f]]) a b led = getColor mix colors (run f (begin u)) a b led.
Proof. exists (fr 0), Instant, (Delay (Plain 0) base0). split; [discriminate|]. intros. reflexivity. Qed.
(** Selection picks the alternative numbered by the function, modulo their number. *)
Theorem C47_select : forall g ts s bg f, ts <> [] -> Z.of_nat (length ts) <= 2147483647 ->
  exists ts', run f (begin (Alt (Select g) ts s bg)) = Alt (Select g) ts' (val f g mod Z.of_nat (length ts)) false /\
  nth (Z.to_nat (val f g mod Z.of_nat (length ts))) ts' Instant = run f (begin (nth (Z.to_nat (val f g mod Z.of_nat (length ts))) ts Instant)).
Proof.
  intros g ts s bg f NE L. cbn [begin]. rewrite run_eq. cbv zeta. cbn [choose]. assert (P : 0 < Z.of_nat (length ts)) by (destruct ts; [congruence|cbn; lia]). rewrite MOD_correct by exact P.
  eexists. split; [reflexivity|]. pose proof (Z.mod_pos_bound (val f g) (Z.of_nat (length ts)) P) as B. set (q := val f g mod Z.of_nat (length ts)) in *. destruct (slot_in ts q B) as [-> |]; [|lia].
  assert (Q : (Z.to_nat q < length ts)%nat) by lia. clear - Q. revert Q. generalize (Z.to_nat q). clear q. induction ts as [|t ts IH]; intros n N; cbn in *; [lia|]. destruct n; [reflexivity|]. apply IH. lia.
Qed.
(** A loop of N passes over a transition that reports done before its first frame (all timed
    ones do): after exactly N complete passes the next frame ends it, and it is not done before. *)
Theorem C47_loop : forall n l t N f fs u g, done (begin t) = true -> val f n = Z.of_nat N -> (1 <= N)%nat ->
  passes (begin t) N (f :: fs) u ->
  (forall j, (0 < j <= length (f :: fs))%nat -> done (runs (begin (LoopN n l t)) (firstn j (f :: fs))) = false) /\
  done (runs (begin (LoopN n l t)) (f :: fs ++ [g])) = true.
Proof.
  intros n l t N f fs u g D V N1 P. destruct (loopn_passes n (begin t) N (f :: fs) u P (val f n + 1) D ltac:(lia)) as (E & DU & NN).
  assert (S0 : forall gs, runs (begin (LoopN n l t)) (f :: gs) = runs (LoopN n (val f n + 1) (begin t)) (f :: gs)) by (intros gs; rewrite !runs_cons, loopn_start by (auto; lia); reflexivity). split.
  - intros [|j] J; [lia|]. specialize (NN (S j) J). cbn [firstn] in *. rewrite S0. exact NN.
  - rewrite S0. change (f :: fs ++ [g]) with ((f :: fs) ++ [g]). rewrite runs_app, E. rewrite runs_cons, run_eq. cbv zeta. replace (val f n + 1 - Z.of_nat N) with 1 by lia. cbn [Z.ltb Z.compare]. rewrite DU. reflexivity.
Qed.
(** A transition that does not report done right after begin() - a concatenation, a sequence,
    a selection - is run N + 1 times by a loop of N. *)
Theorem C47_loop_extra : forall n l t N f fs gs u g, done (begin t) = false -> val f n = Z.of_nat N ->
  just_done (begin t) (f :: fs) -> passes (runs (begin t) (f :: fs)) N gs u ->
  (forall j, (0 < j <= length (f :: fs ++ gs))%nat -> done (runs (begin (LoopN n l t)) (firstn j (f :: fs ++ gs))) = false) /\
  done (runs (begin (LoopN n l t)) (f :: fs ++ gs ++ [g])) = true.
Proof.
  intros n l t N f fs gs u g D V J P.
  assert (S0 : forall hs, runs (begin (LoopN n l t)) (f :: hs) = runs (LoopN n (val f n + 1) (begin t)) (f :: hs)).
  { intros hs. cbn [begin]. rewrite !runs_cons. f_equal. rewrite !(run_eq f (LoopN _ _ _)). cbv zeta. change (-1 <? 0) with true. cbv iota. destruct (Z.ltb_spec (val f n + 1) 0); [lia|]. reflexivity. }
  pose proof (just_done_done _ _ J) as DD. apply just_done_split in J. destruct J as (fs1 & h & EQ & NV & DH).
  assert (A : forall fs2, (exists k, fs2 = firstn k fs1) -> runs (LoopN n (val f n + 1) (begin t)) fs2 = LoopN n (val f n + 1) (runs (begin t) fs2)).
  { intros fs2 (k & ->). apply loopn_pass; [lia| |exact D]. intros j K. rewrite firstn_firstn. rewrite firstn_length in K. replace (Nat.min j k) with j by lia. apply NV. lia. }
  assert (FALSE : forall k, (0 < k <= length fs1)%nat -> done (runs (begin t) (firstn k fs1)) = false) by exact NV.
  assert (E1 : runs (LoopN n (val f n + 1) (begin t)) (f :: fs) = LoopN n (val f n + 1) (runs (begin t) (f :: fs))).
  { rewrite EQ, !runs_app. rewrite (A fs1) by (exists (length fs1); rewrite firstn_all; reflexivity). rewrite runs_cons, run_eq. cbv zeta. destruct (Z.ltb_spec (val f n + 1) 0); [lia|].
    assert (DG : done (runs (begin t) fs1) = false). { destruct fs1 as [|x xs]; [exact D|]. specialize (NV (length (x :: xs)) ltac:(cbn; lia)). rewrite firstn_all in NV. exact NV. }
    rewrite DG, andb_false_r. reflexivity. }
  destruct (loopn_passes n _ N gs u P (val f n + 1) DD ltac:(lia)) as (E & DU & NN). split.
  - change (f :: fs ++ gs) with ((f :: fs) ++ gs). intros j K. assert (X : done (runs (LoopN n (val f n + 1) (begin t)) (firstn j ((f :: fs) ++ gs))) = false).
    { apply (never_app (fun h => done (runs (LoopN n (val f n + 1) (begin t)) h) = false)); [| |exact K].
      - intros k KK. rewrite EQ. rewrite EQ, app_length in KK. cbn [length] in KK. destruct (Nat.le_gt_cases k (length fs1)).
        + rewrite firstn_app. replace (k - length fs1)%nat with 0%nat by lia. rewrite firstn_O, app_nil_r. rewrite A by (exists k; reflexivity). cbn. lia.
        + rewrite firstn_all2 by (rewrite app_length; cbn; lia). rewrite <- EQ, E1. cbn. lia.
      - intros k KK. rewrite runs_app, E1. apply NN. exact KK. }
    destruct j as [|j]; [lia|]. cbn [app firstn] in *. rewrite S0. exact X.
  - rewrite S0. change (f :: fs ++ gs ++ [g]) with ((f :: fs) ++ gs ++ [g]). rewrite !runs_app, E1, E. rewrite runs_cons, run_eq. cbv zeta. replace (val f n + 1 - Z.of_nat N) with 1 by lia. cbn [Z.ltb Z.compare]. rewrite DU. reflexivity.
Qed.
Definition fo (t : Z) : frame := Frame (clock t) 10 (fun n => if (n =? 0)%nat then 1 else 0) true true.
Example C47_loop_ex : passes (begin (Delay (Plain 1) base0)) 1 [fo 0] (runs (begin (Delay (Plain 1) base0)) [fo 0]).
Proof. change [fo 0] with ([fo 0] ++ []) at 1. eapply PS; [|apply P0]. exists [], (fo 0). split; [reflexivity|]. split; [vm_compute; reflexivity|]. cbn. lia. Qed.
(** So a loop of one pass over a concatenation is not over after one pass. *)
Theorem C47_loop_refuted : exists t f g u, val f 0%nat = 1 /\ passes t 1 [f] u /\ done (runs (begin (LoopN 0 0 t)) [f; g]) = false.
Proof.
  exists (Concat2 Instant Instant false), (fo 0), (fo 1). eexists. split; [reflexivity|]. split; [|vm_compute; reflexivity].
  change [fo 0] with ([fo 0] ++ []). eapply PS; [|apply P0]. exists [], (fo 0). split; [reflexivity|]. split; [vm_compute; reflexivity|]. cbn. lia.
Qed.
(** The effect of a transition is triggered once per run, in its first frame, and only if the
    blade is on (or always, for the "always" kind). *)
Theorem C47_effect : forall al bg d k t f fs, exists bg' d' t',
  runs (begin (DoEffect al bg d k t)) (f :: fs) = DoEffect al bg' d' (if al || is_on f then S k else k) t'.
Proof. intros. cbn [begin]. rewrite runs_cons, run_eq. cbn [andb]. destruct (fired_runs al (if al then if al then d else false else (if al then d else false) || negb (is_on f) && negb (is_powered f)) (if al || is_on f then S k else k) (run f (begin t)) fs) as (d' & t' & E). eexists _, _, _. exact E. Qed.

Print Assumptions C46_colors.
Print Assumptions C46_progress.
Print Assumptions C46_reverse.
Print Assumptions C46_shown.
Print Assumptions C46_monotone.
Print Assumptions C46_smooth.
Print Assumptions C46_smooth_refuted.
Print Assumptions C46_long_refuted.
Print Assumptions C46_ends_at_new.
Print Assumptions C46_stays_done.
Print Assumptions C46_blink_refuted.
Print Assumptions C46_fade_color.
Print Assumptions C46_wipe.
Print Assumptions C46_helper.
Print Assumptions C47_concat.
Print Assumptions C47_concat_color.
Print Assumptions C47_join.
Print Assumptions C47_extend.
Print Assumptions C47_sequence.
Print Assumptions C47_sequence_first_refuted.
Print Assumptions C47_select.
Print Assumptions C47_loop.
Print Assumptions C47_loop_extra.
Print Assumptions C47_loop_refuted.
Print Assumptions C47_effect.
