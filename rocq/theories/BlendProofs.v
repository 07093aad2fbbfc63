From Coq Require Import ZArith List Bool Lia ZifyBool ZifyNat Psatz.
From Verif Require Import Machine ArithModel ArithSpec ArithProofs ColorModel ColorSpec BlendModel BlendSpec.
Import ListNotations.
Local Open Scope Z_scope.

Lemma helper_nth : forall fuel cs x, (length cs <= fuel)%nat -> cs <> [] ->
  nth_is cs (Z.max 0 (Z.min x (count cs - 1))) (helper fuel cs x).
Proof.
  induction fuel as [|f IH]; intros cs x Hl Hne.
  - destruct cs; [contradiction|cbn in Hl; lia].
  - destruct cs as [|a [|b rest]]; [contradiction| |].
    + cbn [helper hd]. unfold nth_is, count. cbn [length]. replace (Z.max 0 (Z.min x (Z.of_nat 1 - 1))) with 0 by lia.
      split; [lia|reflexivity].
    + set (cs := a :: b :: rest) in *. change (helper (S f) cs x) with
        (let h := Nat.div2 (length cs) in
         if x <? Z.of_nat h then helper f (firstn h cs) x else helper f (skipn h cs) (x - Z.of_nat h)). cbv zeta.
      assert (Hlen : (2 <= length cs)%nat) by (subst cs; cbn; lia).
      set (h := Nat.div2 (length cs)).
      assert (Hh : (1 <= h < length cs)%nat).
      { subst h. split.
        - destruct (length cs) as [|[|k]]; cbn; lia.
        - apply Nat.lt_div2. lia. }
      clearbody h. clearbody cs.
      destruct (Z.ltb_spec x (Z.of_nat h)) as [H|H].
      * assert (L : length (firstn h cs) = h) by (rewrite firstn_length; lia).
        destruct (IH (firstn h cs) x ltac:(lia) ltac:(intros E; rewrite E in L; cbn in L; lia)) as [_ E].
        unfold count in *. rewrite L in E. split; [lia|].
        rewrite <- E. rewrite <- (firstn_skipn h cs) at 1. rewrite nth_error_app1 by (rewrite L; lia).
        f_equal. lia.
      * assert (L : length (skipn h cs) = (length cs - h)%nat) by apply skipn_length.
        destruct (IH (skipn h cs) (x - Z.of_nat h) ltac:(lia) ltac:(intros E; rewrite E in L; cbn in L; lia)) as [_ E].
        unfold count in *. rewrite L in E. split; [lia|].
        rewrite <- E. rewrite <- (firstn_skipn h cs) at 1.
        assert (L' : length (firstn h cs) = h) by (rewrite firstn_length; lia).
        rewrite nth_error_app2 by (rewrite L'; lia). rewrite L'. f_equal. lia.
Qed.
Lemma pick_nth cs x : cs <> [] -> nth_is cs (Z.max 0 (Z.min x (count cs - 1))) (pick cs x).
Proof. intros H. apply helper_nth; auto. Qed.

Lemma pick_ok cs x : cs <> [] -> colors_ok cs -> is16 (oc (pick cs x)).
Proof.
  intros H Hok. destruct (pick_nth cs x H) as [_ E]. apply nth_error_In in E.
  exact (proj1 (Forall_forall _ _) Hok _ E).
Qed.

Lemma mix32_floor x a b : 0 <= x <= 32768 -> 0 <= a <= 65535 -> 0 <= b <= 65535 ->
  mix32 x 15 a b = (a * (32768 - x) + b * x) / 32768.
Proof.
  intros Hx Ha Hb. unfold mix32, mul32, u32, u16. change (2 ^ 15) with 32768.
  rewrite !(Z.mod_small (_ - _) 65536) by lia. rewrite !(Z.mod_small x 65536) by lia.
  assert (0 <= a * (32768 - x) <= 65535 * (32768 - x)) by nia.
  assert (0 <= b * x <= 65535 * x) by nia.
  rewrite !(Z.mod_small _ 4294967296) by lia. rewrite Z.shiftr_div_pow2 by lia. change (2 ^ 15) with 32768.
  rewrite Z.mod_small; [reflexivity|]. split; [apply Z.div_pos; lia|].
  apply Z.div_lt_upper_bound; lia.
Qed.
Lemma mix32_lerp x a b : 0 <= x <= 32768 -> 0 <= a <= 65535 -> 0 <= b <= 65535 ->
  lerp x (mix32 x 15 a b) a b.
Proof.
  intros Hx Ha Hb. rewrite mix32_floor by auto. unfold lerp.
  pose proof (Z.div_mod (a * (32768 - x) + b * x) 32768 ltac:(lia)).
  pose proof (Z.mod_pos_bound (a * (32768 - x) + b * x) 32768 ltac:(lia)). lia.
Qed.

Lemma low15 x : Z.land x 32767 = x mod 32768.
Proof. change 32767 with (Z.ones 15). rewrite Z.land_ones by lia. reflexivity. Qed.

Lemma at_pos_way cs x : cs <> [] -> colors_ok cs -> 0 <= x <= (count cs - 1) * 32768 -> on_way cs x (at_pos cs x).
Proof.
  intros Hne Hok Hx. unfold at_pos. rewrite low15, Z.shiftr_div_pow2 by lia. change (2 ^ 15) with 32768.
  assert (Hi : 0 <= x / 32768 <= count cs - 1).
  { split; [apply Z.div_pos; lia|]. apply Z.div_le_upper_bound; lia. }
  pose proof (Z.mod_pos_bound x 32768 ltac:(lia)) as Ht.
  pose proof (pick_nth cs (x / 32768) Hne) as P1. rewrite (Z.max_r 0), Z.min_l in P1 by lia.
  pose proof (pick_nth cs (x / 32768 + 1) Hne) as P2. rewrite (Z.max_r 0) in P2 by lia.
  exists (pick cs (x / 32768)), (pick cs (x / 32768 + 1)). split; [exact P1|]. split; [exact P2|].
  pose proof (pick_ok cs (x / 32768) Hne Hok) as (A1 & A2 & A3).
  pose proof (pick_ok cs (x / 32768 + 1) Hne Hok) as (B1 & B2 & B3).
  split.
  - unfold mix_opaque, each3, map2. cbn [oc r g b]. repeat split; apply mix32_lerp; auto; lia.
  - unfold mix_opaque. cbn [o_od]. change (2 ^ (15 - 1)) with 16384. rewrite Z.gtb_ltb. reflexivity.
Qed.

Lemma to_int_id x : -2147483648 <= x <= 2147483647 -> to_int x = x.
Proof.
  intros H. unfold to_int, u32. destruct (Z.ltb_spec (x mod 4294967296) 2147483648) as [L|L].
  - destruct (Z_lt_le_dec x 0).
    + rewrite <- (Z.mod_add x 1) in L by lia. rewrite Z.mod_small in L by lia. lia.
    + apply Z.mod_small. lia.
  - destruct (Z_lt_le_dec x 0).
    + rewrite <- (Z.mod_add x 1) by lia. rewrite Z.mod_small by lia. lia.
    + rewrite Z.mod_small in L by lia. lia.
Qed.

Lemma ne_of_count {A} (cs : list A) : 1 <= count cs -> cs <> [].
Proof. intros H E. subst. unfold count in H. cbn in H. lia. Qed.

Lemma mix_many_way cs f : 2 <= count cs < 65536 -> colors_ok cs -> 0 <= f <= 32768 ->
  on_way cs (f * (count cs - 1)) (mix_many cs f).
Proof.
  intros Hn Hok Hf. unfold mix_many. fold (count cs).
  assert (0 <= f * (count cs - 1) <= 32768 * (count cs - 1)) by nia.
  rewrite to_int_id by lia. apply at_pos_way; auto; [apply ne_of_count; lia|lia].
Qed.

Lemma lerp_0 o a b : lerp 0 o a b -> o = a.
Proof. unfold lerp. lia. Qed.
Lemma lerp_full o a b : lerp 32768 o a b -> o = b.
Proof. unfold lerp. lia. Qed.
Lemma lerp_same t o a : lerp t o a a -> o = a.
Proof. unfold lerp. intros H. replace (a * (32768 - t) + a * t) with (a * 32768) in H by ring. lia. Qed.
Lemma color_eq (c d : color) : r c = r d -> g c = g d -> b c = b d -> c = d.
Proof. destruct c, d. cbn. intros -> -> ->. reflexivity. Qed.
Lemma opaque_eq (o p : opaque) : oc o = oc p -> o_od o = o_od p -> o = p.
Proof. destruct o, p. cbn. intros -> ->. reflexivity. Qed.

Lemma nth_is_fun {A} (l : list A) i (a b : A) : nth_is l i a -> nth_is l i b -> a = b.
Proof. intros [_ H] [_ H']. congruence. Qed.

(** Exactly on a color. *)
Lemma way_on cs i out c : on_way cs (i * 32768) out -> nth_is cs i c -> out = c.
Proof.
  intros (a & b & H1 & H2 & (L1 & L2 & L3) & E) Hc. rewrite Z.div_mul in H1 by lia. rewrite Z.mod_mul in * by lia.
  rewrite (nth_is_fun _ _ _ _ Hc H1). apply opaque_eq; [|exact E].
  apply color_eq; eapply lerp_0; eassumption.
Qed.

Lemma mix_two_way x y f : is16 (oc x) -> is16 (oc y) -> 0 <= f <= 32768 -> on_way [x; y] f (mix_two x y f).
Proof.
  intros Hx Hy Hf. destruct (Z.eq_dec f 32768) as [->|N].
  - exists y, y. change (32768 / 32768) with 1. change (Z.min (1 + 1) (count [x; y] - 1)) with 1. change (32768 mod 32768) with 0.
    assert (Hn : nth_is [x; y] 1 y) by (split; [lia|reflexivity]). split; [exact Hn|]. split; [exact Hn|].
    destruct Hx as (A1 & A2 & A3), Hy as (B1 & B2 & B3). split.
    + unfold mix_two, mix_opaque, each3, map2. cbn [oc r g b].
      assert (F : forall u v, 0 <= u <= 65535 -> 0 <= v <= 65535 -> mix32 32768 15 u v = v)
        by (intros u v Hu Hv; exact (lerp_full _ _ _ (mix32_lerp 32768 u v ltac:(lia) Hu Hv))).
      rewrite !F by auto. unfold lerp. repeat split; lia.
    + reflexivity.
  - exists x, y. rewrite (Z.div_small f) by lia. rewrite Z.mod_small by lia. change (Z.min (0 + 1) (count [x; y] - 1)) with 1.
    split; [split; [lia|reflexivity]|]. split; [split; [lia|reflexivity]|].
    destruct Hx as (A1 & A2 & A3), Hy as (B1 & B2 & B3). split.
    + unfold mix_two, mix_opaque, each3, map2. cbn [oc r g b]. repeat split; apply mix32_lerp; auto.
    + unfold mix_two, mix_opaque. cbn [o_od]. change (2 ^ (15 - 1)) with 16384. rewrite Z.gtb_ltb. reflexivity.
Qed.

Lemma mix_ends cs a z : 2 <= count cs < 65536 -> colors_ok cs ->
  nth_is cs 0 a -> nth_is cs (count cs - 1) z ->
  mix_many cs 0 = a /\ mix_many cs 32768 = z /\ mix_two a z 0 = a /\ mix_two a z 32768 = z.
Proof.
  intros Hn Hok Ha Hz.
  assert (Oa : is16 (oc a)) by (destruct Ha as [_ E]; apply nth_error_In in E; exact (proj1 (Forall_forall _ _) Hok _ E)).
  assert (Oz : is16 (oc z)) by (destruct Hz as [_ E]; apply nth_error_In in E; exact (proj1 (Forall_forall _ _) Hok _ E)).
  split; [|split; [|split]].
  - apply (way_on cs 0); auto. exact (mix_many_way cs 0 Hn Hok ltac:(lia)).
  - apply (way_on cs (count cs - 1)); auto. rewrite Z.mul_comm. apply (mix_many_way cs 32768 Hn Hok). lia.
  - apply (way_on [a; z] 0); [apply (mix_two_way a z 0); auto; lia|split; [lia|reflexivity]].
  - apply (way_on [a; z] 1); [apply (mix_two_way a z 32768); auto; lia|split; [lia|reflexivity]].
Qed.

Lemma mix_same o t : is16 (oc o) -> 0 <= t <= 32768 -> mix_opaque o o t 15 = o.
Proof.
  intros (A & B & C) Ht. apply opaque_eq.
  - apply color_eq; unfold mix_opaque, map2; cbn [oc r g b]; eapply lerp_same; apply mix32_lerp; auto.
  - unfold mix_opaque. cbn [o_od]. destruct (_ >? _); reflexivity.
Qed.

Lemma mix_outside cs f a z : 2 <= count cs -> colors_ok cs ->
  nth_is cs 0 a -> nth_is cs (count cs - 1) z -> -2147483648 <= f * (count cs - 1) <= 2147483647 ->
  (f < 0 -> mix_many cs f = a) /\ (f > 32768 -> mix_many cs f = z).
Proof.
  intros Hn Hok Ha Hz Hr. unfold mix_many. fold (count cs). rewrite to_int_id by lia.
  set (x := f * (count cs - 1)) in *.
  assert (Hne : cs <> []) by (apply ne_of_count; lia).
  unfold at_pos. rewrite low15, Z.shiftr_div_pow2 by lia. change (2 ^ 15) with 32768.
  pose proof (Z.mod_pos_bound x 32768 ltac:(lia)) as Ht.
  pose proof (pick_nth cs (x / 32768) Hne) as P1. pose proof (pick_nth cs (x / 32768 + 1) Hne) as P2.
  split; intros Hf.
  - assert (x / 32768 < 0) by (apply Z.div_lt_upper_bound; subst x; nia).
    rewrite Z.max_l in P1, P2 by lia.
    rewrite (nth_is_fun _ _ _ _ P1 Ha), (nth_is_fun _ _ _ _ P2 Ha). apply mix_same; [|lia].
    rewrite <- (nth_is_fun _ _ _ _ P1 Ha). apply pick_ok; auto.
  - assert (count cs - 1 <= x / 32768) by (apply Z.div_le_lower_bound; subst x; nia).
    rewrite Z.max_r, Z.min_r in P1, P2 by lia.
    rewrite (nth_is_fun _ _ _ _ P1 Hz), (nth_is_fun _ _ _ _ P2 Hz). apply mix_same; [|lia].
    rewrite <- (nth_is_fun _ _ _ _ P1 Hz). apply pick_ok; auto.
Qed.

Lemma gradient_way cs leds : 1 <= count cs <= 65536 -> colors_ok cs -> 2 <= leds < 2147483648 ->
  exists step, 0 <= (count cs - 1) * 32768 - (leds - 1) * step < leds - 1 /\
    forall led, 0 <= led < leds -> exists c, gradient cs leds led = Some c /\ on_way cs (led * step) c.
Proof.
  intros Hn Hok Hl. set (tot := (count cs - 1) * 32768).
  pose proof (Z.div_mod tot (leds - 1) ltac:(lia)) as E. pose proof (Z.mod_pos_bound tot (leds - 1) ltac:(lia)) as B.
  exists (tot / (leds - 1)). split; [lia|]. intros led Hled.
  assert (Hq : 0 <= tot / (leds - 1) <= tot).
  { split; [apply Z.div_pos; subst tot; lia|]. apply Z.div_le_upper_bound; [lia|]. subst tot. nia. }
  assert (Hs : 0 <= led * (tot / (leds - 1)) <= tot) by nia.
  unfold gradient, grad_mul. fold (count cs). rewrite Z.shiftl_mul_pow2 by lia. change (2 ^ 15) with 32768. fold tot.
  unfold u32. rewrite Z.mod_small by lia. destruct (Z.eqb_spec (leds - 1) 0); [lia|].
  rewrite to_int_id by (subst tot; lia). unfold imul, int_ok.
  replace ((_ <=? _) && (_ <=? _)) with true by (subst tot; lia).
  eexists. split; [reflexivity|]. apply at_pos_way; auto. apply ne_of_count. lia.
Qed.

(** Remap *)
Lemma clamp_in x lo hi : lo <= hi -> lo <= clampi32 x lo hi <= hi.
Proof. intros H. unfold clampi32. destruct (Z.ltb_spec x lo); [lia|]. rewrite Z.gtb_ltb. destruct (Z.ltb_spec hi x); lia. Qed.

Lemma remap_safe leds pos : 1 <= leds -> leds * 32768 <= 2147483647 -> -2147483648 <= pos * leds <= 2147483647 ->
  exists a z t, remap leds pos = Some (a, z, t) /\ 0 <= a < leds /\ z = Z.min (a + 1) (leds - 1) /\ 0 <= t < 32768 /\
    a * 32768 + t = Z.max 0 (Z.min (pos * leds) (leds * 32768 - 1)).
Proof.
  intros Hl H1 H2. unfold remap, imul, int_ok.
  replace ((_ <=? pos * leds) && _) with true by lia. replace ((_ <=? leds * 32768) && _) with true by lia.
  set (l := clampi32 (pos * leds) 0 (leds * 32768 - 1)).
  assert (El : l = Z.max 0 (Z.min (pos * leds) (leds * 32768 - 1))).
  { subst l. unfold clampi32. destruct (Z.ltb_spec (pos * leds) 0); [lia|]. rewrite Z.gtb_ltb. destruct (Z.ltb_spec (leds * 32768 - 1) (pos * leds)); lia. }
  rewrite low15, Z.shiftr_div_pow2 by lia. change (2 ^ 15) with 32768.
  assert (Hd : 0 <= l / 32768 < leds) by (split; [apply Z.div_pos; lia|apply Z.div_lt_upper_bound; lia]).
  assert (Ec : clampi32 (l / 32768) 0 leds = l / 32768).
  { unfold clampi32. destruct (Z.ltb_spec (l / 32768) 0); [lia|]. rewrite Z.gtb_ltb. destruct (Z.ltb_spec leds (l / 32768)); lia. }
  rewrite Ec. do 3 eexists. split; [reflexivity|].
  pose proof (Z.div_mod l 32768 ltac:(lia)). pose proof (Z.mod_pos_bound l 32768 ltac:(lia)).
  split; [lia|]. split; [reflexivity|]. split; lia.
Qed.

Lemma remap_ramp leds led : 1 <= leds -> leds * 32768 <= 2147483647 -> 0 <= led < leds ->
  exists a z t, remap leds (ramp leds led) = Some (a, z, t) /\
    led * 32768 - leds < a * 32768 + t <= led * 32768.
Proof.
  intros Hl H1 H2. unfold ramp. rewrite Z.quot_div_nonneg by lia.
  pose proof (Z.div_mod (led * 32768) leds ltac:(lia)) as E. pose proof (Z.mod_pos_bound (led * 32768) leds ltac:(lia)) as B.
  set (q := led * 32768 / leds) in *.
  assert (Hq : 0 <= q) by (apply Z.div_pos; lia).
  assert (0 <= q * leds) by nia.
  destruct (remap_safe leds q Hl H1 ltac:(lia)) as (a & z & t & R & _ & _ & _ & P).
  exists a, z, t. split; [exact R|]. lia.
Qed.

(** ColorSequence *)
Lemma u32_diff now last d : last <= now -> now - last = d -> d < 4294967296 -> u32 (u32 now - u32 last) = d.
Proof.
  intros H E L. unfold u32. rewrite Zminus_mod_idemp_l, Zminus_mod_idemp_r. rewrite E. apply Z.mod_small. lia.
Qed.

Lemma cseq_steady ms n : 0 < ms -> ms * 10000 < 4294967296 -> 0 < n -> forall ts t0 c k t, 0 <= c < n ->
  0 <= k -> k * (ms * 1000) <= t - t0 <= (k + 1) * (ms * 1000) ->
  steady (ms * 1000) t ts ->
  forall j, 0 <= j -> j * (ms * 1000) < last ts t - t0 <= (j + 1) * (ms * 1000) ->
  exists i, 0 <= i /\
  fold_left (cseq_run ms n) (map u32 ts) (CSeq (u32 (t0 + k * (ms * 1000))) ((c + k) mod n)) =
    CSeq (u32 (t0 + i * (ms * 1000))) ((c + i) mod n) /\
  i * (ms * 1000) <= last ts t - t0 <= (i + 1) * (ms * 1000) /\ (k * (ms * 1000) < t - t0 \/ k = 0 -> i * (ms * 1000) < last ts t - t0 \/ i = 0).
Proof.
  intros Hms Hfit Hn. set (P := ms * 1000). induction ts as [|x ts IH]; intros t0 c k t Hc Hk Ht Hst j Hj Hl.
  - exists k. cbn. split; [lia|]. split; [reflexivity|]. cbn in Hl. split; [lia|auto].
  - cbn [map fold_left]. destruct Hst as [Hx Hst].
    assert (Hlast : forall d, last (x :: ts) d = last ts x).
    { clear. revert x. induction ts as [|y ts IH]; intros x d; [reflexivity|].
      change (last (x :: y :: ts) d) with (last (y :: ts) d). rewrite (IH y d), (IH y x). reflexivity. }
    rewrite Hlast in *.
    assert (Hd : u32 (u32 x - u32 (t0 + k * P)) = x - (t0 + k * P)) by (apply u32_diff; subst P; lia).
    destruct (Z_le_gt_dec (x - t0) ((k + 1) * P)) as [S1|S1].
    + assert (E : cseq_run ms n (CSeq (u32 (t0 + k * P)) ((c + k) mod n)) (u32 x) = CSeq (u32 (t0 + k * P)) ((c + k) mod n)).
      { unfold cseq_run. cbn [q_last q_n]. rewrite Hd. rewrite Z.gtb_ltb. destruct (Z.ltb_spec (ms * 1000) (x - (t0 + k * P))); [subst P; lia|reflexivity]. }
      rewrite E. destruct (IH t0 c k x Hc Hk ltac:(lia) Hst j Hj Hl) as (i & Hi & F & R & W).
      exists i. split; [exact Hi|]. split; [exact F|]. split; [exact R|]. intros Q. apply W. destruct Q; [left; lia|auto].
    + assert (E : cseq_run ms n (CSeq (u32 (t0 + k * P)) ((c + k) mod n)) (u32 x) = CSeq (u32 (t0 + (k + 1) * P)) ((c + (k + 1)) mod n)).
      { unfold cseq_run. cbn [q_last q_n]. rewrite Hd. rewrite !Z.gtb_ltb.
        destruct (Z.ltb_spec (ms * 1000) (x - (t0 + k * P))); [|subst P; lia].
        destruct (Z.ltb_spec (ms * 10000) (x - (t0 + k * P))); [subst P; lia|]. fold P. f_equal.
        - unfold u32. rewrite Zplus_mod_idemp_l. f_equal. ring.
        - rewrite Zplus_mod_idemp_l. f_equal. ring. }
      rewrite E. destruct (IH t0 c (k + 1) x Hc ltac:(lia) ltac:(lia) Hst j Hj Hl) as (i & Hi & F & R & W).
      exists i. split; [exact Hi|]. split; [exact F|]. split; [exact R|]. intros _. apply W. left. lia.
Qed.

Lemma cseq_time ms n ts t0 c j : 0 < ms -> ms * 10000 < 4294967296 -> 0 < n -> 0 <= c < n ->
  steady (ms * 1000) t0 ts -> 0 <= j ->
  j * (ms * 1000) < last ts t0 - t0 <= (j + 1) * (ms * 1000) ->
  q_n (fold_left (cseq_run ms n) (map u32 ts) (CSeq (u32 t0) c)) = (c + j) mod n.
Proof.
  intros Hms Hf Hn Hc Hst Hj Hl.
  destruct (cseq_steady ms n Hms Hf Hn ts t0 c 0 t0 Hc ltac:(lia) ltac:(lia) Hst j Hj Hl) as (i & Hi & F & R & W).
  rewrite Z.mul_0_l, !Z.add_0_r in F. rewrite (Z.mod_small c n Hc) in F. rewrite F. cbn [q_n].
  assert (i = j); [|congruence]. specialize (W ltac:(auto)). nia.
Qed.

Lemma cseq_valid ms n ts s : 0 < n -> 0 <= q_n s < n -> 0 <= q_n (fold_left (cseq_run ms n) ts s) < n.
Proof.
  intros Hn. revert s. induction ts as [|t ts IH]; intros s Hs; [exact Hs|]. cbn [fold_left]. apply IH.
  unfold cseq_run. destruct (_ >? _); [|exact Hs]. destruct (_ >? _); cbn [q_n]; [lia|]. apply Z.mod_pos_bound. lia.
Qed.

Lemma cseq_late ms n s now : 0 < ms -> 
  (ms * 10000 < u32 (now - q_last s) -> cseq_run ms n s now = CSeq now 0) /\
  (ms * 1000 < u32 (now - q_last s) <= ms * 10000 -> q_n (cseq_run ms n s now) = (q_n s + 1) mod n).
Proof.
  intros Hms. unfold cseq_run. rewrite !Z.gtb_ltb. split; intros H.
  - destruct (Z.ltb_spec (ms * 1000) (u32 (now - q_last s))); [|lia].
    destruct (Z.ltb_spec (ms * 10000) (u32 (now - q_last s))); [reflexivity|lia].
  - destruct (Z.ltb_spec (ms * 1000) (u32 (now - q_last s))); [|lia].
    destruct (Z.ltb_spec (ms * 10000) (u32 (now - q_last s))); [lia|reflexivity].
Qed.

(** ColorSelect *)
Lemma wrap_f_mod n f : 0 < n -> wrap_f n f mod n = f mod n.
Proof.
  intros Hn. unfold wrap_f. destruct (_ <? _); [|reflexivity].
  replace (256 * n * ((- f + 256 * n - 1) / (256 * n))) with (256 * ((- f + 256 * n - 1) / (256 * n)) * n) by ring.
  apply Z.mod_add. lia.
Qed.

Lemma csel_step n s f done : 0 < n <= 256 ->
  e_sel (fst (csel_run n s f done)) = f mod n /\
  snd (csel_run n s f done) = negb (f mod n =? e_sel s) /\
  e_old (fst (csel_run n s f done)) = (if done then f mod n else if f mod n =? e_sel s then e_old s else e_sel s).
Proof.
  intros Hn. unfold csel_run. rewrite wrap_f_mod by lia. pose proof (Z.mod_pos_bound f n ltac:(lia)) as B.
  unfold u8. rewrite (Z.mod_small (f mod n) 256) by lia.
  destruct s as [sel old]. cbn [e_sel e_old]. destruct (Z.eqb_spec (f mod n) sel) as [E|E]; cbn [negb e_sel e_old].
  - rewrite <- E. destruct (Z.eqb_spec (f mod n) old) as [E'|E']; destruct done; cbn [fst snd e_sel e_old]; auto.
    all: rewrite E; auto. all: rewrite <- E; auto.
  - destruct (Z.eqb_spec (f mod n) sel); [contradiction|]. destruct done; cbn [fst snd e_sel e_old]; auto.
Qed.

Lemma csel_shows tr cs s f : 1 <= count cs <= 256 ->
  nth_is cs (f mod count cs) (csel_get tr cs (fst (csel_run (count cs) s f true))).
Proof.
  intros Hn. destruct (csel_step (count cs) s f true ltac:(lia)) as (A & _ & C). cbv iota in C.
  unfold csel_get. rewrite A, C, Z.eqb_refl. pose proof (Z.mod_pos_bound f (count cs) ltac:(lia)) as B.
  pose proof (pick_nth cs (f mod count cs) ltac:(apply ne_of_count; lia)) as P.
  rewrite (Z.max_r 0), Z.min_l in P by lia. exact P.
Qed.

Lemma csel_fades tr cs s f a z : 1 <= count cs <= 256 -> f mod count cs <> e_sel s ->
  nth_is cs (e_sel s) a -> nth_is cs (f mod count cs) z ->
  csel_get tr cs (fst (csel_run (count cs) s f false)) = tr a z.
Proof.
  intros Hn Hne Ha Hz. destruct (csel_step (count cs) s f false ltac:(lia)) as (A & _ & C). cbv iota in C.
  destruct (Z.eqb_spec (f mod count cs) (e_sel s)) as [|_]; [contradiction|].
  unfold csel_get. rewrite A, C. destruct (Z.eqb_spec (f mod count cs) (e_sel s)) as [|_]; [contradiction|].
  assert (Hne' : cs <> []) by (apply ne_of_count; lia).
  pose proof (Z.mod_pos_bound f (count cs) ltac:(lia)) as B.
  assert (e_sel s < count cs).
  { destruct Ha as [H0 E]. (assert (nth_error cs (Z.to_nat (e_sel s)) <> None) as E' by congruence; apply nth_error_Some in E'; unfold count; lia). }
  destruct Ha as [H0 Ea].
  pose proof (pick_nth cs (f mod count cs) Hne') as P. rewrite (Z.max_r 0), Z.min_l in P by lia.
  pose proof (pick_nth cs (e_sel s) Hne') as Q. rewrite (Z.max_r 0), Z.min_l in Q by lia.
  rewrite (nth_is_fun _ _ _ _ P Hz). rewrite (nth_is_fun _ _ _ _ Q (conj H0 Ea)). reflexivity.
Qed.

(** Stripes *)
Lemma stripe_get_neg cs : forall p acc, p <= 0 -> stripe_get cs p acc = acc.
Proof.
  induction cs as [|c rest IH]; intros p acc H; [reflexivity|]. cbn [stripe_get].
  destruct (Z.ltb_spec 0 p); [lia|]. cbn [andb]. apply IH. lia.
Qed.

Lemma stripe_get_eq : forall cs p acc, 0 <= p -> stripe_get cs p acc =
  let q := p mod 341 in
  let cur := Z.to_nat (p / 341) in
  let acc1 := match cur with
              | O => acc
              | S k => if q <? 171 then match nth_error cs k with Some c => map2 (add_part (sin_table (q + 341))) acc c | None => acc end else acc
              end in
  match nth_error cs cur with Some c => if 0 <? q then map2 (add_part (sin_table q)) acc1 c else acc1 | None => acc1 end.
Proof.
  induction cs as [|c rest IH]; intros p acc Hp.
  - cbn [stripe_get]. cbv zeta. destruct (Z.to_nat (p / 341)); cbn [nth_error]; [reflexivity|]. destruct n; cbn [nth_error]; destruct (_ <? 171); reflexivity.
  - cbn [stripe_get]. pose proof (Z.div_mod p 341 ltac:(lia)) as E. pose proof (Z.mod_pos_bound p 341 ltac:(lia)) as B.
    destruct (Z_lt_le_dec p 341) as [L|L].
    + rewrite Z.div_small, Z.mod_small by lia. change (Z.to_nat 0) with O. cbv zeta iota. cbn [nth_error].
      destruct (Z.ltb_spec p 512); [|lia]. rewrite andb_true_r. destruct (0 <? p); apply stripe_get_neg; lia.
    + assert (E1 : (p - 341) / 341 = p / 341 - 1) by (replace (p - 341) with (p + (-1) * 341) by ring; rewrite Z.div_add by lia; lia).
      assert (E2 : (p - 341) mod 341 = p mod 341) by (replace (p - 341) with (p + (-1) * 341) by ring; apply Z.mod_add; lia).
      assert (H1 : 1 <= p / 341) by lia.
      rewrite IH by lia. rewrite E1, E2. cbv zeta.
      remember (Z.to_nat (p / 341 - 1)) as k eqn:Hk. replace (Z.to_nat (p / 341)) with (S k) by lia.
      cbn [nth_error]. set (q := p mod 341) in *. destruct (Z.ltb_spec 0 p) as [_|]; [|lia]. cbn [andb].
      destruct k as [|k'].
      * replace p with (q + 341) by lia. replace (q + 341 <? 512) with (q <? 171) by lia. reflexivity.
      * destruct (Z.ltb_spec p 512) as [L2|_]; [lia|]. reflexivity.
Qed.

Definition sums_ok (k : nat) : bool :=
  let q := Z.of_nat k in
  let s := sin_table q + (if q <? 171 then sin_table (q + 341) else 0) in
  (14204 <=? s) && (s <=? 16411) && (0 <=? sin_table q) && (sin_table q <=? 16383) &&
  (0 <=? sin_table (q + 341) + (if q <? 171 then 0 else 16384)) && (sin_table (q + 341) <=? 16383).
Lemma sums_all : forallb sums_ok (seq 0 341) = true.
Proof. vm_compute. reflexivity. Qed.
Lemma sums q : 0 <= q < 341 -> sums_ok (Z.to_nat q) = true.
Proof. intros H. apply (proj1 (forallb_forall _ _) sums_all). apply in_seq. lia. Qed.

Lemma clamp16 x : clampi32 x 0 65535 = Z.max 0 (Z.min x 65535).
Proof. unfold clampi32. rewrite Z.gtb_ltb. destruct (Z.ltb_spec x 0); [lia|]. destruct (Z.ltb_spec 65535 x); lia. Qed.
Lemma add_parts w v c d : 0 <= w <= 16384 -> 0 <= v <= 16384 -> 0 <= c <= 65535 -> 0 <= d <= 65535 ->
  add_part w (add_part v 0 d) c = Z.min 65535 (part w c + part v d).
Proof.
  intros Hw Hv Hc Hd. unfold add_part, part. rewrite !Z.shiftr_div_pow2 by lia. change (2 ^ 14) with 16384.
  assert (0 <= c * w / 16384) by (apply Z.div_pos; nia). assert (0 <= d * v / 16384) by (apply Z.div_pos; nia).
  rewrite !clamp16. lia.
Qed.
Lemma add_part0 w c : 0 <= w <= 16384 -> 0 <= c <= 65535 -> add_part w 0 c = Z.min 65535 (part w c).
Proof.
  intros Hw Hc. unfold add_part, part. rewrite !Z.shiftr_div_pow2 by lia. change (2 ^ 14) with 16384.
  assert (0 <= c * w / 16384) by (apply Z.div_pos; nia).
  rewrite !clamp16. lia.
Qed.

Lemma nth_some {A} (l : list A) i : 0 <= i < count l -> exists c, nth_is l i c.
Proof.
  intros H. destruct (nth_error l (Z.to_nat i)) as [c|] eqn:E; [exists c; split; [lia|auto]|].
  apply nth_error_None in E. unfold count in H. lia.
Qed.
Lemma nth_none {A} (l : list A) k : count l <= Z.of_nat k -> nth_error l k = None.
Proof. intros H. apply nth_error_None. unfold count in H. lia. Qed.
Lemma nth_all {A} (P : A -> Prop) l i c : Forall P l -> nth_is l i c -> P c.
Proof. intros H [_ E]. apply nth_error_In in E. exact (proj1 (Forall_forall _ _) H _ E). Qed.

Lemma sin0 : sin_table 0 = 0. Proof. reflexivity. Qed.
Lemma part0 c : part 0 c = 0. Proof. unfold part. rewrite Z.mul_0_r. reflexivity. Qed.

Lemma two_passes cs p : 1 <= count cs -> Forall is16 cs -> 0 <= p < 341 * count cs ->
  stripe_shows sin_table cs p (stripe_get cs (p + 341 * count cs) (stripe_get cs p (Color 0 0 0))).
Proof.
  intros Hn Hok Hp. set (n := count cs) in *.
  pose proof (Z.div_mod p 341 ltac:(lia)) as E. pose proof (Z.mod_pos_bound p 341 ltac:(lia)) as B.
  assert (Hcur : 0 <= p / 341 < n) by (split; [apply Z.div_pos; lia|apply Z.div_lt_upper_bound; lia]).
  assert (Hprev : 0 <= (p / 341 - 1) mod n < n) by (apply Z.mod_pos_bound; lia).
  destruct (nth_some cs (p / 341) Hcur) as [c Hc]. destruct (nth_some cs _ Hprev) as [d Hd].
  exists c, d. split; [exact Hc|]. split; [exact Hd|].
  pose proof (nth_all _ _ _ _ Hok Hc) as (C1 & C2 & C3). pose proof (nth_all _ _ _ _ Hok Hd) as (D1 & D2 & D3).
  pose proof (sums (p mod 341) B) as S. unfold sums_ok in S. rewrite Z2Nat.id in S by lia.
  apply andb_true_iff in S as [S S6]. apply andb_true_iff in S as [S S5]. apply andb_true_iff in S as [S S4].
  apply andb_true_iff in S as [S S3]. clear S.
  apply Z.leb_le in S3, S4, S5, S6.
  set (q := p mod 341) in *.
  (* second pass *)
  rewrite (stripe_get_eq cs (p + 341 * n)) by lia. cbv zeta.
  replace ((p + 341 * n) mod 341) with q by (subst q; rewrite Z.mul_comm, Z.mod_add by lia; reflexivity).
  replace ((p + 341 * n) / 341) with (p / 341 + n) by (rewrite (Z.mul_comm 341), Z.div_add by lia; reflexivity).
  rewrite (nth_none cs (Z.to_nat (p / 341 + n))) by (fold n; lia).
  remember (Z.to_nat (p / 341 + n)) as kk eqn:Ek. destruct kk as [|k2]; [lia|].
  (* first pass *)
  rewrite (stripe_get_eq cs p) by lia. cbv zeta. fold q. destruct Hc as [Hc0 Hc]. rewrite Hc.
  destruct (Z.eq_dec (p / 341) 0) as [Z0|NZ].
  - rewrite Z0 in *. change (Z.to_nat 0) with O. cbv iota.
    replace ((0 - 1) mod n) with (n - 1) in Hd by (rewrite <- (Z.mod_add (0 - 1) 1 n) by lia; rewrite Z.mod_small by lia; lia).
    destruct Hd as [_ Hd]. replace k2 with (Z.to_nat (n - 1)) by lia. rewrite Hd.
    destruct (Z.ltb_spec q 171) as [L|L].
    + destruct (Z.ltb_spec 0 q) as [Q|Q].
      * unfold each3, map2. cbn [r g b]. rewrite !add_parts by lia. repeat split; f_equal; lia.
      * assert (Q0 : q = 0) by lia. rewrite Q0 in *. unfold each3, map2. cbn [r g b]. rewrite sin0, !part0. rewrite !add_part0 by lia. repeat split; f_equal; lia.
    + destruct (Z.ltb_spec 0 q) as [Q|Q]; [|lia].
      unfold each3, map2. cbn [r g b]. rewrite !add_part0 by lia. repeat split; f_equal; lia.
  - replace ((p / 341 - 1) mod n) with (p / 341 - 1) in Hd by (symmetry; apply Z.mod_small; lia).
    destruct Hd as [_ Hd].
    rewrite (nth_none cs k2) by (fold n; lia).
    replace (Z.to_nat (p / 341)) with (S (Z.to_nat (p / 341 - 1))) by lia. cbv iota. rewrite Hd.
    assert (X : forall (t : bool) (x : color), (if t then x else x) = x) by (intros []; reflexivity).
    rewrite X.
    destruct (Z.ltb_spec q 171) as [L|L].
    + destruct (Z.ltb_spec 0 q) as [Q|Q].
      * unfold each3, map2. cbn [r g b]. rewrite !add_parts by lia. repeat split; f_equal; lia.
      * assert (Q0 : q = 0) by lia. rewrite Q0 in *. unfold each3, map2. cbn [r g b]. rewrite sin0, !part0. rewrite !add_part0 by lia. repeat split; f_equal; lia.
    + destruct (Z.ltb_spec 0 q) as [Q|Q]; [|lia].
      unfold each3, map2. cbn [r g b]. rewrite !add_part0 by lia. repeat split; f_equal; lia.
Qed.

Lemma stripes_shows cs m mult led : 1 <= count cs -> Forall is16 cs ->
  stripe_shows sin_table cs ((m + led * mult) mod 4294967296 / 1024 mod (341 * count cs)) (stripes_color cs m mult led).
Proof.
  intros Hn Hok. unfold stripes_color, stripe_pos. fold (count cs). unfold u32.
  rewrite Z.shiftr_div_pow2 by lia. change (2 ^ 10) with 1024. rewrite (Z.mul_comm (count cs) 341).
  apply two_passes; auto. apply Z.mod_pos_bound. lia.
Qed.

Lemma bright_chan q c o : 0 <= q < 341 -> 0 <= c <= 65535 ->
  o = Z.min 65535 (part (sin_table q) c + (if q <? 171 then part (sin_table (q + 341)) c else 0)) ->
  14204 * c - 2 * 16384 < 16384 * o <= 16411 * c /\ o <= 65535.
Proof.
  intros Hq Hc E. pose proof (sums q Hq) as S. unfold sums_ok in S. rewrite Z2Nat.id in S by lia.
  apply andb_true_iff in S as [S _]. apply andb_true_iff in S as [S _]. apply andb_true_iff in S as [S _].
  apply andb_true_iff in S as [S _]. apply andb_true_iff in S as [S1 S2]. apply Z.leb_le in S1, S2.
  unfold part in E. set (w := sin_table q) in *. set (v := sin_table (q + 341)) in *. clearbody w v.
  pose proof (Z.div_mod (c * w) 16384 ltac:(lia)). pose proof (Z.mod_pos_bound (c * w) 16384 ltac:(lia)).
  pose proof (Z.div_mod (c * v) 16384 ltac:(lia)). pose proof (Z.mod_pos_bound (c * v) 16384 ltac:(lia)).
  destruct (q <? 171).
  - assert (14204 * c <= c * w + c * v <= 16411 * c) by nia. lia.
  - assert (14204 * c <= c * w <= 16411 * c) by nia. lia.
Qed.

Lemma stripes_bright cs c m mult led : 1 <= count cs -> Forall (eq c) cs -> is16 c ->
  each2 (fun o k => 14204 * k - 2 * 16384 < 16384 * o <= 16411 * k /\ o <= 65535) (stripes_color cs m mult led) c.
Proof.
  intros Hn Hall Hc.
  assert (Hok : Forall is16 cs) by (apply Forall_forall; intros x Hx; rewrite <- (proj1 (Forall_forall _ _) Hall _ Hx); exact Hc).
  destruct (stripes_shows cs m mult led Hn Hok) as (u & v & Hu & Hv & S1 & S2 & S3).
  rewrite <- (nth_all _ _ _ _ Hall Hu), <- (nth_all _ _ _ _ Hall Hv) in *.
  destruct Hc as (C1 & C2 & C3). set (p := _ mod (341 * count cs)) in *.
  pose proof (Z.mod_pos_bound p 341 ltac:(lia)) as B.
  split; [|split]; eapply bright_chan; eauto.
Qed.

(** The table is that of a sine: symmetric, odd, and sin^2 + cos^2 is constant. *)
Definition wave_ok (k : nat) : bool :=
  let i := Z.of_nat k in let s := sin_table i in let c := sin_table ((i + 256) mod 1024) in
  (sin_table ((i + 512) mod 1024) =? - s) && (sin_table ((1536 - i) mod 1024) =? s) &&
  (Z.abs (s * s + c * c - 16383 * 16383) <=? 42847) && ((512 <=? i) || (0 <=? s)) && ((256 <=? i) || (s <? sin_table (i + 1))).
Lemma wave_all : forallb wave_ok (seq 0 1024) = true.
Proof. vm_compute. reflexivity. Qed.
Lemma wave i : 0 <= i < 1024 ->
  sin_table ((i + 512) mod 1024) = - sin_table i /\ sin_table ((1536 - i) mod 1024) = sin_table i /\
  Z.abs (sin_table i * sin_table i + sin_table ((i + 256) mod 1024) * sin_table ((i + 256) mod 1024) - 16383 * 16383) <= 42847 /\
  (i < 512 -> 0 <= sin_table i) /\ (i < 256 -> sin_table i < sin_table (i + 1)).
Proof.
  intros H. assert (W : wave_ok (Z.to_nat i) = true) by (apply (proj1 (forallb_forall _ _) wave_all); apply in_seq; lia).
  unfold wave_ok in W. rewrite Z2Nat.id in W by lia.
  apply andb_true_iff in W as [W W5]. apply andb_true_iff in W as [W W4]. apply andb_true_iff in W as [W W3].
  apply andb_true_iff in W as [W1 W2]. apply Z.eqb_eq in W1, W2. apply Z.leb_le in W3.
  apply orb_true_iff in W4, W5. rewrite !Z.leb_le in *. rewrite Z.ltb_lt in W5.
  repeat split; auto; intros; destruct W4, W5; auto; lia.
Qed.

(** Movement *)
Definition frame_step (n : Z) (s : option (Z * Z * Z)) (f : frame) : option (Z * Z * Z) :=
  match s with Some (m, last, _) => stripes_run n m last (f_now f) (f_width f) (f_speed f) | None => None end.

Lemma quot333 x : Z.abs (x - 333 * Z.quot x 333) <= 332.
Proof.
  pose proof (Z.quot_rem' x 333). pose proof (Z.rem_bound_abs x 333 ltac:(lia)). lia.
Qed.

Lemma tri A B d moved N : Z.abs (A - 333 * d) <= 332 -> Z.abs (333 * moved - B) <= 332 * N ->
  Z.abs (333 * (d + moved) - (B + A)) <= 332 * (N + 1).
Proof. lia. Qed.

Lemma move n speed : 1 <= n <= 6000 -> forall fs t0 m0 k0, 0 <= m0 < n * 349184 ->
  (fix gaps t l := match l with [] => True | (t', w) :: r =>
     0 <= t' - t <= 2147483647 /\ Z.abs ((t' - t) * speed) <= 2147483647 /\ w <> 0 /\ gaps t' r end) t0 fs ->
  exists m moved k, fold_left (frame_step n) (map (fun f => Frame (u32 (fst f)) (snd f) speed) fs) (Some (m0, u32 t0, k0))
      = Some (m, u32 (last (map fst fs) t0), k) /\ 0 <= m < n * 349184 /\ m = (m0 + moved) mod (n * 349184) /\
    Z.abs (333 * moved - speed * (last (map fst fs) t0 - t0)) <= 332 * Z.of_nat (length fs).
Proof.
  intros Hn. induction fs as [|[t w] fs IH]; intros t0 m0 k0 Hm Hg.
  - exists m0, 0, k0. cbn. split; [reflexivity|]. split; [exact Hm|]. rewrite Z.add_0_r, Z.mod_small by lia. split; [reflexivity|]. lia.
  - destruct Hg as (G1 & G2 & G3 & G4). cbn [map fold_left fst snd].
    set (d := Z.quot ((t - t0) * speed) 333).
    pose proof (quot333 ((t - t0) * speed)) as Q. fold d in Q.
    assert (Hd : Z.abs d <= 6448900) by lia.
    assert (E : frame_step n (Some (m0, u32 t0, k0)) (Frame (u32 t) w speed) =
      Some ((m0 + d) mod (n * 349184), u32 t, u32 (Z.quot 51200000 w))).
    { unfold frame_step, stripes_run. cbn [f_now f_width f_speed].
      assert (T : to_int (u32 t - u32 t0) = t - t0).
      { unfold to_int. rewrite (u32_diff t t0 (t - t0)) by lia. destruct (Z.ltb_spec (t - t0) 2147483648); lia. }
      rewrite T. unfold imul, int_ok. replace ((_ <=? _) && (_ <=? _)) with true by lia. fold d.
      unfold iadd, int_ok. replace ((_ <=? _) && (_ <=? _)) with true by lia.
      destruct (Z.eqb_spec w 0); [contradiction|]. rewrite MOD_correct by lia. do 3 f_equal. f_equal. lia. }
    rewrite E.
    destruct (IH t ((m0 + d) mod (n * 349184)) (u32 (Z.quot 51200000 w)) ltac:(apply Z.mod_pos_bound; lia) G4)
      as (m & moved & k & F & R1 & R2 & R3).
    exists m, (d + moved), k.
    assert (Hlast : last (t :: map fst fs) t0 = last (map fst fs) t).
    { generalize (map fst fs). clear. intros l. revert t t0. induction l as [|y l IH]; intros t t0; [reflexivity|].
      change (last (t :: y :: l) t0) with (last (y :: l) t0). rewrite (IH y t0), (IH y t). reflexivity. }
    rewrite Hlast. split; [exact F|]. split; [exact R1|]. split.
    + rewrite R2, Zplus_mod_idemp_l. f_equal. ring.
    + set (L := last (map fst fs) t) in *.
      replace (speed * (L - t0)) with (speed * (L - t) + (t - t0) * speed) by ring.
      replace (Z.of_nat (length ((t, w) :: fs))) with (Z.of_nat (length fs) + 1) by (cbn [length]; lia).
      exact (tri _ _ _ _ _ Q R3).
Qed.

(** HardStripes *)
Lemma counts_all P a e c : counts P a e c -> a <= e -> (forall x, a <= x < e -> P x) -> c = e - a.
Proof.
  induction 1; intros Hle Hall.
  - lia.
  - rewrite IHcounts; [lia|lia|]. intros x Hx. apply Hall. lia.
  - exfalso. apply H1. apply Hall. lia.
Qed.
Lemma counts_none P a e c : counts P a e c -> (forall x, a <= x < e -> ~ P x) -> c = 0.
Proof.
  induction 1; intros Hall; [lia| |].
  - exfalso. eapply Hall; [|exact H1]. lia.
  - apply IHcounts. intros x Hx. apply Hall. lia.
Qed.

Lemma hard_inside n size : forall cs p i c k, 1 <= n -> 341 * n < 1000000000 -> 1 <= size < 1000000000 ->
  0 <= p -> nth_is cs i c -> count cs <= n -> p + 341 * i <= 341 * n ->
  k * (341 * n) + (p + 341 * i) <= 0 -> size <= k * (341 * n) + (p + 341 * i) + 341 ->
  forall acc, hard_get cs size p (n * 341) acc = c.
Proof.
  induction cs as [|x rest IH]; intros p i c k Hn Hbig Hsz Hp Hi Hcnt Hle H1 H2 acc.
  - destruct Hi as [_ E]. destruct (Z.to_nat i); discriminate.
  - cbn [hard_get]. set (w := stripes (Range 0 size) (Range p (p + 341)) (n * 341)).
    destruct Hi as [Hi0 Hi].
    assert (Hil : i < n).
    { assert (X : nth_error (x :: rest) (Z.to_nat i) <> None) by congruence. apply nth_error_Some in X. unfold count in Hcnt. lia. }
    assert (Hw : counts (in_stripe p (p + 341) (n * 341)) 0 size w) by (apply stripes_correct; lia).
    destruct (Z.eq_dec i 0) as [->|Hne].
    + cbn in Hi. injection Hi as <-.
      assert (w = size - 0) as ->.
      { eapply counts_all; [exact Hw|lia|]. intros y Hy. exists k. lia. }
      destruct (Z.eqb_spec (size - 0) 0); [lia|]. destruct (Z.eqb_spec (size - 0) size); [reflexivity|lia].
    + assert (w = 0) as ->.
      { eapply counts_none; [exact Hw|]. intros y Hy [j Hj].
        assert (0 < i) by lia.
        assert (A : -341 < 341 * (n * (k - j) + i) < 341) by nia.
        assert (B : n * (k - j) + i = 0) by lia.
        assert (C : k - j < 0) by nia. assert (n * (k - j) <= - n) by nia. lia. }
      cbn [Z.eqb]. replace (Z.to_nat i) with (S (Z.to_nat (i - 1))) in Hi by lia. cbn in Hi.
      apply (IH (p + 341) (i - 1) c k); auto; try lia.
      * split; [lia|exact Hi].
      * unfold count in *. cbn [length] in Hcnt. lia.
Qed.

Lemma hard_shows n size cs p i c k : 1 <= n -> 341 * n < 1000000000 -> 1 <= size < 1000000000 ->
  0 <= p < 341 * n -> nth_is cs i c -> count cs = n ->
  k * (341 * n) + (p + 341 * i) <= 0 -> size <= k * (341 * n) + (p + 341 * i) + 341 ->
  hard_get cs size p (n * 341) (Color 0 0 0) = c.
Proof.
  intros Hn Hb Hs Hp Hi Hc H1 H2.
  assert (Hil : 0 <= i < n).
  { destruct Hi as [H0 Hi]. assert (X : nth_error cs (Z.to_nat i) <> None) by congruence. apply nth_error_Some in X. unfold count in Hc. lia. }
  apply (hard_inside n size cs p i c k); auto; try lia.
  destruct (Z_le_gt_dec k (-2)) as [K|K]; [|nia].
  assert (k * (341 * n) <= -2 * (341 * n)) by nia. lia.
Qed.
