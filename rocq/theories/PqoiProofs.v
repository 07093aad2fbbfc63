(** Lemmas about the image codec. *)
From Coq Require Import ZArith List Bool Lia ZifyBool ZifyNat.
From Verif Require Import Machine PqoiModel PqoiSpec.
Import ListNotations.
Open Scope Z_scope.

(** * Elementary facts *)
Lemma u16_add a b : u16 (a + u16 b) = u16 (a + b).
Proof. unfold u16. apply Zplus_mod_idemp_r. Qed.
Lemma u16_id p : is_pixel p -> u16 p = p.
Proof. intros P. unfold u16. apply Z.mod_small. exact P. Qed.
Lemma land_ff x : Z.land x 0xff = x mod 256.
Proof. change 0xff with (Z.ones 8). rewrite Z.land_ones by lia. reflexivity. Qed.
Lemma hash_range p : 0 <= hashPixel p < 64.
Proof.
  unfold hashPixel, u32. rewrite Z.shiftr_div_pow2 by lia. pose proof (Z.mod_pos_bound (p * 173976727) (2 ^ 32) ltac:(lia)).
  split; [apply Z.div_pos; lia|]. apply Z.div_lt_upper_bound; lia.
Qed.
Lemma nth_set_nth {A} n (x d : A) l : (n < length l)%nat -> nth n (set_nth n x l) d = x.
Proof.
  intros L. unfold set_nth. rewrite app_nth2; rewrite firstn_length_le by lia; [|lia]. rewrite Nat.sub_diag. reflexivity.
Qed.
Lemma set_nth_same {A} n (d : A) l : (n < length l)%nat -> set_nth n (nth n l d) l = l.
Proof.
  unfold set_nth. revert n. induction l as [|x l IH]; intros n L; [cbn in L; lia|]. destruct n; [reflexivity|]. cbn in *. f_equal. apply IH. lia.
Qed.
Lemma set_nth_length {A} n (x : A) l : (n < length l)%nat -> length (set_nth n x l) = length l.
Proof.
  intros L. unfold set_nth. rewrite app_length, firstn_length_le by lia. cbn [length]. rewrite skipn_length. lia.
Qed.
Lemma remember_ok c p : codec_ok c -> codec_ok (remember_pixel c p).
Proof. intros C. unfold codec_ok, remember_pixel. cbn [stash]. rewrite set_nth_length; [exact C|]. unfold codec_ok in C. rewrite C. pose proof (hash_range p). lia. Qed.
Lemma remember_same c p : codec_ok c -> stash_at c (hashPixel p) = p -> remember_pixel c p = Codec (stash c) p.
Proof.
  intros C E. unfold remember_pixel. f_equal. rewrite <- E at 2. unfold stash_at. apply set_nth_same. unfold codec_ok in C. rewrite C. pose proof (hash_range p). lia.
Qed.
Lemma codec0_ok : codec_ok codec0.
Proof. reflexivity. Qed.

(** * The table of differences *)
Lemma case_deltas_eq : forall i, 1 <= i <= 124 -> nth (Z.to_nat (i - 1)) case_deltas 0 = nth (Z.to_nat i) deltas 0.
Proof.
  assert (D : deltas = 0 :: case_deltas) by (vm_compute; reflexivity). intros i I. rewrite D. replace (Z.to_nat i) with (S (Z.to_nat (i - 1))) by lia. reflexivity.
Qed.
Lemma in_upto x n : In x (upto n) -> 0 <= x < n.
Proof. unfold upto. intros H. apply in_map_iff in H. destruct H as (k & <- & K). apply in_seq in K. lia. Qed.
Lemma diff_cases d : diff_index d = 0 \/
  (exists i, 1 <= i <= 124 /\ diff_index d = i /\ nth (Z.to_nat i) deltas 0 = d) \/
  (exists g r b, 0 <= g < 32 /\ 0 <= r < 16 /\ 0 <= b < 16 /\ diff_index d = (160 + g) * 2 ^ 8 + r * 2 ^ 4 + b /\ lumaDiff g r b = d).
Proof.
  unfold diff_index. destruct (find _ (rev delta_assignments)) as [(k, v)|] eqn:F.
  - apply find_some in F. destruct F as (I & E). apply in_rev in I. apply in_map_iff in I. destruct I as (i & X & I). inversion X; subst. cbn [fst] in E. apply Z.eqb_eq in E.
    right. left. exists v. split; [|auto].
    change (skipn 1 (upto 125)) with (map Z.of_nat (seq 1 124)) in I. apply in_map_iff in I. destruct I as (k & K & I). apply in_seq in I.
    lia.
  - clear F. destruct (find _ (rev luma_assignments)) as [(k, v)|] eqn:F; [|auto].
    apply find_some in F. destruct F as (I & E). apply in_rev in I. cbn [fst] in E. apply Z.eqb_eq in E.
    unfold luma_assignments in I. apply in_flat_map in I. destruct I as (g & G & I). apply in_flat_map in I. destruct I as (r & R & I).
    apply in_map_iff in I. destruct I as (b & X & B). inversion X. right. right. exists g, r, b. apply in_upto in G, R, B. subst. auto.
Qed.

(** * One operation *)
Lemma run_length_spec limit p l : firstn (run_length limit p l) l = repeat p (run_length limit p l) /\ (run_length limit p l <= limit)%nat /\ (run_length limit p l <= length l)%nat.
Proof.
  revert l. induction limit as [|limit IH]; intros l; [cbn; auto with arith|]. destruct l as [|x l]; [cbn; auto with arith|]. cbn [run_length]. destruct (Z.eqb_spec x p) as [->|].
  - destruct (IH l) as (A & B & C). cbn. rewrite A. split; [reflexivity|]. lia.
  - cbn. split; [reflexivity|lia].
Qed.
Lemma list_eqb_true l m : list_eqb l m = true -> l = m.
Proof. unfold list_eqb. destruct (list_eq_dec _ _ _); [auto|discriminate]. Qed.

Lemma op0_bytes c hist p rest : codec_ok c -> is_pixel p ->
  let op0 := if stash_at c (hashPixel p) =? p then hashPixel p + 192
             else let op := diff_index (u16 (p - pixel c)) in
                  if op =? 0 then Z.lor (Z.lor (Z.shiftl 0x100 16) (Z.shiftl (Z.land p 0xff) 8)) (Z.shiftr p 8) else op in
  decode_one c hist (op_bytes op0 ++ rest) = Some (remember_pixel c p, [p], rest) /\
  Forall is_byte (op_bytes op0) /\ (1 <= length (op_bytes op0) <= 3)%nat.
Proof.
  intros C P op0. unfold op0. destruct (Z.eqb_spec (stash_at c (hashPixel p)) p) as [E|E].
  - pose proof (hash_range p) as H. assert (B : op_bytes (hashPixel p + 192) = [hashPixel p + 192]).
    { unfold op_bytes. destruct (Z.gtb_spec (hashPixel p + 192) 65535); [lia|]. destruct (Z.gtb_spec (hashPixel p + 192) 255); [lia|]. cbn [app]. rewrite Z.mod_small by lia. reflexivity. }
    rewrite B. split; [|split; [constructor; [unfold is_byte; lia|constructor]|cbn; lia]].
    cbn [app decode_one]. set (b := hashPixel p + 192) in *.
    replace (b =? 0) with false by lia. replace (b <=? 124) with false by lia. replace (b =? 125) with false by lia. replace (b =? 126) with false by lia.
    replace (b =? 127) with false by lia. replace (b <=? 159) with false by lia. replace (b <=? 191) with false by lia.
    replace (b - 192) with (hashPixel p) by lia. cbv zeta. rewrite E, remember_same by assumption. reflexivity.
  - cbv zeta. destruct (diff_cases (u16 (p - pixel c))) as [D|[(i & I & D & V)|(g & r & b & G & R & B & D & V)]].
    + rewrite D. change (0 =? 0) with true. cbv iota.
      assert (EQ : Z.lor (Z.lor (Z.shiftl 256 16) (Z.shiftl (Z.land p 255) 8)) (Z.shiftr p 8) = 16777216 + p mod 256 * 256 + p / 256).
      { change 255 with 0xff. rewrite land_ff. rewrite Z.shiftr_div_pow2 by lia. rewrite !Z.shiftl_mul_pow2 by lia. change (2 ^ 8) with 256. change (2 ^ 16) with 65536.
        unfold is_pixel in P. assert (A1 : 0 <= p mod 256 < 256) by (apply Z.mod_pos_bound; lia). assert (A2 : 0 <= p / 256 < 256) by (split; [apply Z.div_pos; lia|apply Z.div_lt_upper_bound; lia]).
        set (x := p mod 256) in *. set (y := p / 256) in *. clearbody x y.
        rewrite <- !Z.add_nocarry_lxor || idtac.
        assert (L1 : Z.lor (256 * 65536) (x * 256) = 256 * 65536 + x * 256).
        { rewrite <- Z.lxor_lor; [rewrite <- Z.add_nocarry_lxor; [lia|]|]; apply Z.bits_inj'; intros n N; rewrite Z.land_spec, Z.bits_0; change (256 * 65536) with (2 ^ 24); rewrite Z.pow2_bits_eqb by lia;
          (destruct (Z.eqb_spec 24 n) as [<-|]; [|reflexivity]; cbn [andb]; apply Z.bits_above_log2; [lia|]; destruct (Z.eq_dec x 0) as [->|]; [cbn; lia|]; apply Z.log2_lt_pow2; lia). }
        rewrite L1. replace (256 * 65536 + x * 256) with ((65536 + x) * 256) by lia. replace (16777216 + x * 256 + y) with ((65536 + x) * 256 + y) by lia.
        rewrite <- Z.lxor_lor; [rewrite <- Z.add_nocarry_lxor; [reflexivity|]|]; apply Z.bits_inj'; intros n N; rewrite Z.land_spec, Z.bits_0; change 256 with (2 ^ 8);
        (destruct (Z.lt_ge_cases n 8); [rewrite Z.mul_pow2_bits_low by lia; reflexivity|];
         replace (Z.testbit y n) with false; [apply andb_false_r|]; symmetry; destruct (Z.eq_dec y 0) as [->|]; [apply Z.bits_0|]; apply Z.bits_above_log2; [lia|]; apply Z.lt_le_trans with 8; [apply Z.log2_lt_pow2; lia|lia]). }
      rewrite EQ. unfold is_pixel in P.
      assert (A1 : 0 <= p mod 256 < 256) by (apply Z.mod_pos_bound; lia). assert (A2 : 0 <= p / 256 < 256) by (split; [apply Z.div_pos; lia|apply Z.div_lt_upper_bound; lia]).
      assert (A3 : p = 256 * (p / 256) + p mod 256) by (apply Z.div_mod; lia).
      assert (B : op_bytes (16777216 + p mod 256 * 256 + p / 256) = [0; p mod 256; p / 256]).
      { unfold op_bytes. set (x := p mod 256) in *. set (y := p / 256) in *. clearbody x y.
        destruct (Z.gtb_spec (16777216 + x * 256 + y) 65535); [|lia]. destruct (Z.gtb_spec (16777216 + x * 256 + y) 255); [|lia]. cbn [app].
        rewrite !Z.shiftr_div_pow2 by lia. change (2 ^ 16) with 65536. change (2 ^ 8) with 256. f_equal; [|f_equal; [|f_equal]]; Z.div_mod_to_equations; lia. }
      rewrite B. split; [|split; [repeat constructor; unfold is_byte; lia|cbn; lia]].
      cbn [app decode_one Z.eqb]. cbv zeta. change (2 ^ 8) with 256. replace (p / 256 * 256 + p mod 256) with p by lia. rewrite u16_id by exact P. reflexivity.
    + rewrite D. replace (i =? 0) with false by lia. 
      assert (B : op_bytes i = [i]).
      { unfold op_bytes. destruct (Z.gtb_spec i 65535); [lia|]. destruct (Z.gtb_spec i 255); [lia|]. cbn [app]. rewrite Z.mod_small by lia. reflexivity. }
      rewrite B. split; [|split; [constructor; [unfold is_byte; lia|constructor]|cbn; lia]].
      cbn [app decode_one]. replace (i =? 0) with false by lia. replace (i <=? 124) with true by lia. cbv zeta. rewrite case_deltas_eq by lia. rewrite V, u16_add.
      replace (pixel c + (p - pixel c)) with p by lia. rewrite u16_id by exact P. reflexivity.
    + rewrite D. set (op := (160 + g) * 2 ^ 8 + r * 2 ^ 4 + b) in *. assert (OP : op = (160 + g) * 256 + (r * 16 + b)) by (unfold op; lia). clearbody op.
      replace (op =? 0) with false by lia.
      assert (BY : op_bytes op = [160 + g; r * 16 + b]).
      { unfold op_bytes. destruct (Z.gtb_spec op 65535); [lia|]. destruct (Z.gtb_spec op 255); [|lia]. cbn [app].
        rewrite !Z.shiftr_div_pow2 by lia. change (2 ^ 8) with 256. subst op. f_equal; [|f_equal]; Z.div_mod_to_equations; lia. }
      rewrite BY. split; [|split; [repeat constructor; unfold is_byte; lia|cbn; lia]].
      cbn [app decode_one]. replace (160 + g =? 0) with false by lia. replace (160 + g <=? 124) with false by lia. replace (160 + g =? 125) with false by lia.
      replace (160 + g =? 126) with false by lia. replace (160 + g =? 127) with false by lia. replace (160 + g <=? 159) with false by lia. replace (160 + g <=? 191) with true by lia.
      replace (160 + g - 160) with g by lia. cbv zeta.
      replace (Z.shiftr (r * 16 + b) 4) with r by (rewrite Z.shiftr_div_pow2 by lia; change (2 ^ 4) with 16; Z.div_mod_to_equations; lia).
      replace (Z.land (r * 16 + b) 15) with b by (change 15 with (Z.ones 4); rewrite Z.land_ones by lia; change (2 ^ 4) with 16; Z.div_mod_to_equations; lia).
      rewrite V, u16_add. replace (pixel c + (p - pixel c)) with p by lia. rewrite u16_id by exact P. reflexivity.
Qed.

(** What one round of the encoder writes is one operation of the decoder. *)
Lemma choose_ok c prev hist p rem rest : codec_ok c -> Forall is_pixel (p :: rem) ->
  let '(op, l) := choose c prev (p :: rem) p in
  decode_one c (prev ++ hist) (op_bytes op ++ rest) = Some (if (l =? 1)%nat then remember_pixel c p else c, firstn l (p :: rem), rest) /\
  (1 <= l <= length (p :: rem))%nat /\ Forall is_byte (op_bytes op) /\ (1 <= length (op_bytes op) <= 3)%nat.
Proof.
  intros C P. assert (PP : is_pixel p) by (inversion P; assumption). unfold choose.
  destruct (op0_bytes c (prev ++ hist) p rest C PP) as (A1 & A2 & A3).
  set (op0 := if stash_at c (hashPixel p) =? p then _ else _) in *. cbv zeta in A1, A2, A3. fold op0 in A1, A2, A3. clearbody op0.
  assert (SMALL : forall o, 0 <= o < 256 -> op_bytes o = [o]).
  { intros o O. unfold op_bytes. destruct (Z.gtb_spec o 65535); [lia|]. destruct (Z.gtb_spec o 255); [lia|]. cbn [app]. rewrite Z.mod_small by lia. reflexivity. }
  set (good := fun r : Z * nat => decode_one c (prev ++ hist) (op_bytes (fst r) ++ rest) = Some (if (snd r =? 1)%nat then remember_pixel c p else c, firstn (snd r) (p :: rem), rest) /\
    (1 <= snd r <= length (p :: rem))%nat /\ Forall is_byte (op_bytes (fst r)) /\ (1 <= length (op_bytes (fst r)) <= 3)%nat).
  assert (G1 : good (op0, 1%nat)) by (unfold good; cbn [fst snd Nat.eqb firstn length]; repeat split; try apply A3; try assumption; lia).
  set (r2 := if (2 <=? length prev)%nat && (2 <=? length (p :: rem))%nat && list_eqb (firstn 2 (p :: rem)) (rev (firstn 2 prev)) then (125, 2%nat) else (op0, 1%nat)).
  assert (G2 : good r2).
  { unfold r2. destruct (2 <=? length prev)%nat eqn:L1; [|exact G1]. destruct (2 <=? length (p :: rem))%nat eqn:L2; [|exact G1].
    destruct (list_eqb (firstn 2 (p :: rem)) _) eqn:E; [|exact G1]. apply list_eqb_true in E. cbn [andb]. unfold good. cbn [fst snd]. rewrite (SMALL 125) by lia.
    destruct prev as [|a [|b prev]]; cbn in L1; try lia. split; [|split; [apply Nat.leb_le in L2; lia|split; [repeat constructor; unfold is_byte; lia|cbn; lia]]].
    rewrite E. reflexivity. }
  clearbody r2.
  set (r4 := if (4 <=? length prev)%nat && (4 <=? length (p :: rem))%nat && list_eqb (firstn 4 (p :: rem)) (rev (firstn 4 prev)) then (126, 4%nat) else r2).
  assert (G4 : good r4).
  { unfold r4. destruct (4 <=? length prev)%nat eqn:L1; [|exact G2]. destruct (4 <=? length (p :: rem))%nat eqn:L2; [|exact G2].
    destruct (list_eqb (firstn 4 (p :: rem)) _) eqn:E; [|exact G2]. apply list_eqb_true in E. cbn [andb]. unfold good. cbn [fst snd]. rewrite (SMALL 126) by lia.
    destruct prev as [|a [|b [|d [|e prev]]]]; cbn in L1; try lia. split; [|split; [apply Nat.leb_le in L2; lia|split; [repeat constructor; unfold is_byte; lia|cbn; lia]]].
    rewrite E. reflexivity. }
  clearbody r4. clear G1 G2.
  set (r8 := if (8 <=? length prev)%nat && (8 <=? length (p :: rem))%nat && list_eqb (firstn 8 (p :: rem)) (rev (firstn 4 prev) ++ rev (firstn 4 prev)) then (127, 8%nat) else r4).
  assert (G8 : good r8).
  { unfold r8. destruct (8 <=? length prev)%nat eqn:L1; [|exact G4]. destruct (8 <=? length (p :: rem))%nat eqn:L2; [|exact G4].
    destruct (list_eqb (firstn 8 (p :: rem)) _) eqn:E; [|exact G4]. apply list_eqb_true in E. cbn [andb]. unfold good. cbn [fst snd]. rewrite (SMALL 127) by lia.
    destruct prev as [|a [|b [|d [|e prev]]]]; cbn in L1; try lia. split; [|split; [apply Nat.leb_le in L2; lia|split; [repeat constructor; unfold is_byte; lia|cbn; lia]]].
    rewrite E. reflexivity. }
  clearbody r8. clear G4.
  assert (FIN : forall r, good r -> let '(op, l) := r in decode_one c (prev ++ hist) (op_bytes op ++ rest) = Some (if (l =? 1)%nat then remember_pixel c p else c, firstn l (p :: rem), rest) /\
    (1 <= l <= length (p :: rem))%nat /\ Forall is_byte (op_bytes op) /\ (1 <= length (op_bytes op) <= 3)%nat) by (intros (op, l) G; exact G).
  destruct (Z.eqb_spec p (pixel c)) as [E|]; [|apply FIN, G8].
  destruct (snd r8 <? run_length 33 (pixel c) (p :: rem))%nat eqn:R; [|apply FIN, G8].
  destruct G8 as (_ & G8 & _). apply Nat.ltb_lt in R. destruct (run_length_spec 33 (pixel c) (p :: rem)) as (B1 & B2 & B3). set (run := run_length 33 (pixel c) (p :: rem)) in *. clearbody run.
  refine (FIN (Z.of_nat run + 126, run) _). unfold good. cbn [fst snd]. rewrite (SMALL (Z.of_nat run + 126)) by lia.
  split; [|split; [lia|split; [repeat constructor; unfold is_byte; lia|cbn; lia]]].
  replace (run =? 1)%nat with false by lia. cbn [app decode_one]. set (b := Z.of_nat run + 126) in *.
  replace (b =? 0) with false by lia. replace (b <=? 124) with false by lia. replace (b =? 125) with false by lia. replace (b =? 126) with false by lia.
  replace (b =? 127) with false by lia. replace (b <=? 159) with true by lia. replace (Z.to_nat (b - 126)) with run by lia. rewrite B1. reflexivity.
Qed.

(** * Sequences of operations *)
Inductive decodes : codec -> list Z -> list Z -> list Z -> codec -> list Z -> Prop :=
| D_nil c hist bytes : decodes c hist bytes [] c bytes
| D_op c hist bytes c1 ps bytes1 qs c2 bytes2 : decode_one c hist bytes = Some (c1, ps, bytes1) -> decodes c1 (rev ps ++ hist) bytes1 qs c2 bytes2 ->
    decodes c hist bytes (ps ++ qs) c2 bytes2.

Lemma decode_one_emits c hist bytes c1 ps bytes1 : decode_one c hist bytes = Some (c1, ps, bytes1) ->
  (1 <= length ps <= 33)%nat /\ (length bytes1 < length bytes)%nat.
Proof.
  unfold decode_one. destruct bytes as [|byte bytes]; [discriminate|].
  destruct (byte =? 0) eqn:E0. { destruct bytes as [|? [|? ?]]; try discriminate. intros X; inversion X; subst. cbn. lia. }
  destruct (byte <=? 124) eqn:E1. { intros X; inversion X; subst. cbn [length]. lia. }
  destruct (byte =? 125) eqn:E2. { destruct hist as [|? [|? ?]]; try discriminate. intros X; inversion X; subst. cbn. lia. }
  destruct (byte =? 126) eqn:E3. { destruct hist as [|? [|? [|? [|? ?]]]]; try discriminate. intros X; inversion X; subst. cbn. lia. }
  destruct (byte =? 127) eqn:E4. { destruct hist as [|? [|? [|? [|? ?]]]]; try discriminate. intros X; inversion X; subst. cbn. lia. }
  destruct (byte <=? 159) eqn:E5.
  { intros X; inversion X; subst. rewrite repeat_length. cbn [length]. split; [|lia]. split; [|lia]. destruct (Z.lt_ge_cases byte 125); [|lia]. exfalso. lia. }
  destruct (byte <=? 191) eqn:E6. { destruct bytes as [|? ?]; try discriminate. intros X; inversion X; subst. cbn. lia. }
  intros X; inversion X; subst. cbn. lia.
Qed.
Lemma decodes_block c hist bytes qs c2 bytes2 : decodes c hist bytes qs c2 bytes2 -> forall rounds, (length qs <= rounds)%nat ->
  decode_block rounds c hist bytes (length qs) = Some (c2, qs, bytes2).
Proof.
  induction 1 as [|c hist bytes c1 ps bytes1 qs c2 bytes2 E D IH]; intros rounds R; [destruct rounds; reflexivity|].
  destruct (decode_one_emits _ _ _ _ _ _ E) as (L & _). rewrite app_length in *. destruct rounds as [|rounds]; [lia|].
  destruct (length ps + length qs)%nat as [|n] eqn:N; [lia|]. cbn [decode_block]. rewrite E. replace (S n - length ps)%nat with (length qs) by lia. rewrite IH by lia. reflexivity.
Qed.
Lemma block_decodes rounds c hist bytes n c2 qs bytes2 : decode_block rounds c hist bytes n = Some (c2, qs, bytes2) ->
  decodes c hist bytes qs c2 bytes2 /\ (n <= length qs)%nat /\ (length qs <= n + 32)%nat /\ (n = 0%nat -> qs = []).
Proof.
  revert c hist bytes n qs. induction rounds as [|rounds IH]; intros c hist bytes n qs H; destruct n as [|n]; cbn [decode_block] in H; try discriminate.
  - inversion H; subst. split; [constructor|]. cbn. repeat split; lia.
  - inversion H; subst. split; [constructor|]. cbn. repeat split; lia.
  - destruct (decode_one c hist bytes) as [((c1, ps), bytes1)|] eqn:E; [|discriminate].
    destruct (decode_block rounds c1 (rev ps ++ hist) bytes1 (S n - length ps)) as [((c3, qs1), bytes3)|] eqn:F; [|discriminate]. inversion H; subst.
    destruct (IH _ _ _ _ _ F) as (A & B & C & D). destruct (decode_one_emits _ _ _ _ _ _ E) as (L & _). split; [econstructor; eauto|]. rewrite app_length. split; [lia|]. split; [|lia].
    destruct (Nat.le_gt_cases (S n) (length ps)) as [Q|Q]; [|lia]. rewrite D by lia. cbn. lia.
Qed.
Lemma decodes_app c hist bytes qs c1 bytes1 qs2 c2 bytes2 : decodes c hist bytes qs c1 bytes1 -> decodes c1 (rev qs ++ hist) bytes1 qs2 c2 bytes2 ->
  decodes c hist bytes (qs ++ qs2) c2 bytes2.
Proof.
  induction 1 as [|c hist bytes c3 ps bytes3 qs c4 bytes4 E D IH]; intros H; [exact H|]. rewrite <- app_assoc. econstructor; [exact E|]. apply IH.
  rewrite rev_app_distr, <- app_assoc in H. exact H.
Qed.
Lemma decode_one_more c hist bytes more c1 ps bytes1 : decode_one c hist bytes = Some (c1, ps, bytes1) -> decode_one c hist (bytes ++ more) = Some (c1, ps, bytes1 ++ more).
Proof.
  unfold decode_one. destruct bytes as [|byte bytes]; [discriminate|]. cbn [app].
  destruct (byte =? 0). { destruct bytes as [|? [|? ?]]; try discriminate. intros X; inversion X; subst. reflexivity. }
  destruct (byte <=? 124). { intros X; inversion X; subst. reflexivity. }
  destruct (byte =? 125). { destruct hist as [|? [|? ?]]; try discriminate. intros X; inversion X; subst. reflexivity. }
  destruct (byte =? 126). { destruct hist as [|? [|? [|? [|? ?]]]]; try discriminate. intros X; inversion X; subst. reflexivity. }
  destruct (byte =? 127). { destruct hist as [|? [|? [|? [|? ?]]]]; try discriminate. intros X; inversion X; subst. reflexivity. }
  destruct (byte <=? 159). { intros X; inversion X; subst. reflexivity. }
  destruct (byte <=? 191). { destruct bytes as [|? ?]; try discriminate. intros X; inversion X; subst. reflexivity. }
  intros X; inversion X; subst. reflexivity.
Qed.
Lemma decodes_more c hist bytes qs c1 bytes1 more : decodes c hist bytes qs c1 bytes1 -> decodes c hist (bytes ++ more) qs c1 (bytes1 ++ more).
Proof. induction 1 as [|c hist bytes c3 ps bytes3 qs c4 bytes4 E D IH]; [constructor|]. econstructor; [|exact IH]. apply decode_one_more. exact E. Qed.

Lemma firstn_4_more {A} (l a b : list A) : firstn 4 a = firstn 4 b -> firstn 4 (l ++ a) = firstn 4 (l ++ b).
Proof.
  intros E. rewrite !firstn_app. f_equal. rewrite <- (firstn_firstn a 4 4), <- (firstn_firstn b 4 4) || idtac.
  assert (X : forall k (u v : list A), (k <= 4)%nat -> firstn 4 u = firstn 4 v -> firstn k u = firstn k v).
  { intros k u v K U. replace k with (Nat.min k 4) by lia. rewrite <- !firstn_firstn. rewrite U. reflexivity. }
  apply X; [lia|exact E].
Qed.
Lemma decode_one_hist c h1 h2 bytes : firstn 4 h1 = firstn 4 h2 -> decode_one c h1 bytes = decode_one c h2 bytes.
Proof.
  intros E. unfold decode_one. destruct bytes as [|byte bytes]; [reflexivity|].
  destruct (byte =? 0); [reflexivity|]. destruct (byte <=? 124); [reflexivity|].
  destruct h1 as [|a1 [|b1 [|d1 [|e1 h1]]]], h2 as [|a2 [|b2 [|d2 [|e2 h2]]]]; cbn in E; inversion E; subst; reflexivity.
Qed.
Lemma decodes_hist c h1 h2 bytes qs c1 bytes1 : firstn 4 h1 = firstn 4 h2 -> decodes c h1 bytes qs c1 bytes1 -> decodes c h2 bytes qs c1 bytes1.
Proof.
  intros E D. revert h2 E. induction D as [|c hist bytes c3 ps bytes3 qs c4 bytes4 E D IH]; intros h2 H; [constructor|].
  econstructor; [rewrite <- (decode_one_hist c hist h2) by exact H; exact E|]. apply IH. apply firstn_4_more. exact H.
Qed.
(** Two decodings of the same bytes: one extends the other. *)
Lemma decodes_det c hist bytes q1 c1 r1 : decodes c hist bytes q1 c1 r1 -> forall q2 c2 r2, decodes c hist bytes q2 c2 r2 ->
  (exists q, q2 = q1 ++ q /\ decodes c1 (rev q1 ++ hist) r1 q c2 r2) \/ (exists q, q1 = q2 ++ q /\ decodes c2 (rev q2 ++ hist) r2 q c1 r1).
Proof.
  induction 1 as [c hist bytes|c hist bytes c3 ps bytes3 qs c4 bytes4 E D IH]; intros q2 c2 r2 H.
  - left. exists q2. split; [reflexivity|exact H].
  - inversion H as [|? ? ? c5 ps5 bytes5 qs5 ? ? E5 D5]; subst.
    + right. exists (ps ++ qs). split; [reflexivity|]. cbn. econstructor; eauto.
    + rewrite E in E5. inversion E5; subst. destruct (IH _ _ _ D5) as [(q & -> & Q)|(q & -> & Q)]; [left|right]; exists q; rewrite <- app_assoc; (split; [reflexivity|]);
      rewrite rev_app_distr, <- app_assoc; exact Q.
Qed.
Lemma decodes_empty c hist q c1 r : decodes c hist [] q c1 r -> q = [] /\ c1 = c /\ r = [].
Proof. intros H. inversion H; subst; [auto|]. discriminate. Qed.

(** * Lossless *)
Lemma encode_ok rounds : forall c prev hist rem rest, codec_ok c -> Forall is_pixel rem -> (length rem <= rounds)%nat ->
  let '(c2, out) := encode_pixels rounds c prev rem in
  decodes c (prev ++ hist) (out ++ rest) rem c2 rest /\ codec_ok c2 /\ Forall is_byte out /\ (length out <= 3 * length rem)%nat.
Proof.
  induction rounds as [|rounds IH]; intros c prev hist rem rest C P L.
  - destruct rem; [|cbn in L; lia]. cbn. split; [constructor|]. split; [exact C|]. auto.
  - destruct rem as [|p rem]; [cbn; split; [constructor|]; split; [exact C|]; auto|]. cbn [encode_pixels].
    pose proof (choose_ok c prev hist p rem) as K. destruct (choose c prev (p :: rem) p) as (op, l) eqn:E.
    assert (K0 := K (nil) C P). destruct K0 as (_ & K1 & K2 & K3).
    set (c1 := if (l =? 1)%nat then remember_pixel c p else c) in *. assert (C1 : codec_ok c1) by (unfold c1; destruct (l =? 1)%nat; [apply remember_ok|]; exact C).
    assert (P1 : Forall is_pixel (skipn l (p :: rem))). { rewrite <- (firstn_skipn l (p :: rem)) in P. apply Forall_app in P. apply P. }
    assert (L1 : (length (skipn l (p :: rem)) <= rounds)%nat) by (rewrite skipn_length; lia).
    specialize (IH c1 (rev (firstn l (p :: rem)) ++ prev) hist (skipn l (p :: rem)) rest C1 P1 L1). destruct (encode_pixels rounds c1 _ _) as (c2, out).
    destruct IH as (I1 & I2 & I3 & I4). destruct (K (out ++ rest) C P) as (K0 & _).
    split; [|split; [exact I2|split; [apply Forall_app; auto|]]].
    + rewrite <- app_assoc. rewrite <- (firstn_skipn l (p :: rem)) at 1. econstructor; [exact K0|]. rewrite <- app_assoc in I1. exact I1.
    + rewrite app_length. rewrite skipn_length in I4. lia.
Qed.
Lemma encodePixels_ok c hist ps rest : codec_ok c -> Forall is_pixel ps ->
  decodes c hist (snd (encodePixels c ps) ++ rest) ps (fst (encodePixels c ps)) rest /\ codec_ok (fst (encodePixels c ps)) /\
  Forall is_byte (snd (encodePixels c ps)) /\ (length (snd (encodePixels c ps)) <= 3 * length ps)%nat.
Proof. intros C P. unfold encodePixels. pose proof (encode_ok (length ps) c [] hist ps rest C P (le_n _)) as K. destruct (encode_pixels _ _ _ _). exact K. Qed.
Lemma block_ok c hist ps rest : codec_ok c -> Forall is_pixel ps ->
  DecodeBlock c hist (snd (encodePixels c ps) ++ rest) (length ps) = Some (fst (encodePixels c ps), ps, rest).
Proof. intros C P. unfold DecodeBlock. apply decodes_block; [|lia]. apply encodePixels_ok; assumption. Qed.
