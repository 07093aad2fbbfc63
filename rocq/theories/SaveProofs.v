From Coq Require Import ZArith List Bool Lia ZifyBool ZifyNat.
From Verif Require Import StrModel FileModel FileSpec FileProofs ConfigModel ConfigSpec ConfigProofs SaveModel SaveSpec ChecksumProofs.
Import ListNotations.
Open Scope Z_scope.

(** Bytes of files *)
Lemma get_put f pos b i : 0 <= pos ->
  get (do_op (Some f) (Put pos b)) i = if i =? pos then b else get (Some f) i.
Proof.
  intros P. cbn [do_op get flen at_]. dif; try reflexivity; lia.
Qed.
Lemma size_nonneg_put f pos b : size (do_op (Some f) (Put pos b)) = Z.max (size (Some f)) (pos + 1).
Proof. reflexivity. Qed.

Lemma puts_spec l : forall pos f, 0 <= pos ->
  exists f', fold_left do_op (puts pos l) (Some f) = Some f' /\
  (forall i, get (Some f') i = if (pos <=? i) && (i <? pos + Z.of_nat (length l)) then nth (Z.to_nat (i - pos)) l 0 else get (Some f) i) /\
  size (Some f') = match l with [] => size (Some f) | _ => Z.max (size (Some f)) (pos + Z.of_nat (length l)) end.
Proof.
  induction l as [|b l IH]; intros pos f P; cbn [puts fold_left].
  - exists f. split; [reflexivity|]. split; [|reflexivity]. intros i. cbn [length]. dif; [lia|reflexivity].
  - destruct (do_op (Some f) (Put pos b)) as [f1|] eqn:E; [|discriminate].
    destruct (IH (pos + 1) f1 ltac:(lia)) as (f' & E1 & G & S0). exists f'. split; [exact E1|].
    pose proof (get_put f pos b) as GP. rewrite E in GP.
    pose proof (size_nonneg_put f pos b) as SP. rewrite E in SP. split.
    + intros i. rewrite G, GP by lia. cbn [length].
      destruct (i =? pos) eqn:A.
      * replace ((pos + 1 <=? i) && (i <? pos + 1 + Z.of_nat (length l))) with false by lia.
        replace ((pos <=? i) && (i <? pos + Z.of_nat (S (length l)))) with true by lia.
        replace (Z.to_nat (i - pos)) with 0%nat by lia. reflexivity.
      * destruct ((pos + 1 <=? i) && (i <? pos + 1 + Z.of_nat (length l))) eqn:B.
        -- replace ((pos <=? i) && (i <? pos + Z.of_nat (S (length l)))) with true by lia.
           replace (Z.to_nat (i - pos)) with (S (Z.to_nat (i - (pos + 1)))) by lia. reflexivity.
        -- replace ((pos <=? i) && (i <? pos + Z.of_nat (S (length l)))) with false by lia. reflexivity.
    + rewrite S0, SP. cbn [length]. destruct l; cbn [length]; lia.
Qed.

Lemma firstn_puts k : forall pos l, firstn k (puts pos l) = puts pos (firstn k l).
Proof. induction k; intros pos [|b l]; cbn; [reflexivity..|]. f_equal. apply IHk. Qed.
Lemma length_puts l : forall pos, length (puts pos l) = length l.
Proof. induction l; intros; cbn; auto. Qed.
Lemma nth_repeat0 n : forall i, nth i (repeat 0 n) 0 = 0.
Proof. induction n; intros [|i]; cbn; auto. Qed.
Lemma nth_firstn {A} k : forall (l : list A) i d, (i < k)%nat -> nth i (firstn k l) d = nth i l d.
Proof. induction k; intros [|x l] [|i] d H; cbn; try lia; auto. apply IHk. lia. Qed.

(** Three ways to be safe: no cut in the last seven bytes of the second copy of the header; all texts
    of one length; no cut inside the first copy of the header. *)
Inductive mode := MWindow | MSame (L : Z) | MFirst.

Section S.
Variables (maxsz : Z) (install : list Z).
Hypothesis MS : 512 <= maxsz.
Hypothesis IL : length install = 20%nat.
Hypothesis IB : Forall (fun c => 0 < c < 256) install.

Definition hdr (text : list Z) (it : Z) : list Z := header install (checksum text) it (Z.of_nat (length text)).

Lemma length_hdr text it : length (hdr text it) = 52%nat.
Proof. unfold hdr, header. rewrite !app_length, IL. reflexivity. Qed.

(** The state of a file after a save was cut off. *)
Lemma partial_low o text it missing :
  let ops := save_ops maxsz install o text it in
  let o' := fold_left do_op (firstn (length ops - missing) ops) o in
  0 <= size o ->
  exists z h, 0 <= z <= 52 /\ h = Z.max 0 (52 - Z.of_nat missing) /\
  (forall i, 0 <= i < 52 -> get o' i = if i <? h then nth (Z.to_nat i) (hdr text it) 0 else if i <? z then 0 else get o i) /\
  (0 < h -> z = (if size o <? maxsz then 52 else 0) /\ 
            (forall i, 0 <= i < Z.of_nat (length text) -> get o' (512 + i) = nth (Z.to_nat i) text 0) /\
            512 + Z.of_nat (length text) <= size o') /\
  (h = 0 -> z < 52 -> size o < maxsz -> size o' < maxsz) /\
  (h = 0 -> 0 < z -> size o < maxsz) /\ 0 <= size o' /\ size o <= size o'.
Proof.
  intros ops o' SO.
  set (C := match o with None => [Create] | Some _ => [] end) in *.
  set (zn := if size o <? maxsz then Z.to_nat (512 * ((maxsz - size o + 511) / 512)) else 0%nat).
  assert (OPS : ops = C ++ puts 0 (repeat 0 zn) ++ puts 512 text ++ puts 0 (hdr text it)).
  { unfold ops, save_ops, zn. fold C. f_equal. f_equal. destruct (size o <? maxsz); reflexivity. }
  assert (ZN : size o < maxsz -> (512 <= zn)%nat).
  { unfold zn. intros L. replace (size o <? maxsz) with true by lia. 
    assert (1 <= (maxsz - size o + 511) / 512) by (apply Z.div_le_lower_bound; lia). lia. }
  assert (ZN0 : maxsz <= size o -> zn = 0%nat).
  { unfold zn. intros L. replace (size o <? maxsz) with false by lia. reflexivity. }
  assert (LO : length ops = (length C + (zn + (length text + 52)))%nat).
  { rewrite OPS, !app_length, !length_puts, repeat_length, length_hdr. lia. }
  destruct (Nat.le_gt_cases (length ops) missing) as [K0|K0].
  { (* nothing stored *)
    unfold o'. replace (length ops - missing)%nat with 0%nat by lia. cbn [firstn fold_left].
    exists 0, 0. repeat split; try lia. 1: intros i Hi; dif; try lia; reflexivity. }
  assert (O1 : exists f1, fold_left do_op C o = Some f1 /\ (forall i, get (Some f1) i = get o i) /\ size (Some f1) = size o).
  { unfold C. destruct o as [f|]; cbn [fold_left do_op].
    - exists f. repeat split; reflexivity.
    - eexists. split; [reflexivity|]. split; [|reflexivity]. intros i. cbn [get flen]. dif; reflexivity. }
  destruct O1 as (f1 & E1 & G1 & S1).
  assert (LC : (length C <= 1)%nat) by (unfold C; destruct o; cbn; lia).
  set (k := (length ops - missing)%nat) in *.
  assert (KC : (length C <= k)%nat) by (clear - K0 LC; subst k; lia).
  clearbody C zn.
  set (kz := (k - length C)%nat). set (kd := (kz - zn)%nat). set (kh := (kd - length text)%nat).
  assert (EO : o' = fold_left do_op (puts 0 (firstn kh (hdr text it)))
                    (fold_left do_op (puts 512 (firstn kd text))
                      (fold_left do_op (puts 0 (firstn kz (repeat 0 zn))) (Some f1)))).
  { unfold o'. fold k. rewrite OPS, !firstn_app, !firstn_puts, !fold_left_app, !length_puts, repeat_length.
    rewrite (firstn_all2 C) by lia. rewrite E1. reflexivity. }
  destruct (puts_spec (firstn kz (repeat 0 zn)) 0 f1 ltac:(lia)) as (f2 & E2 & G2 & S2). rewrite E2 in EO.
  destruct (puts_spec (firstn kd text) 512 f2 ltac:(lia)) as (f3 & E3 & G3 & S3). rewrite E3 in EO.
  destruct (puts_spec (firstn kh (hdr text it)) 0 f3 ltac:(lia)) as (f4 & E4 & G4 & S4). rewrite E4 in EO.
  rewrite EO.
  assert (F1 : kh = (52 - missing)%nat) by (clear - LO K0 KC; subst kh kd kz k; lia).
  assert (F2 : (0 < kh)%nat -> (length text < kd)%nat) by (clear; subst kh; lia).
  assert (F3 : (0 < kd)%nat -> (zn < kz)%nat) by (clear; subst kd; lia).
  clear E2 E3 E4 EO. clear o'. clearbody kh kd kz. clear k KC K0 LO OPS ops E1.
  rewrite firstn_length, repeat_length in G2. rewrite firstn_length in G3. rewrite firstn_length, length_hdr in G4.
  assert (S2' : size (Some f2) = Z.max (size o) (Z.of_nat (Nat.min kz zn))).
  { rewrite S2, S1. destruct (firstn kz (repeat 0 zn)) eqn:F.
    - apply (f_equal (@length Z)) in F. rewrite firstn_length, repeat_length in F. cbn in F. lia.
    - rewrite <- F, firstn_length, repeat_length. lia. }
  assert (S3' : size (Some f2) <= size (Some f3) /\ (kd = 0%nat -> size (Some f3) = size (Some f2)) /\
                ((0 < kd)%nat -> (0 < length text)%nat -> 512 + Z.of_nat (Nat.min kd (length text)) <= size (Some f3))).
  { rewrite S3. destruct (firstn kd text) eqn:F.
    - apply (f_equal (@length Z)) in F. rewrite firstn_length in F. cbn in F. lia.
    - rewrite <- F, firstn_length. split; [lia|]. split; [|lia]. intros ->. discriminate. }
  assert (S4' : size (Some f3) <= size (Some f4) /\ (kh = 0%nat -> size (Some f4) = size (Some f3))).
  { rewrite S4. destruct (firstn kh (hdr text it)) eqn:F; [lia|]. split; [lia|]. intros ->. discriminate. }
  exists (Z.of_nat (Nat.min 52 (Nat.min kz zn))), (Z.of_nat (Nat.min kh 52)).
  split; [lia|]. split; [lia|]. split; [|split; [|split; [|split]]].
  - intros i Hi. rewrite G4, G3, G2, G1.
    destruct (i <? Z.of_nat (Nat.min kh 52)) eqn:A.
    + replace ((0 <=? i) && (i <? 0 + Z.of_nat (Nat.min kh 52))) with true by lia.
      rewrite Z.sub_0_r. apply nth_firstn. lia.
    + replace ((0 <=? i) && (i <? 0 + Z.of_nat (Nat.min kh 52))) with false by lia.
      replace ((512 <=? i) && _) with false by lia.
      destruct (i <? Z.of_nat (Nat.min 52 (Nat.min kz zn))) eqn:B.
      * replace ((0 <=? i) && (i <? 0 + Z.of_nat (Nat.min kz zn))) with true by lia.
        rewrite nth_firstn by lia. apply nth_repeat0.
      * replace ((0 <=? i) && (i <? 0 + Z.of_nat (Nat.min kz zn))) with false by lia. reflexivity.
  - intros H. split; [destruct (size o <? maxsz) eqn:A; lia|].
    assert (kd > length text)%nat by lia. split; [|destruct (length text); lia].
    intros i Hi. rewrite G4, G3.
    replace ((0 <=? 512 + i) && (512 + i <? 0 + Z.of_nat (Nat.min kh 52))) with false by lia.
    replace ((512 <=? 512 + i) && (512 + i <? 512 + Z.of_nat (Nat.min kd (length text)))) with true by lia.
    replace (512 + i - 512) with i by lia. apply nth_firstn. lia.
  - intros H1 H2 H3. specialize (ZN H3). assert (kd = 0%nat) by lia. assert (kh = 0%nat) by lia. lia.
  - lia.
  - lia.
Qed.

Definition inst (o : disk_file) : Prop := forall i, 0 <= i < 20 -> get o (32 + i) = nth (Z.to_nat i) install 0.
Definition Good (o : disk_file) (text : list Z) (it : Z) : Prop :=
  (forall i, 0 <= i < 52 -> get o i = nth (Z.to_nat i) (hdr text it) 0) /\
  (forall i, 0 <= i < Z.of_nat (length text) -> get o (512 + i) = nth (Z.to_nat i) text 0) /\
  512 + Z.of_nat (length text) <= size o.
Definition bytes_ok (o : disk_file) : Prop := 0 <= size o /\ forall i, 0 <= i < 52 -> 0 <= get o i < 256.

Lemma install_byte i : 0 <= i < 20 -> 0 < nth (Z.to_nat i) install 0 < 256.
Proof. intros H. rewrite Forall_forall in IB. apply IB. apply nth_In. lia. Qed.
Lemma le32_bytes n : Forall (fun c => 0 <= c < 256) (le32 n).
Proof. unfold le32. repeat constructor; try apply Z.mod_pos_bound; try lia. Qed.
Lemma hdr_byte text it i : 0 <= i < 52 -> 0 <= nth (Z.to_nat i) (hdr text it) 0 < 256.
Proof.
  intros H. assert (F : Forall (fun c => 0 <= c < 256) (hdr text it)).
  { unfold hdr, header, header_half.
    repeat (apply Forall_app; split); try apply le32_bytes.
    eapply Forall_impl; [|exact IB]. cbn. lia. }
  rewrite Forall_forall in F. apply F. apply nth_In. rewrite length_hdr. lia.
Qed.
Lemma hdr_install text it i : 0 <= i < 20 -> nth (Z.to_nat (32 + i)) (hdr text it) 0 = nth (Z.to_nat i) install 0.
Proof.
  intros H. unfold hdr, header. rewrite app_assoc, app_nth2; rewrite app_length; unfold header_half; cbn [app le32 length]; [f_equal; lia|lia].
Qed.
Lemma hdr_twice text it i : 0 <= i < 16 -> nth (Z.to_nat (16 + i)) (hdr text it) 0 = nth (Z.to_nat i) (hdr text it) 0.
Proof.
  intros H. unfold hdr, header. rewrite app_nth2; unfold header_half at 1; cbn [app le32 length]; [|lia].
  replace (Z.to_nat (16 + i) - 16)%nat with (Z.to_nat i) by lia.
  rewrite app_nth1 by (unfold header_half; cbn [app le32 length]; lia).
  rewrite app_nth1 by (unfold header_half; cbn [app le32 length]; lia). reflexivity.
Qed.

Lemma le32_value n : 0 <= n < 2 ^ 32 ->
  n mod 256 + 256 * ((n / 256) mod 256) + 65536 * ((n / 65536) mod 256) + 16777216 * ((n / 16777216) mod 256) = n.
Proof. intros H. change (2 ^ 32) with 4294967296 in H. Z.div_mod_to_equations. lia. Qed.

(** Header words of a file whose first bytes are a header. *)
Lemma word_at o text it p (n : Z) : 0 <= p -> p + 3 < 52 -> 0 <= n < 2 ^ 32 ->
  (forall i, p <= i < p + 4 -> get o i = nth (Z.to_nat i) (hdr text it) 0) ->
  (nth (Z.to_nat p) (hdr text it) 0 = n mod 256 /\ nth (Z.to_nat (p+1)) (hdr text it) 0 = (n/256) mod 256 /\
   nth (Z.to_nat (p+2)) (hdr text it) 0 = (n/65536) mod 256 /\ nth (Z.to_nat (p+3)) (hdr text it) 0 = (n/16777216) mod 256) ->
  g32 o p = n.
Proof.
  intros P P1 N G (A & B & C & D). unfold g32. rewrite !G by lia. rewrite A, B, C, D. apply le32_value. exact N.
Qed.

Lemma good_inst o text it : Good o text it -> inst o.
Proof. intros (G & _) i I. rewrite G by lia. apply hdr_install. exact I. Qed.
Lemma good_bytes o text it : Good o text it -> bytes_ok o.
Proof. intros (G & _ & S0). split; [lia|]. intros i I. rewrite G by auto. apply hdr_byte; auto. Qed.

Lemma checksum_range l : 0 <= checksum l < 2 ^ 32.
Proof.
  unfold checksum. destruct l as [|b l]; [cbn; lia|]. cbn [fold_left].
  generalize (cksum_step_range 0 b). generalize (cksum_step 0 b). induction l as [|c l IH]; intros t T; [exact T|].
  cbn [fold_left]. apply IH. apply cksum_step_range.
Qed.

  Lemma upto_in n i : In i (upto n) <-> 0 <= i < Z.of_nat n.
  Proof.
    unfold upto. rewrite in_map_iff. split.
    - intros (x & <- & X). apply in_seq in X. lia.
    - intros B. exists (Z.to_nat i). split; [lia|]. apply in_seq. lia.
  Qed.
  Lemma combine_upto l : combine (upto (length l)) l = map (fun i => (i, nth (Z.to_nat i) l 0)) (upto (length l)).
  Proof.
    unfold upto. rewrite !map_map. rewrite <- (map_id l) at 2.
    assert (E : forall k (l : list Z), combine (map Z.of_nat (seq k (length l))) l =
       map (fun x => (Z.of_nat x, nth (x - k) l 0)) (seq k (length l))).
    { intros k l0. revert k. induction l0 as [|c l0 IH]; intros k; [reflexivity|]. cbn [length seq map combine].
      replace (k - k)%nat with 0%nat by lia. f_equal. rewrite IH. apply map_ext_in. intros x X. apply in_seq in X.
      f_equal. replace (x - k)%nat with (S (x - S k)) by lia. reflexivity. }
    rewrite map_id, E. apply map_ext. intros x. f_equal. f_equal. lia.
  Qed.
  Lemma installed_iff o' : forallb (fun x => get o' (32 + fst x) =? snd x) (combine (upto (length install)) install) = true <-> inst o'.
  Proof.
    rewrite combine_upto, forallb_forall. split.
    - intros F i I. specialize (F (i, nth (Z.to_nat i) install 0)). cbn [fst snd] in F.
      apply Z.eqb_eq, F. apply in_map_iff. exists i. split; [reflexivity|]. apply upto_in. lia.
    - intros F x X. apply in_map_iff in X as (i & <- & I). apply upto_in in I. cbn [fst snd].
      apply Z.eqb_eq, F. lia.
  Qed.

Section Good.
  Variables (o : disk_file) (text : list Z) (it : Z).
  Hypothesis G : Good o text it.
  Hypothesis IT : 0 <= it < 2 ^ 31.
  Hypothesis LT : Z.of_nat (length text) < 2 ^ 31.
  Let H : forall i, 0 <= i < 52 -> get o i = nth (Z.to_nat i) (hdr text it) 0 := proj1 G.
  Ltac wat := match goal with
    | |- _ /\ _ /\ _ => repeat split; reflexivity
    | |- forall i, _ => let i := fresh in let I := fresh in intros i I; match goal with H : forall i, _ -> get _ i = _ |- _ => apply H; lia end
    | |- _ <= checksum _ < _ => apply checksum_range
    | |- _ => unfold magic; lia
    end.
  Lemma good_magic : g32 o 0 = magic.
  Proof. apply (word_at o text it 0 magic); try lia; wat. Qed.
  Lemma good_ck : g32 o 4 = checksum text.
  Proof. apply (word_at o text it 4 (checksum text)); try lia; wat. Qed.
  Lemma good_it : g32 o 8 = it.
  Proof. apply (word_at o text it 8 it); try lia; wat. Qed.
  Lemma good_len : g32 o 12 = Z.of_nat (length text).
  Proof. apply (word_at o text it 12 (Z.of_nat (length text))); try lia; wat. Qed.
  Lemma good_it2 : g32 o 24 = it.
  Proof. apply (word_at o text it 24 it); try lia; wat. Qed.
  Lemma good_len2 : g32 o 28 = Z.of_nat (length text).
  Proof. apply (word_at o text it 28 (Z.of_nat (length text))); try lia; wat. Qed.

  Lemma good_valid : validHeader install o = true.
  Proof.
    unfold validHeader. rewrite !andb_true_iff. split; [split|].
    - apply forallb_forall. intros i I. apply upto_in in I. apply Z.eqb_eq. rewrite !H by lia.
      symmetry. apply hdr_twice. lia.
    - apply installed_iff. eapply good_inst; eauto.
    - apply Z.eqb_eq, good_magic.
  Qed.
  Lemma good_iteration : iteration install o = it.
  Proof. unfold iteration. rewrite good_valid, good_it. unfold s32. dif; lia. Qed.
  Lemma good_data n : (n <= length text)%nat -> map (fun i => get o (512 + i)) (upto n) = firstn n text.
  Proof.
    intros L. unfold upto. rewrite map_map.
    apply nth_ext with (d := 0) (d' := 0); rewrite map_length, seq_length; [rewrite firstn_length; lia|].
    intros k K. rewrite nth_firstn by auto.
    rewrite (nth_indep _ 0 (get o (512 + Z.of_nat 0))) by (rewrite map_length, seq_length; auto).
    rewrite (map_nth (fun x => get o (512 + Z.of_nat x))). rewrite seq_nth by auto. cbn [Nat.add].
    pose proof G as (_ & D & _). rewrite D by lia. f_equal. lia.
  Qed.
  Lemma good_checksum stale : validateChecksum install stale o = true.
  Proof.
    unfold validateChecksum. rewrite good_valid, good_len, good_ck. cbn [andb].
    apply Z.eqb_eq. f_equal. replace (s32 (Z.of_nat (length text))) with (Z.of_nat (length text)) by (unfold s32; dif; lia).
    rewrite Nat2Z.id. rewrite <- (firstn_all text) at 2. rewrite <- good_data by lia.
    apply map_ext_in. intros i I. apply upto_in in I. pose proof G as (_ & _ & S0).
    replace (512 + i <? size o) with true by lia. reflexivity.
  Qed.
  Lemma good_bytes_from : exists junk, bytes_from o 512 = text ++ junk.
  Proof.
    unfold bytes_from. pose proof G as (_ & _ & S0).
    replace (Z.to_nat (size o - 512)) with (length text + (Z.to_nat (size o - 512) - length text))%nat by lia.
    unfold upto. rewrite seq_app, !map_app. eexists. f_equal.
    fold (upto (length text)). rewrite good_data by lia. apply firstn_all.
  Qed.
End Good.

(** The other file. *)
Variable fixed : mode.
Definition Tok (it : Z) (o : disk_file) : Prop :=
  bytes_ok o /\
  (inst o -> (g32 o 24 < it /\ forall L, fixed = MSame L -> g32 o 28 = L \/ size o < maxsz) \/
             (fixed = MFirst /\ maxsz <= size o /\ validHeader install o = false)).

Lemma tok_iteration it o : Tok it o -> 1 <= it < 2 ^ 31 -> iteration install o < it.
Proof.
  intros (B & T) IT. unfold iteration. destruct (validHeader install o) eqn:V; [|lia]. pose proof V as V0.
  unfold validHeader in V. rewrite !andb_true_iff in V. destruct V as [[A I] M].
  apply installed_iff in I. destruct (T I) as [[T1 _]|(_ & _ & X)]; [|congruence].
  rewrite forallb_forall in A. assert (E : forall i, 0 <= i < 16 -> get o (16 + i) = get o i).
  { intros i X. symmetry. apply Z.eqb_eq, A, upto_in. lia. }
  assert (g32 o 24 = g32 o 8).
  { pose proof (E 8 ltac:(lia)). pose proof (E 9 ltac:(lia)). pose proof (E 10 ltac:(lia)). pose proof (E 11 ltac:(lia)).
    unfold g32. cbn [Z.add Pos.add Pos.succ Pos.add_carry] in *. lia. }
  unfold s32. dif; lia.
Qed.

Lemma mix_iter M old it : 2 <= M -> 0 <= old < it ->
  (it + 1) mod M + M * (old / M) = it + 1 \/ (it + 1) mod M + M * (old / M) < it.
Proof.
  intros HM O.
  pose proof (Z.div_mod (it + 1) M ltac:(lia)) as E.
  assert (old / M <= (it + 1) / M) by (apply Z.div_le_mono; lia).
  destruct (Z.eq_dec (old / M) ((it + 1) / M)) as [Q|Q]; [left; rewrite Q; lia|right].
  assert (old / M + 1 <= (it + 1) / M) by lia. nia.
Qed.

Lemma eq_digits a0 a1 a2 a3 b0 b1 b2 b3 :
  0 <= a0 < 256 -> 0 <= a1 < 256 -> 0 <= a2 < 256 -> 0 <= a3 < 256 ->
  0 <= b0 < 256 -> 0 <= b1 < 256 -> 0 <= b2 < 256 -> 0 <= b3 < 256 ->
  a0 + 256 * a1 + 65536 * a2 + 16777216 * a3 = b0 + 256 * b1 + 65536 * b2 + 16777216 * b3 ->
  a0 = b0 /\ a1 = b1 /\ a2 = b2 /\ a3 = b3.
Proof. lia. Qed.

Lemma write_partial o text it missing :
  Tok it o -> 0 <= it -> it + 1 < 2 ^ 31 -> Z.of_nat (length text) < 2 ^ 31 ->
  match fixed with MSame L => L = Z.of_nat (length text) | MWindow => ~ 21 <= Z.of_nat missing <= 27 | MFirst => ~ 37 <= Z.of_nat missing <= 51 end ->
  let ops := save_ops maxsz install o text (it + 1) in
  let o' := fold_left do_op (firstn (length ops - missing) ops) o in
  Good o' text (it + 1) \/ Tok it o'.
Proof.
  intros (B & T) IT IT1 LT FX ops o'.
  destruct (partial_low o text (it + 1) missing (proj1 B)) as (z & h & Z0 & HH & L & HD & SZ & SZ2 & SO & SLE).
  fold ops in L, HD, SZ, SO, SLE. fold o' in L, HD, SZ, SO, SLE.
  assert (B' : bytes_ok o').
  { split; [exact SO|]. intros i I. rewrite L by auto. destruct (i <? h); [apply hdr_byte; auto|destruct (i <? z); [lia|apply B; auto]]. }
  assert (DEC : inst o' \/ ~ inst o').
  { destruct (forallb (fun x => get o' (32 + fst x) =? snd x) (combine (upto (length install)) install)) eqn:E.
    - left. apply installed_iff; auto.
    - right. intros X. apply installed_iff in X; auto. congruence. }
  destruct DEC as [IN|NI]; [|right; split; [exact B'|tauto]].
  destruct (Z_lt_le_dec 31 h) as [H31|H31].
  { (* both copies stored *)
    left. destruct HD as (_ & HD1 & HD2); [lia|]. split; [|auto].
    intros i I. destruct (Z_lt_le_dec i 32) as [A|A]; [rewrite L by lia; replace (i <? h) with true by lia; reflexivity|].
    replace i with (32 + (i - 32)) by lia. rewrite IN, hdr_install by lia. f_equal. }
  assert (Z32 : z <= 32).
  { destruct (Z_le_gt_dec z 32); [auto|]. specialize (IN 0 ltac:(lia)). rewrite L in IN by lia.
    replace (32 + 0 <? h) with false in IN by lia. replace (32 + 0 <? z) with true in IN by lia.
    pose proof (install_byte 0 ltac:(lia)). lia. }
  assert (I0 : inst o).
  { intros i I. rewrite <- (IN i I), L by lia. replace (32 + i <? h) with false by lia.
    replace (32 + i <? z) with false by lia. reflexivity. }
  destruct B as [B0 B].
  (* the first copy is whole *)
  assert (FIRST : fixed = MFirst -> 0 < h -> Good o' text (it + 1) \/ Tok it o').
  { intros EF H0. rewrite EF in FX. destruct HD as (HZ & HD1 & HD2); [lia|]. destruct (size o <? maxsz) eqn:SM; [lia|]. subst z.
    destruct (validHeader install o') eqn:V.
    - left. split; [|auto]. intros i I. destruct (Z_lt_le_dec i 16) as [A|A]; [rewrite L by lia; replace (i <? h) with true by lia; reflexivity|].
      destruct (Z_lt_le_dec i 32) as [A2|A2].
      + unfold validHeader in V. rewrite !andb_true_iff in V. destruct V as [[V _] _]. rewrite forallb_forall in V. specialize (V (i - 16)). rewrite Z.eqb_eq in V.
        replace (16 + (i - 16)) with i in V by lia. rewrite <- V by (apply upto_in; lia). rewrite L by lia. replace (i - 16 <? h) with true by lia.
        rewrite <- hdr_twice by lia. f_equal. lia.
      + replace i with (32 + (i - 32)) by lia. rewrite IN, hdr_install by lia. f_equal.
    - right. split; [exact B'|]. intros _. right. split; [exact EF|]. split; [|exact V].
      lia. }
  destruct (T I0) as [[T1 T2]|(EF & SM & V)].
  2:{ destruct (Z_lt_le_dec 0 h) as [H0|H0]; [apply FIRST; auto|]. right. split; [exact B'|]. intros _. right. split; [exact EF|].
      assert (ZE : z = 0) by (destruct (Z.eq_dec z 0); [assumption|]; specialize (SZ2 ltac:(lia) ltac:(lia)); lia).
      assert (L' : forall i, 0 <= i < 52 -> get o' i = get o i).
      { intros i I. rewrite L by auto. replace (i <? h) with false by lia. replace (i <? z) with false by lia. reflexivity. }
      split; [lia|]. rewrite <- V. unfold validHeader.
      assert (E1 : forallb (fun i => get o' i =? get o' (16 + i)) (upto 16) = forallb (fun i => get o i =? get o (16 + i)) (upto 16)).
      { apply eq_true_iff_eq. rewrite !forallb_forall. split; intros X i I; specialize (X i I); apply upto_in in I; rewrite !L' in * by lia; exact X. }
      rewrite E1. f_equal; [f_equal|unfold g32; rewrite !L' by lia; reflexivity].
      apply eq_true_iff_eq. rewrite !installed_iff. tauto. }
  destruct (match fixed with MFirst => true | _ => false end) eqn:EMF.
  { assert (EF : fixed = MFirst) by (destruct fixed; [discriminate..|reflexivity]). destruct (Z_lt_le_dec 0 h) as [H0|H0]; [apply FIRST; auto|].
    assert (HE : h = 0) by lia. right. split; [exact B'|]. intros _. left.
    assert (L' : forall i, 0 <= i < 52 -> get o' i = if i <? z then 0 else get o i).
    { intros i I. rewrite L by auto. replace (i <? h) with false by lia. reflexivity. }
    pose proof (B 24 ltac:(lia)). pose proof (B 25 ltac:(lia)). pose proof (B 26 ltac:(lia)). pose proof (B 27 ltac:(lia)).
    split; [unfold g32 in *; rewrite !L' by lia; cbn [Z.add Pos.add Pos.succ Pos.add_carry] in *; dif; lia|]. intros L0 E0. congruence. }
  assert (NF : fixed <> MFirst) by (intros E; rewrite E in EMF; discriminate).
  assert (P : forall p, p = 24 \/ p = 28 -> 0 <= get o p < 256 /\ 0 <= get o (p + 1) < 256 /\ 0 <= get o (p + 2) < 256 /\ 0 <= get o (p + 3) < 256).
  { intros p Q. repeat split; apply B; lia. }
  pose proof (P 24 ltac:(auto)) as (P0 & P1 & P2 & P3). pose proof (P 28 ltac:(auto)) as (Q0 & Q1 & Q2 & Q3). clear P.
  destruct (Z_lt_le_dec 0 h) as [H0|H0].
  - (* header started *)
    destruct HD as (HZ & HD1 & HD2); [lia|]. destruct (size o <? maxsz) eqn:SM; [lia|]. subst z.
    assert (L' : forall i, 0 <= i < 52 -> get o' i = if i <? h then nth (Z.to_nat i) (hdr text (it + 1)) 0 else get o i).
    { intros i I. rewrite L by auto. replace (i <? 0) with false by lia. reflexivity. }
    destruct (Z_le_gt_dec h 24) as [H24|H24].
    + right. split; [exact B'|]. intros _. left. split.
      * unfold g32. rewrite !L' by lia. cbn [Z.add Pos.add Pos.succ Pos.add_carry].
        replace (24 <? h) with false by lia. replace (25 <? h) with false by lia. replace (26 <? h) with false by lia. replace (27 <? h) with false by lia.
        exact T1.
      * intros L0 E0. left. destruct (T2 L0 E0) as [T3|T3]; [|lia]. rewrite <- T3. unfold g32. rewrite !L' by lia. cbn [Z.add Pos.add Pos.succ Pos.add_carry].
        replace (28 <? h) with false by lia. replace (29 <? h) with false by lia. replace (30 <? h) with false by lia. replace (31 <? h) with false by lia. reflexivity.
    + destruct fixed as [|L0|] eqn:EF; [lia| |congruence]. subst L0.
      destruct (T2 _ eq_refl) as [T3|T3]; [|lia].
      (* the length field is already right *)
      assert (LB : forall i, 28 <= i < 32 -> get o i = nth (Z.to_nat i) (hdr text (it + 1)) 0).
      { set (n := Z.of_nat (length text)) in *.
        pose proof (le32_value n ltac:(lia)) as V. rewrite <- T3 in V at 5. unfold g32 in V.
        apply eq_digits in V; try (apply Z.mod_pos_bound; lia); auto.
        cbn [Z.add Pos.add Pos.succ Pos.add_carry] in V. destruct V as (V0 & V1 & V2 & V3).
        intros i I. assert (C : i = 28 \/ i = 29 \/ i = 30 \/ i = 31) by lia.
        destruct C as [-> | [-> | [-> | ->]]]; symmetry; assumption. }
      assert (LEN : g32 o' 28 = Z.of_nat (length text)).
      { apply (word_at o' text (it + 1) 28); try lia; [|repeat split; reflexivity].
        intros i I. rewrite L' by lia. destruct (i <? h); [reflexivity|]. apply LB. lia. }
      pose proof (le32_value (it + 1) ltac:(lia)) as V.
      assert (HB : nth 24 (hdr text (it + 1)) 0 = (it + 1) mod 256 /\ nth 25 (hdr text (it + 1)) 0 = ((it + 1) / 256) mod 256 /\
                   nth 26 (hdr text (it + 1)) 0 = ((it + 1) / 65536) mod 256 /\ nth 27 (hdr text (it + 1)) 0 = ((it + 1) / 16777216) mod 256)
        by (repeat split; reflexivity).
      destruct HB as (HB0 & HB1 & HB2 & HB3).
      assert (MIX : g32 o' 24 = it + 1 \/ g32 o' 24 < it).
      { unfold g32 in *. rewrite !L' by lia. cbn [Z.add Pos.add Pos.succ Pos.add_carry] in *.
        change (Z.to_nat 24) with 24%nat. change (Z.to_nat 25) with 25%nat. change (Z.to_nat 26) with 26%nat. change (Z.to_nat 27) with 27%nat.
        rewrite HB0, HB1, HB2, HB3.
        set (old := get o 24 + 256 * get o 25 + 65536 * get o 26 + 16777216 * get o 27) in *.
        replace (24 <? h) with true by lia.
        assert (C : h = 25 \/ h = 26 \/ h = 27 \/ 28 <= h) by lia. destruct C as [C|[C|[C|C]]].
        - rewrite C. cbn -[Z.mul Z.modulo Z.div Z.add]. pose proof (mix_iter 256 old it ltac:(lia) ltac:(lia)) as X.
          replace (old / 256) with (get o 25 + 256 * get o 26 + 65536 * get o 27) in X by (unfold old; clear - P0 P1 P2 P3; Z.div_mod_to_equations; lia). lia.
        - rewrite C. cbn -[Z.mul Z.modulo Z.div Z.add]. pose proof (mix_iter 65536 old it ltac:(lia) ltac:(lia)) as X.
          replace (old / 65536) with (get o 26 + 256 * get o 27) in X by (unfold old; clear - P0 P1 P2 P3; Z.div_mod_to_equations; lia).
          replace ((it + 1) mod 65536) with ((it + 1) mod 256 + 256 * (((it + 1) / 256) mod 256)) in X by (clear; Z.div_mod_to_equations; lia). lia.
        - rewrite C. cbn -[Z.mul Z.modulo Z.div Z.add]. pose proof (mix_iter 16777216 old it ltac:(lia) ltac:(lia)) as X.
          replace (old / 16777216) with (get o 27) in X by (unfold old; clear - P0 P1 P2 P3; Z.div_mod_to_equations; lia).
          replace ((it + 1) mod 16777216) with ((it + 1) mod 256 + 256 * (((it + 1) / 256) mod 256) + 65536 * (((it + 1) / 65536) mod 256)) in X by (clear; Z.div_mod_to_equations; lia). lia.
        - replace (25 <? h) with true by lia. replace (26 <? h) with true by lia. replace (27 <? h) with true by lia. left. exact V. }
      destruct MIX as [MIX|MIX].
      * (* effectively complete *)
        left. split; [|auto]. intros i I.
        destruct (Z_lt_le_dec i 32) as [A|A].
        2:{ replace i with (32 + (i - 32)) by lia. rewrite IN, hdr_install by lia. f_equal. }
        destruct (i <? h) eqn:IH; [rewrite L' by lia; rewrite IH; reflexivity|].
        destruct (Z_lt_le_dec i 28) as [A28|A28]; [|rewrite L' by lia; rewrite IH; apply LB; lia].
        unfold g32 in MIX. rewrite <- V in MIX. symmetry in MIX.
        apply eq_digits in MIX; try (apply Z.mod_pos_bound; lia); try (apply B'; lia).
        cbn [Z.add Pos.add Pos.succ Pos.add_carry] in MIX. destruct MIX as (X0 & X1 & X2 & X3).
        assert (C : i = 25 \/ i = 26 \/ i = 27) by lia.
        destruct C as [-> | [-> | ->]]; symmetry; assumption.
      * right. split; [exact B'|]. intros _. left. split; [exact MIX|]. intros L0 E0. left. congruence.
  - (* nothing of the header *)
    assert (HE : h = 0) by lia. right. split; [exact B'|]. intros _. left.
    assert (L' : forall i, 0 <= i < 52 -> get o' i = if i <? z then 0 else get o i).
    { intros i I. rewrite L by auto. replace (i <? h) with false by lia. reflexivity. }
    split.
    + unfold g32 in *. rewrite !L' by lia. cbn [Z.add Pos.add Pos.succ Pos.add_carry] in *. dif; lia.
    + intros L0 E0. destruct (Z.eq_dec z 0) as [-> | ZN]; [|right; apply SZ; lia].
      destruct (T2 L0 E0) as [T3|T3]; [left|right; apply SZ; lia].
      rewrite <- T3. unfold g32. rewrite !L' by lia. reflexivity.
Qed.

Lemma write_full o text it :
  bytes_ok o ->
  let ops := save_ops maxsz install o text it in
  Good (fold_left do_op (firstn (length ops - 0) ops) o) text it.
Proof.
  intros (B0 & B) ops. destruct (partial_low o text it 0 B0) as (z & h & _ & HH & L & HD & _).
  fold ops in L, HD. destruct HD as (_ & HD1 & HD2); [lia|]. split; [|auto].
  intros i I. rewrite L by lia. replace (i <? h) with true by lia. reflexivity.
Qed.

Lemma write_none o text it missing : bytes_ok o -> ~ inst o ->
  let ops := save_ops maxsz install o text it in
  let o' := fold_left do_op (firstn (length ops - missing) ops) o in
  Good o' text it \/ (bytes_ok o' /\ ~ inst o').
Proof.
  intros (B0 & B) NI ops o'. destruct (partial_low o text it missing B0) as (z & h & Z0 & HH & L & HD & _ & _ & SO & _).
  fold ops in L, HD, SO. fold o' in L, HD, SO.
  assert (B' : bytes_ok o').
  { split; [exact SO|]. intros i I. rewrite L by auto. destruct (i <? h); [apply hdr_byte; auto|destruct (i <? z); [lia|apply B; auto]]. }
  assert (DEC : inst o' \/ ~ inst o').
  { destruct (forallb (fun x => get o' (32 + fst x) =? snd x) (combine (upto (length install)) install)) eqn:E.
    - left. apply installed_iff; auto.
    - right. intros X. apply installed_iff in X; auto. congruence. }
  destruct DEC as [IN|N]; [|auto]. left.
  destruct (Z_lt_le_dec 31 h) as [H31|H31].
  { destruct HD as (_ & HD1 & HD2); [lia|]. split; [|auto].
    intros i I. destruct (Z_lt_le_dec i 32) as [A|A]; [rewrite L by lia; replace (i <? h) with true by lia; reflexivity|].
    replace i with (32 + (i - 32)) by lia. rewrite IN, hdr_install by lia. f_equal. }
  exfalso. apply NI. intros i I. rewrite <- (IN i I), L by lia. replace (32 + i <? h) with false by lia.
  destruct (32 + i <? z) eqn:E; [|reflexivity].
  specialize (IN i I). rewrite L in IN by lia. rewrite E in IN. replace (32 + i <? h) with false in IN by lia.
  pose proof (install_byte i I). lia.
Qed.

Lemma none_iteration o : ~ inst o -> iteration install o = 0 /\ validHeader install o = false.
Proof.
  intros N. assert (V : validHeader install o = false).
  { destruct (validHeader install o) eqn:V; [|reflexivity]. unfold validHeader in V. rewrite !andb_true_iff in V.
    exfalso. apply N. apply installed_iff. tauto. }
  unfold iteration. rewrite V. auto.
Qed.
End S.
