(** Lemmas about RFID messages. *)
From Coq Require Import ZArith List Bool Lia ZifyBool ZifyNat.
From Verif Require Import Machine SerialModel SerialSpec.
Import ListNotations.
Open Scope Z_scope.

Lemma hex_digit_ok c d : hex c d -> hex_digit c = Some d.
Proof.
  intros [D E]. unfold hex_digit. destruct (Z.ltb_spec d 10); subst c.
  - replace ((48 <=? 48 + d) && (48 + d <=? 57)) with true by lia. f_equal. lia.
  - replace ((48 <=? 55 + d) && (55 + d <=? 57)) with false by lia. replace ((65 <=? 55 + d) && (55 + d <=? 70)) with true by lia. f_equal. lia.
Qed.
Lemma hex_digit_inv c d : hex_digit c = Some d -> hex c d.
Proof.
  unfold hex_digit, hex. destruct ((48 <=? c) && (c <=? 57)) eqn:A; [intros E; injection E as <-; split; [lia|]; replace (c - 48 <? 10) with true by lia; cbv iota; lia|].
  destruct ((65 <=? c) && (c <=? 70)) eqn:B; [|discriminate]. intros E; injection E as <-. split; [lia|]. destruct (Z.ltb_spec (c - 55) 10); lia.
Qed.
Lemma hex_range c d : hex c d -> 0 <= d < 16 /\ 48 <= c <= 70.
Proof. intros [D E]. destruct (Z.ltb_spec d 10); lia. Qed.

Lemma number_snoc ds d : number16 (ds ++ [d]) = 16 * number16 ds + d.
Proof. unfold number16. rewrite fold_left_app. reflexivity. Qed.
Lemma number_range ds : Forall (fun d => 0 <= d < 16) ds -> 0 <= number16 ds < 16 ^ Z.of_nat (length ds).
Proof.
  induction ds as [|d ds IH] using rev_ind; intros F; [cbn; lia|]. apply Forall_app in F. destruct F as [F D]. inversion D as [|? ? D1 _]; subst. specialize (IH F). rewrite number_snoc, app_length. cbn [length].
  replace (Z.of_nat (length ds + 1)) with (Z.succ (Z.of_nat (length ds))) by lia. rewrite Z.pow_succ_r by lia. lia.
Qed.
Lemma bit_high a b k i : 0 <= k -> 0 <= b < 2 ^ k -> k <= i -> Z.testbit (a * 2 ^ k + b) i = Z.testbit a (i - k).
Proof.
  intros K B I1. replace i with (i - k + k) at 1 by lia. rewrite <- Z.div_pow2_bits by lia. f_equal. rewrite Z.div_add_l by (apply Z.pow_nonzero; lia). rewrite Z.div_small by lia. lia.
Qed.
Lemma bit_low a b k i : 0 <= i < k -> Z.testbit (a * 2 ^ k + b) i = Z.testbit b i.
Proof.
  intros I1. rewrite <- (Z.mod_pow2_bits_low (a * 2 ^ k + b) k i) by lia. rewrite <- (Z.mod_pow2_bits_low b k i) by lia. f_equal. rewrite Z.add_comm. apply Z.mod_add. apply Z.pow_nonzero; lia.
Qed.
Lemma bit_none b k i : 0 <= b < 2 ^ k -> 0 <= k <= i -> Z.testbit b i = false.
Proof. intros B K. rewrite <- (Z.mod_small b (2 ^ k)) by lia. apply Z.mod_pow2_bits_high. lia. Qed.
Lemma push_digit code d : 0 <= code < 16 ^ 15 -> 0 <= d < 16 -> Z.lor (Z.shiftl code 4 mod 2 ^ 64) d = 16 * code + d.
Proof.
  intros C D. rewrite Z.shiftl_mul_pow2 by lia. change (16 ^ 15) with (2 ^ 60) in C. rewrite Z.mod_small by lia.
  replace (16 * code + d) with (code * 2 ^ 4 + d) by lia. apply Z.bits_inj'. intros i I0. rewrite Z.lor_spec. destruct (Z.ltb_spec i 4).
  - rewrite bit_low by lia. rewrite Z.mul_pow2_bits_low by lia. reflexivity.
  - rewrite bit_high by lia. rewrite (bit_none d 4) by lia. rewrite Z.mul_pow2_bits by lia. apply orb_false_r.
Qed.

(** The checksum is the exclusive or of the five bytes. *)
Lemma checksum_bytes b4 b3 b2 b1 b0 : 0 <= b4 < 256 -> 0 <= b3 < 256 -> 0 <= b2 < 256 -> 0 <= b1 < 256 -> 0 <= b0 < 256 ->
  checksum ((((b4 * 256 + b3) * 256 + b2) * 256 + b1) * 256 + b0) = Z.lxor b4 (Z.lxor b3 (Z.lxor b2 (Z.lxor b1 b0))).
Proof.
  intros H4 H3 H2 H1 H0. set (code := (((b4 * 256 + b3) * 256 + b2) * 256 + b1) * 256 + b0). unfold checksum. cbv zeta.
  set (y := Z.lxor code (Z.shiftr code 24)). set (x := (y + 2 ^ 31) mod 2 ^ 32 - 2 ^ 31).
  assert (X : forall i, 0 <= i < 31 -> Z.testbit x i = Z.testbit y i).
  { intros i I1. rewrite <- (Z.mod_pow2_bits_low x 31 i), <- (Z.mod_pow2_bits_low y 31 i) by lia. f_equal. unfold x.
    pose proof (Z.div_mod (y + 2 ^ 31) (2 ^ 32) ltac:(lia)) as D. replace ((y + 2 ^ 31) mod 2 ^ 32 - 2 ^ 31) with (y + (- 2 * ((y + 2 ^ 31) / 2 ^ 32)) * 2 ^ 31) by lia. apply Z.mod_add. lia. }
  assert (C0 : forall i, 0 <= i < 8 -> Z.testbit code i = Z.testbit b0 i) by (intros i I1; unfold code; change 256 with (2 ^ 8); apply bit_low; lia).
  assert (C1 : forall i, 0 <= i < 8 -> Z.testbit code (i + 8) = Z.testbit b1 i) by (intros i I1; unfold code; change 256 with (2 ^ 8); rewrite bit_high by lia; rewrite bit_low by lia; f_equal; lia).
  assert (C2 : forall i, 0 <= i < 8 -> Z.testbit code (i + 16) = Z.testbit b2 i) by (intros i I1; unfold code; change 256 with (2 ^ 8); rewrite bit_high by lia; rewrite bit_high by lia; rewrite bit_low by lia; f_equal; lia).
  assert (C3 : forall i, 0 <= i < 8 -> Z.testbit code (i + 24) = Z.testbit b3 i) by (intros i I1; unfold code; change 256 with (2 ^ 8); do 3 rewrite bit_high by lia; rewrite bit_low by lia; f_equal; lia).
  assert (C4 : forall i, 0 <= i < 8 -> Z.testbit code (i + 32) = Z.testbit b4 i) by (intros i I1; unfold code; change 256 with (2 ^ 8); do 4 rewrite bit_high by lia; f_equal; lia).
  assert (C5 : forall i, 0 <= i -> Z.testbit code (i + 40) = false) by (intros i I1; apply (bit_none _ 40); unfold code; lia).
  assert (BH : forall b i, 0 <= b < 256 -> 8 <= i -> Z.testbit b i = false) by (intros b i B I1; apply (bit_none b 8); [exact B|lia]).
  apply Z.bits_inj'. intros i I0. rewrite Z.land_spec. change 255 with (Z.ones 8). destruct (Z.ltb_spec i 8).
  - rewrite Z.ones_spec_low by lia. rewrite andb_true_r. rewrite !Z.lxor_spec, !Z.shiftr_spec by lia. rewrite !X by lia. unfold y. rewrite !Z.lxor_spec, !Z.shiftr_spec by lia.
    rewrite C0, C3, C1, C2 by lia. replace (i + 8 + 24) with (i + 32) by lia. replace (i + 16 + 24) with (i + 40) by lia. rewrite C4, C5 by lia.
    destruct (Z.testbit b0 i), (Z.testbit b1 i), (Z.testbit b2 i), (Z.testbit b3 i), (Z.testbit b4 i); reflexivity.
  - rewrite Z.ones_spec_high by lia. rewrite andb_false_r. rewrite !Z.lxor_spec. rewrite !BH by lia. reflexivity.
Qed.
Lemma ten {A} (ds : list A) : length ds = 10%nat -> exists a b c d e f g h i j, ds = [a; b; c; d; e; f; g; h; i; j].
Proof. intros L. do 10 (destruct ds as [|? ds]; [discriminate|]). destruct ds; [|discriminate]. repeat eexists. Qed.
Lemma checksum_ok ds : length ds = 10%nat -> Forall (fun d => 0 <= d < 16) ds -> checksum (number16 ds) = xor_bytes ds.
Proof.
  intros L F. destruct (ten ds L) as (a & b & c & d & e & f & g & h & i & j & ->). repeat match goal with H : Forall _ (_ :: _) |- _ => apply Forall_cons_iff in H; destruct H end.
  cbn [xor_bytes]. rewrite Z.lxor_0_r. rewrite <- (checksum_bytes (16 * a + b) (16 * c + d) (16 * e + f) (16 * g + h) (16 * i + j)) by lia. f_equal. unfold number16. cbn [fold_left]. lia.
Qed.

Lemma hexes_range cs ds : Forall2 hex cs ds -> Forall (fun d => 0 <= d < 16) ds.
Proof. intros F. induction F as [|c d cs ds X F IH]; constructor; [apply (hex_range _ _ X)|exact IH]. Qed.

(** What has been received when the machine is in a state. *)
Definition seen (s : rfid) (h : list rfid_event) : Prop :=
  match s with
  | Start => True
  | Digit x code => (x < 10)%nat /\ exists pre cs ds, h = pre ++ Char 2 :: map Char cs /\ Forall2 hex cs ds /\ length ds = x /\ code = number16 ds
  | Sum code => exists pre cs ds, h = pre ++ Char 2 :: map Char cs /\ Forall2 hex cs ds /\ length ds = 10%nat /\ code = number16 ds
  | End_ code => exists pre cs ds, h = pre ++ Char 2 :: map Char (cs ++ [xor_bytes ds]) /\ Forall2 hex cs ds /\ length ds = 10%nat /\ code = number16 ds
  end.
Lemma Forall2_snoc {A B} (P : A -> B -> Prop) a b x y : Forall2 P a b -> P x y -> Forall2 P (a ++ [x]) (b ++ [y]).
Proof. intros F X. apply Forall2_app; [exact F|constructor; [exact X|constructor]]. Qed.
Lemma seen_step s h e : seen s h -> seen (fst (rfid_step s e)) (h ++ [e]) /\
  (forall code, snd (rfid_step s e) = Some code -> exists pre ds msg, h ++ [e] = pre ++ map Char msg /\ tag ds msg /\ code = number16 ds).
Proof.
  intros SE. destruct e as [c|]; [|split; [exact Logic.I|intros code E; discriminate]]. destruct s as [|x code|code|code]; cbn [rfid_step].
  - destruct (Z.eqb_spec c 2) as [->|]; cbn [fst snd]; (split; [|intros code E; discriminate]); [|exact Logic.I]. split; [lia|]. exists h, [], []. repeat split. constructor.
  - destruct SE as (X & pre & cs & ds & -> & F & L & ->). destruct (hex_digit c) as [d|] eqn:HD; cbn [fst snd]; [|split; [exact Logic.I|intros code E; discriminate]]. apply hex_digit_inv in HD.
    cbv zeta. rewrite push_digit; [|pose proof (number_range ds (hexes_range _ _ F)) as NR; rewrite L in NR; assert (16 ^ Z.of_nat x <= 16 ^ 15) by (apply Z.pow_le_mono_r; lia); lia|apply (hex_range _ _ HD)]. rewrite <- number_snoc.
    split; [|intros code E; discriminate]. destruct (Nat.ltb_spec (x + 1) 10) as [LT|GE]; cbn [fst]; [split; [lia|]|]; exists pre, (cs ++ [c]), (ds ++ [d]); (split; [rewrite map_app, <- app_assoc; reflexivity|]; split; [apply Forall2_snoc; assumption|]; split; [rewrite app_length; cbn [length]; lia|reflexivity]).
  - destruct SE as (pre & cs & ds & -> & F & L & ->). destruct (Z.eqb_spec c (checksum (number16 ds))) as [->|]; cbn [fst snd]; (split; [|intros code E; discriminate]); [|exact Logic.I].
    exists pre, cs, ds. rewrite checksum_ok by (auto; apply (hexes_range _ _ F)). split; [rewrite map_app, <- app_assoc; reflexivity|]. repeat split; assumption.
  - destruct SE as (pre & cs & ds & -> & F & L & ->). cbn [fst snd]. split; [exact Logic.I|]. destruct (Z.eqb_spec c 3) as [->|]; [|discriminate]. intros code E. injection E as <-.
    exists pre, ds, ([2] ++ cs ++ [xor_bytes ds] ++ [3]). split; [rewrite !map_app, <- !app_assoc; cbn [map app]; f_equal; rewrite <- app_assoc; reflexivity|]. split; [|reflexivity]. split; [exact L|]. exists cs. split; [exact F|reflexivity].
Qed.
Lemma rfid_sound_from es : forall s h, seen s h -> forall k code, nth_error (run_outs rfid_step s es) k = Some (Some code) ->
  exists pre ds msg, h ++ firstn (S k) es = pre ++ map Char msg /\ tag ds msg /\ code = number16 ds.
Proof.
  induction es as [|e es IH]; intros s h SE k code N; [destruct k; discriminate|]. cbn [run_outs] in N. destruct (rfid_step s e) as [s' o] eqn:ST.
  destruct (seen_step s h e SE) as [SE' O]. rewrite ST in SE', O. cbn [fst snd] in SE', O. destruct k; cbn [nth_error] in N.
  - injection N as ->. cbn [firstn]. apply O. reflexivity.
  - destruct (IH s' (h ++ [e]) SE' k code N) as (pre & ds & msg & E & T & C). exists pre, ds, msg. split; [|split; assumption]. rewrite <- E, <- app_assoc. reflexivity.
Qed.

Lemma run_outs_app {S I O} (step : S -> I -> S * O) a : forall s b, run_outs step s (a ++ b) = run_outs step s a ++ run_outs step (run_state step s a) b.
Proof. induction a as [|i a IH]; intros s b; [reflexivity|]. cbn [app run_outs run_state]. destruct (step s i) as [s' o]. cbn [fst]. rewrite IH. reflexivity. Qed.
Lemma run_state_app {S I O} (step : S -> I -> S * O) a : forall s b, run_state step s (a ++ b) = run_state step (run_state step s a) b.
Proof. induction a as [|i a IH]; intros s b; [reflexivity|]. cbn [app run_state]. apply IH. Qed.

(** Ten digits are read silently. *)
Lemma digits_read cs ds : Forall2 hex cs ds -> forall es, Forall (fun d => 0 <= d < 16) es -> (length es + length ds = 10)%nat -> (0 < length ds)%nat ->
  run_outs rfid_step (Digit (length es) (number16 es)) (map Char cs) = repeat None (length cs) /\
  run_state rfid_step (Digit (length es) (number16 es)) (map Char cs) = Sum (number16 (es ++ ds)).
Proof.
  intros F. induction F as [|c d cs ds X F IH]; intros es E L P; [cbn in P; lia|]. cbn [map run_outs run_state length repeat]. cbn [rfid_step]. rewrite (hex_digit_ok _ _ X). cbv zeta.
  rewrite push_digit; [|pose proof (number_range es E) as NR; cbn [length] in L; assert (16 ^ Z.of_nat (length es) <= 16 ^ 15) by (apply Z.pow_le_mono_r; lia); lia|apply (hex_range _ _ X)].
  rewrite <- number_snoc. cbn [fst]. cbn [length] in L. destruct (Nat.ltb_spec (length es + 1) 10) as [LT|GE].
  - replace (length es + 1)%nat with (length (es ++ [d])) by (rewrite app_length; reflexivity).
    destruct (IH (es ++ [d])) as [A B]; [apply Forall_app; split; [exact E|constructor; [apply (hex_range _ _ X)|constructor]]|rewrite app_length; cbn [length]; lia|lia|].
    rewrite A, B. rewrite <- app_assoc. split; reflexivity.
  - destruct ds as [|? ?]; [|cbn in L; lia]. inversion F; subst. split; reflexivity.
Qed.
Lemma message_read ds cs k e : length ds = 10%nat -> Forall2 hex cs ds ->
  run_outs rfid_step Start (map Char ([2] ++ cs ++ [k] ++ [e])) = repeat None 12 ++ [if (k =? xor_bytes ds) && (e =? 3) then Some (number16 ds) else None] /\
  (k = xor_bytes ds -> run_state rfid_step Start (map Char ([2] ++ cs ++ [k] ++ [e])) = Start).
Proof.
  intros L F. assert (LC : length cs = 10%nat) by (rewrite <- L; clear L; induction F; cbn; congruence).
  destruct (digits_read cs ds F [] ltac:(constructor) ltac:(cbn [length]; lia) ltac:(lia)) as [A B]. cbn [length] in A, B. change (number16 []) with 0 in A, B. cbn [app] in B.
  rewrite !map_app. cbn [map app run_outs run_state rfid_step]. change (2 =? 2) with true. cbn match. cbn [fst].
  rewrite run_outs_app, run_state_app, A, B, LC. cbn [run_outs run_state rfid_step fst]. rewrite checksum_ok by (auto; apply (hexes_range _ _ F)).
  destruct (Z.eqb_spec k (xor_bytes ds)) as [->|N]; cbn [rfid_step andb].
  - split; [destruct (e =? 3); reflexivity|reflexivity].
  - split; [|intros X; congruence]. destruct (e =? 2); reflexivity.
Qed.
Lemma tag_read ds msg : tag ds msg -> run_outs rfid_step Start (map Char msg) = repeat None 12 ++ [Some (number16 ds)] /\ run_state rfid_step Start (map Char msg) = Start.
Proof.
  intros (L & cs & F & ->). destruct (message_read ds cs (xor_bytes ds) 3 L F) as [A B]. rewrite Z.eqb_refl in A. split; [exact A|apply B; reflexivity].
Qed.
Lemma tags_read dss msgs : Forall2 tag dss msgs -> run_outs rfid_step Start (map Char (concat msgs)) = concat (map (fun ds => repeat None 12 ++ [Some (number16 ds)]) dss).
Proof.
  intros F. induction F as [|ds msg dss msgs T F IH]; [reflexivity|]. cbn [concat map]. rewrite map_app, run_outs_app. destruct (tag_read ds msg T) as [-> ->]. rewrite IH. reflexivity.
Qed.

(** A single wrong digit changes the exclusive or. *)
Lemma xor_one : forall ds1 d d' ds2, Forall (fun d => 0 <= d < 16) ds1 -> Forall (fun d => 0 <= d < 16) ds2 -> 0 <= d < 16 -> 0 <= d' < 16 -> d <> d' -> Nat.even (length (ds1 ++ d :: ds2)) = true ->
  xor_bytes (ds1 ++ d :: ds2) <> xor_bytes (ds1 ++ d' :: ds2).
Proof.
  assert (G : forall n ds1 d d' ds2, (length ds1 <= n)%nat -> Forall (fun d => 0 <= d < 16) ds1 -> Forall (fun d => 0 <= d < 16) ds2 -> 0 <= d < 16 -> 0 <= d' < 16 -> d <> d' -> Nat.even (length (ds1 ++ d :: ds2)) = true ->
    xor_bytes (ds1 ++ d :: ds2) <> xor_bytes (ds1 ++ d' :: ds2)).
  2:{ intros. apply (G (length ds1)); auto. }
  assert (XR : forall a b c, Z.lxor a c = Z.lxor b c -> a = b).
  { intros a b c E. apply (f_equal (fun z => Z.lxor z c)) in E. rewrite !Z.lxor_assoc, Z.lxor_nilpotent, !Z.lxor_0_r in E. exact E. }
  induction n as [|n IH]; intros ds1 d d' ds2 LN F1 F2 D D' NE EV.
  - destruct ds1; [|cbn in LN; lia]. cbn [app] in *. destruct ds2 as [|e ds2]; [discriminate|]. cbn [xor_bytes]. intros E. apply XR in E. lia.
  - destruct ds1 as [|a ds1].
    { cbn [app] in *. destruct ds2 as [|e ds2]; [discriminate|]. cbn [xor_bytes]. intros E. apply XR in E. lia. }
    destruct ds1 as [|b ds1].
    { cbn [app xor_bytes]. intros E. apply XR in E. lia. }
    cbn [app xor_bytes]. intros E. rewrite !(Z.lxor_comm (16 * a + b)) in E. apply XR in E. revert E. cbn [length] in LN. inversion F1 as [|? ? ? F3]; subst. inversion F3; subst. apply IH; auto; lia.
Qed.

Lemma in_start c : c <> 2 -> rfid_step Start (Char c) = (Start, None).
Proof. intros C. cbn. replace (c =? 2) with false by lia. reflexivity. Qed.
Lemma digits_ignored cs ds : Forall2 hex cs ds -> run_outs rfid_step Start (map Char cs) = repeat None (length cs) /\ run_state rfid_step Start (map Char cs) = Start.
Proof.
  intros F. induction F as [|c d cs ds X F [IH1 IH2]]; [split; reflexivity|]. cbn [map run_outs run_state length repeat]. pose proof (hex_range _ _ X). rewrite in_start by lia. cbn [fst]. rewrite IH1, IH2. split; reflexivity.
Qed.
Lemma double_start ds msg : tag ds msg -> run_outs rfid_step Start (Char 2 :: map Char msg) = repeat None 14.
Proof.
  intros (L & cs & F & ->). assert (LC : length cs = 10%nat) by (rewrite <- L; clear L; induction F; cbn; congruence). destruct (digits_ignored cs ds F) as [A B].
  rewrite !map_app. cbn [map app run_outs rfid_step]. change (2 =? 2) with true. cbn match. change (hex_digit 2) with (@None Z). cbn match. rewrite run_outs_app, A, B, LC. cbn [run_outs rfid_step].
  destruct (xor_bytes ds =? 2); reflexivity.
Qed.
