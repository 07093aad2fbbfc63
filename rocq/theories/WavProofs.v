(** Lemmas about playing sound files. *)
From Coq Require Import ZArith List Bool Lia ZifyBool ZifyNat.
From Verif Require Import Machine ArithModel SoundModel SoundProofs WavModel WavSpec.
Import ListNotations.
Open Scope Z_scope.

(** ** Bytes in files *)
Lemma bytes_mid w pre x rest n : n = Z.of_nat (length x) -> bytes_at (WFile w (pre ++ x ++ rest)) (Z.of_nat (length pre)) n = x.
Proof.
  intros ->. unfold bytes_at. cbn [f_bytes]. rewrite !Nat2Z.id. rewrite skipn_app, skipn_all, Nat.sub_diag. cbn [skipn app].
  rewrite firstn_app, firstn_all, Nat.sub_diag. cbn [firstn]. apply app_nil_r.
Qed.
Lemma bytes_at_length f p n : 0 <= p -> 0 <= n -> Z.of_nat (length (bytes_at f p n)) = Z.min n (Z.max 0 (size f - p)).
Proof. intros P N. unfold bytes_at, size. rewrite firstn_length, skipn_length. lia. Qed.
Lemma to_int_small n : 0 <= n < 2147483648 -> to_int n = n.
Proof. intros. unfold to_int. rewrite Z.mod_small; lia. Qed.
Lemma skip_small f p n : 0 <= p -> 0 <= n -> p + n <= size f -> size f < 2147483648 -> skip f p n = p + n.
Proof. intros. unfold skip. rewrite to_int_small by lia. rewrite Z.mod_small; lia. Qed.

Lemma le4_length n : length (le4 n) = 4%nat. Proof. reflexivity. Qed.
Lemma le4_word n l : 0 <= n < 4294967296 -> le_word (le4 n ++ l) 0 = n.
Proof.
  intros H. unfold le_word, le4. cbn [nth Nat.add app].
  pose proof (Z.div_mod n 256 ltac:(lia)) as A. pose proof (Z.div_mod (n / 256) 256 ltac:(lia)) as B. pose proof (Z.div_mod (n / 65536) 256 ltac:(lia)) as C.
  replace (n / 65536) with (n / 256 / 256) in * by (rewrite Z.div_div by lia; f_equal; lia).
  replace (n / 16777216) with (n / 256 / 256 / 256) by (rewrite !Z.div_div by lia; f_equal; lia). lia.
Qed.
Lemma le_word_app i a l : length a = i -> le_word (a ++ l) i = le_word l 0.
Proof.
  intros <-. unfold le_word. rewrite !app_nth2 by lia. replace (length a - length a)%nat with 0%nat by lia. replace (length a + 1 - length a)%nat with 1%nat by lia. replace (length a + 2 - length a)%nat with 2%nat by lia. replace (length a + 3 - length a)%nat with 3%nat by lia. reflexivity.
Qed.
Lemma header_id i n l : length i = 4%nat -> 0 <= n < 4294967296 -> header (i ++ le4 n ++ l) 1 = n.
Proof. intros L N. unfold header. change (4 * 1)%nat with 4%nat. rewrite le_word_app by exact L. apply le4_word. exact N. Qed.
Lemma word_inj i j l k : length i = 4%nat -> length j = 4%nat -> Forall isbyte i -> Forall isbyte j -> header (i ++ l) 0 = header (j ++ k) 0 -> i = j.
Proof.
  intros LI LJ FI FJ. destruct i as [|a [|b [|c [|d [|]]]]]; try discriminate LI. destruct j as [|a' [|b' [|c' [|d' [|]]]]]; try discriminate LJ.
  unfold header, le_word. cbn [Nat.mul Nat.add nth app]. intros E.
  repeat match goal with H : Forall isbyte (_ :: _) |- _ => inversion H; clear H; subst end. unfold isbyte in *.
  assert (a = a') by lia. assert (b = b') by lia. assert (c = c') by lia. assert (d = d') by lia. subst. reflexivity.
Qed.
Lemma id_eqb i l j : length i = 4%nat -> length j = 4%nat -> Forall isbyte i -> Forall isbyte j -> (header (i ++ l) 0 =? header j 0) = true -> i = j.
Proof. intros A B C D E. apply Z.eqb_eq in E. apply (word_inj i j l []); auto. rewrite app_nil_r. exact E. Qed.
Lemma FMT_word : header FMT 0 = 544501094. Proof. reflexivity. Qed.
Lemma DATA_word : header DATA 0 = 1635017060. Proof. reflexivity. Qed.
Lemma FMT_bytes : Forall isbyte FMT. Proof. repeat constructor; discriminate. Qed.
Lemma DATA_bytes : Forall isbyte DATA. Proof. repeat constructor; discriminate. Qed.

Lemma chunk_length i b : length i = 4%nat -> length (chunk i b) = (8 + length b)%nat.
Proof. intros L. unfold chunk. rewrite !app_length, le4_length, L. lia. Qed.
Lemma chunk_head w pre i b rest : length i = 4%nat -> bytes_at (WFile w (pre ++ chunk i b ++ rest)) (Z.of_nat (length pre)) 8 = i ++ le4 (Z.of_nat (length b)).
Proof.
  intros L. unfold chunk. rewrite <- !app_assoc. rewrite (app_assoc i). apply bytes_mid. rewrite app_length, le4_length, L. reflexivity.
Qed.
Lemma chunk_header w pre i b rest : length i = 4%nat -> small b ->
  let h := bytes_at (WFile w (pre ++ chunk i b ++ rest)) (Z.of_nat (length pre)) 8 in
  length h = 8%nat /\ header h 0 = header (i ++ le4 (Z.of_nat (length b))) 0 /\ header h 1 = Z.of_nat (length b).
Proof.
  intros L S h. unfold h. rewrite chunk_head by exact L. split; [rewrite app_length, le4_length, L; reflexivity|]. split; [reflexivity|].
  rewrite <- (app_nil_r (le4 _)). apply header_id; [exact L|]. unfold small in S. lia.
Qed.
Lemma find_fmt_ok before body l : others FMT before -> forall pre fuel,
  (length before < fuel)%nat -> (16 <= length body)%nat -> small (pre ++ before ++ chunk FMT body ++ l) ->
  find_fmt fuel (WFile true (pre ++ before ++ chunk FMT body ++ l)) (Z.of_nat (length pre)) =
  Some (Some (Z.of_nat (length pre + length before) + 8, Z.of_nat (length body))).
Proof.
  induction 1 as [|i b r L B NE SB H IH]; intros pre fuel F LB S; (destruct fuel as [|fuel]; [cbn in F; lia|]); cbn [find_fmt].
  - cbn [app length] in *. destruct (chunk_header true pre FMT body l eq_refl) as (A & C & D).
    { unfold small in *. rewrite !app_length, chunk_length in S by reflexivity. lia. }
    rewrite A, C, D. change (header (FMT ++ le4 (Z.of_nat (length body))) 0) with 544501094. cbn [negb Z.eqb]. rewrite Z.eqb_refl. cbn [negb].
    replace (Z.of_nat (length body) <? 16) with false by lia. rewrite Nat.add_0_r. reflexivity.
  - rewrite <- app_assoc. destruct (chunk_header true pre i b (r ++ chunk FMT body ++ l) L SB) as (A & C & D). rewrite A, C, D.
    change (negb (Z.of_nat 8 =? 8)) with false. cbv iota. destruct (header (i ++ le4 (Z.of_nat (length b))) 0 =? 544501094) eqn:E.
    { exfalso. apply NE. rewrite <- FMT_word in E. apply id_eqb in E; auto. apply FMT_bytes. }
    cbn [negb]. rewrite skip_small.
    + specialize (IH (pre ++ chunk i b) fuel). rewrite <- !app_assoc in IH. rewrite app_length, chunk_length in IH by exact L.
      replace (Z.of_nat (length pre) + 8 + Z.of_nat (length b)) with (Z.of_nat (length pre + (8 + length b))) by lia. rewrite IH.
      * rewrite app_length, chunk_length by exact L. rewrite !Nat2Z.inj_add. rewrite !Z.add_assoc. reflexivity.
      * rewrite app_length, chunk_length in F by exact L. lia.
      * exact LB.
      * unfold small in *. rewrite !app_length in *. lia.
    + lia.
    + lia.
    + unfold size. cbn [f_bytes]. rewrite !app_length, chunk_length by exact L. lia.
    + unfold size, small in *. cbn [f_bytes]. rewrite <- !app_assoc in S. exact S.
Qed.

Lemma le2_word c r : 0 <= c < 65536 -> forall l, header (le2 r ++ le2 c ++ l) 0 = (r mod 256 + 256 * (r / 256)) + 65536 * c.
Proof.
  intros C l. unfold header, le_word, le2. cbn [Nat.mul Nat.add nth app]. pose proof (Z.div_mod c 256 ltac:(lia)). lia.
Qed.
Lemma open_ok m n4 before b6 extra l d : format_ok m -> length n4 = 4%nat -> others FMT before -> length b6 = 6%nat ->
  let body := le2 1 ++ le2 (fm_channels m) ++ le4 (fm_rate m) ++ b6 ++ le2 (fm_bits m) ++ extra in
  let bytes := RIFF ++ n4 ++ WAVE ++ before ++ chunk FMT body ++ l in
  chunks l d -> Forall isbyte bytes -> small bytes ->
  exists pre, bytes = pre ++ l /\ open_file (file_fuel (WFile true bytes)) (WFile true bytes) = Some (Some (fm_channels m, fm_rate m, fm_bits m, Z.of_nat (length pre))).
Proof.
  intros M L4 B L6 body bytes K FB S.
  exists (RIFF ++ n4 ++ WAVE ++ before ++ chunk FMT body). split; [unfold bytes; rewrite <- !app_assoc; reflexivity|].
  unfold open_file. cbn [f_wav negb].
  assert (H12 : bytes_at (WFile true bytes) 0 12 = RIFF ++ n4 ++ WAVE).
  { pose proof (bytes_mid true [] (RIFF ++ n4 ++ WAVE) (before ++ chunk FMT body ++ l) 12) as H. cbn [length] in H. change (Z.of_nat 0) with 0 in H.
    cbn [app] in H. rewrite <- !app_assoc in H. apply H. rewrite !app_length, L4. reflexivity. }
  rewrite H12. rewrite !app_length, L4. change (Z.of_nat (length RIFF + (4 + length WAVE))) with 12. change (negb (12 =? 12)) with false. cbv iota.
  assert (HR : header (RIFF ++ n4 ++ WAVE) 0 = 1179011410) by reflexivity. rewrite HR.
  assert (HW : header (RIFF ++ n4 ++ WAVE) 2 = 1163280727).
  { rewrite app_assoc. unfold header. change (4 * 2)%nat with 8%nat. rewrite le_word_app; [reflexivity|]. rewrite app_length, L4. reflexivity. }
  rewrite HW. cbn [Z.eqb negb orb Pos.eqb].
  assert (BL : (16 <= length body)%nat). { unfold body. rewrite !app_length, L6. cbn. lia. }
  assert (E12 : bytes = (RIFF ++ n4 ++ WAVE) ++ before ++ chunk FMT body ++ l). { unfold bytes. rewrite <- !app_assoc. reflexivity. }
  pose proof (find_fmt_ok before body l B (RIFF ++ n4 ++ WAVE) (file_fuel (WFile true bytes))) as FF. rewrite <- E12 in FF.
  assert (L12 : length (RIFF ++ n4 ++ WAVE) = 12%nat) by (rewrite !app_length, L4; reflexivity). rewrite L12 in FF. change (Z.of_nat 12) with 12 in FF.
  rewrite FF; [|unfold file_fuel; cbn [f_bytes]; rewrite E12, !app_length; lia|exact BL|exact S].
  set (pre := (RIFF ++ n4 ++ WAVE) ++ before ++ FMT ++ le4 (Z.of_nat (length body))).
  assert (EP : bytes = pre ++ body ++ l). { unfold bytes, pre, chunk. rewrite <- !app_assoc. reflexivity. }
  assert (LP : Z.of_nat (12 + length before) + 8 = Z.of_nat (length pre)). { unfold pre. rewrite !app_length, le4_length, L4. cbn. lia. }
  rewrite LP.
  set (body16 := le2 1 ++ le2 (fm_channels m) ++ le4 (fm_rate m) ++ b6 ++ le2 (fm_bits m)).
  assert (EB : body = body16 ++ extra). { unfold body, body16. rewrite <- !app_assoc. reflexivity. }
  assert (L16 : length body16 = 16%nat). { unfold body16. rewrite !app_length, L6. reflexivity. }
  assert (H16 : bytes_at (WFile true bytes) (Z.of_nat (length pre)) 16 = body16).
  { rewrite EP, EB, <- app_assoc. apply bytes_mid. rewrite L16. reflexivity. }
  rewrite H16, L16. change (negb (Z.of_nat 16 =? 16)) with false. cbv iota.
  destruct M as (MC & MR & MB).
  assert (C16 : header body16 0 = 1 + 65536 * fm_channels m). { unfold body16. rewrite le2_word by lia. reflexivity. }
  assert (R16 : header body16 1 = fm_rate m). { unfold body16. rewrite app_assoc. apply header_id; [reflexivity|lia]. }
  assert (B16 : header body16 3 / 65536 = fm_bits m).
  { unfold body16. destruct b6 as [|x1 [|x2 [|x3 [|x4 [|x5 [|x6 [|]]]]]]]; try discriminate L6.
    assert (F6 : Forall isbyte [x1; x2; x3; x4; x5; x6]). { apply Forall_forall. intros x I. apply (proj1 (Forall_forall _ _) FB). rewrite EP. apply in_or_app. right. apply in_or_app. left. unfold body. do 3 (apply in_or_app; right). apply in_or_app. left. exact I. }
    unfold header, le_word, le2, le4. cbn [Nat.mul Nat.add nth app]. repeat match goal with H : Forall isbyte (_ :: _) |- _ => inversion H; clear H; subst end. unfold isbyte in *.
    pose proof (Z.div_mod (fm_bits m) 256 ltac:(lia)). set (q := fm_bits m / 256) in *. set (r := fm_bits m mod 256) in *.
    replace (x5 + 256 * x6 + 65536 * r + 16777216 * q) with (x5 + 256 * x6 + fm_bits m * 65536) by lia. rewrite Z.div_add by lia. rewrite Z.div_small by lia. lia. }
  rewrite C16, R16, B16. replace ((1 + 65536 * fm_channels m) mod 65536) with 1 by (rewrite Z.mul_comm, Z.mod_add by lia; reflexivity). cbn [Z.eqb Pos.eqb negb].
  replace ((1 + 65536 * fm_channels m) / 65536) with (fm_channels m) by (rewrite Z.mul_comm, Z.div_add by lia; reflexivity).
  rewrite (Z.mod_small (fm_channels m)) by lia. rewrite (Z.mod_small (fm_bits m)) by lia. rewrite to_int_small by lia.
  match goal with |- Some (Some (_, _, _, ?x)) = Some (Some (_, _, _, ?y)) => replace x with y; [reflexivity|] end. rewrite chunk_length by reflexivity. change (length RIFF) with 4%nat. change (length WAVE) with 4%nat.
  assert (SZ : size (WFile true bytes) = Z.of_nat (length pre + length body + length l)). { unfold size. cbn [f_bytes]. rewrite EP, !app_length. lia. }
  assert (LE : length body = (16 + length extra)%nat) by (rewrite EB, app_length, L16; reflexivity).
  destruct (16 <? Z.of_nat (length body)) eqn:E.
  - rewrite skip_small; try lia. unfold size. cbn [f_bytes]. exact S.
  - lia.
Qed.

(** ** Frames and samples *)
Lemma frame_bytes_ok m : format_ok m -> frame_bytes m = 1%nat \/ frame_bytes m = 2%nat \/ frame_bytes m = 4%nat.
Proof. intros ([C|C] & _ & [B|B]); unfold frame_bytes; rewrite C, B; cbn; auto. Qed.
Lemma frame_ext m d e : (forall j, (j < 4)%nat -> d j = e j) -> frame m d = frame m e.
Proof. intros H. unfold frame, value. cbn [Nat.mul Nat.add]. rewrite !H by lia. reflexivity. Qed.
Lemma value_ext8 m d e : fm_bits m = 8 -> d 0%nat = e 0%nat -> (fm_channels m = 2 -> d 1%nat = e 1%nat) -> format_ok m -> frame m d = frame m e.
Proof. intros B H0 H1 M. destruct M as ([C|C] & _); unfold frame, value; rewrite B, C; cbn [Z.eqb Pos.eqb]; rewrite H0; [reflexivity|]. rewrite H1 by exact C. reflexivity. Qed.
Lemma samples_step m p E : format_ok m -> (frame_bytes m < length p)%nat ->
  samples m (p ++ E) = frame m (fun j => nth j p 0) :: samples m (skipn (frame_bytes m) p ++ E).
Proof.
  intros M L. unfold samples. set (k := frame_bytes m) in *. assert (K : (0 < k)%nat) by (destruct (frame_bytes_ok m M) as [?|[?|?]]; lia).
  rewrite !app_length, skipn_length.
  assert (C : ((length p + length E - 1) / k = S ((length p - k + length E - 1) / k))%nat).
  { replace (length p + length E - 1)%nat with ((length p - k + length E - 1) + 1 * k)%nat by lia. rewrite Nat.div_add by lia. lia. }
  rewrite C. cbn [seq map]. f_equal.
  - (* the first frame only looks at bytes of p *)
    cbn [Nat.mul Nat.add]. unfold frame, value. fold k.
    assert (N : forall j, (j < k)%nat -> nth j (p ++ E) 0 = nth j p 0) by (intros; apply app_nth1; lia).
    destruct M as (MC & _ & MB). destruct MB as [B|B], MC as [Ch|Ch]; assert (KK : k = Z.to_nat (fm_channels m * fm_bits m / 8)) by reflexivity; rewrite B, Ch in *; cbn in KK; cbn [Z.eqb Pos.eqb Nat.mul Nat.add]; rewrite !N by lia; reflexivity.
  - rewrite <- seq_shift, map_map. apply map_ext_in. intros i I. apply in_seq in I.
    assert (N : forall j, nth (S i * k + j) (p ++ E) 0 = nth (i * k + j) (skipn k p ++ E) 0).
    { intros j. replace (p ++ E) with (firstn k p ++ (skipn k p ++ E)) by (rewrite app_assoc, firstn_skipn; reflexivity).
      rewrite app_nth2; rewrite firstn_length_le by lia; [f_equal; lia|lia]. }
    unfold frame, value. rewrite !N. reflexivity.
Qed.
Lemma samples_short m p : format_ok m -> (length p <= frame_bytes m)%nat -> samples m p = [].
Proof.
  intros M L. unfold samples. replace ((length p - 1) / frame_bytes m)%nat with 0%nat; [reflexivity|].
  symmetry. apply Nat.div_small. destruct (frame_bytes_ok m M) as [?|[?|?]]; lia.
Qed.
Lemma frame_range m p : format_ok m -> Forall isbyte p -> (frame_bytes m <= length p)%nat -> -32768 <= frame m (fun j => nth j p 0) <= 32767.
Proof.
  intros (MC & _ & MB) F L. assert (N : forall j, (j < length p)%nat -> 0 <= nth j p 0 <= 255).
  { intros j J. apply (proj1 (Forall_forall _ _) F). apply nth_In. exact J. }
  unfold frame_bytes in L. unfold frame, value. destruct MB as [B|B], MC as [C|C]; rewrite B, C in *; cbn in L; cbn [Z.eqb Pos.eqb Nat.mul Nat.add].
  - pose proof (N 0%nat ltac:(lia)). lia.
  - pose proof (N 0%nat ltac:(lia)). pose proof (N 1%nat ltac:(lia)). split; [apply Z.div_le_lower_bound; lia|apply Z.div_le_upper_bound; lia].
  - pose proof (N 0%nat ltac:(lia)). pose proof (N 1%nat ltac:(lia)). destruct (Z.ltb_spec (nth 0 p 0 + 256 * nth 1 p 0) 32768); lia.
  - pose proof (N 0%nat ltac:(lia)). pose proof (N 1%nat ltac:(lia)). pose proof (N 2%nat ltac:(lia)). pose proof (N 3%nat ltac:(lia)).
    assert (A : forall x y, 0 <= x <= 255 -> 0 <= y <= 255 -> -32768 <= (if x + 256 * y <? 32768 then x + 256 * y else x + 256 * y - 65536) <= 32767) by (intros x y ? ?; destruct (Z.ltb_spec (x + 256 * y) 32768); lia).
    pose proof (A (nth 0 p 0) (nth 1 p 0) ltac:(assumption) ltac:(assumption)). pose proof (A (nth 2 p 0) (nth 3 p 0) ltac:(assumption) ltac:(assumption)).
    split; [apply Z.div_le_lower_bound; lia|apply Z.div_le_upper_bound; lia].
Qed.
Lemma wrap16_word x : 0 <= x <= 65535 -> wrap16 x = if x <? 32768 then x else x - 65536.
Proof. intros H. unfold wrap16. destruct (Z.ltb_spec x 32768); [rewrite Z.mod_small; lia|]. replace (x + 32768) with (x - 32768 + 1 * 65536) by lia. rewrite Z.mod_add, Z.mod_small by lia. lia. Qed.
Lemma nth_skipn_Z n (p : list Z) j d : nth j (skipn n p) d = nth (n + j) p d.
Proof. revert p; induction n as [|n IH]; intros p; [reflexivity|]. destruct p; [destruct j; reflexivity|]. cbn [skipn Nat.add nth]. apply IH. Qed.
Lemma read_frame_ok m p : format_ok m -> Forall isbyte p -> (frame_bytes m <= length p)%nat ->
  read_frame (fm_bits m) (fm_channels m) p = (frame m (fun j => nth j p 0), skipn (frame_bytes m) p).
Proof.
  intros (MC & _ & MB) F L. assert (N : forall j, (j < length p)%nat -> 0 <= nth j p 0 <= 255).
  { intros j J. apply (proj1 (Forall_forall _ _) F). apply nth_In. exact J. }
  unfold frame_bytes in *. unfold read_frame, read2, frame, value.
  destruct MB as [B|B], MC as [C|C]; rewrite B, C in *; change (Z.to_nat (1 * 8 / 8)) with 1%nat in *; change (Z.to_nat (2 * 8 / 8)) with 2%nat in *; change (Z.to_nat (1 * 16 / 8)) with 2%nat in *; change (Z.to_nat (2 * 16 / 8)) with 4%nat in *; cbn [Z.eqb Pos.eqb Nat.mul Nat.add].
  - f_equal. lia.
  - rewrite nth_skipn_Z. cbn [Nat.add]. f_equal; [f_equal; lia|]. destruct p as [|a [|b p]]; reflexivity.
  - pose proof (N 0%nat ltac:(lia)). pose proof (N 1%nat ltac:(lia)). rewrite wrap16_word by lia. reflexivity.
  - pose proof (N 0%nat ltac:(lia)). pose proof (N 1%nat ltac:(lia)). pose proof (N 2%nat ltac:(lia)). pose proof (N 3%nat ltac:(lia)).
    rewrite !nth_skipn_Z. cbn [Nat.add]. rewrite !wrap16_word by lia. f_equal. destruct p as [|a [|b p]]; [reflexivity|reflexivity|]. destruct p as [|c [|d p]]; reflexivity.
Qed.

(** ** Emitting *)
Lemma blend_between q x : between (shift q x) = (let '(a, b, c) := hist q in blend a b c x).
Proof.
  destruct q as (((a, b), c), d). unfold between, shift, hist, blend, clip, clamptoi16, clampi32, to_int, wrapped.
  replace (b * -8191 + c * 24757 + d * 24757 + x * -8191) with (24757 * (c + d) - 8191 * (b + x)) by lia. set (y := _ / 32768). destruct (Z.ltb_spec y (-32768)); destruct (Z.gtb_spec y 32767); lia.
Qed.
Lemma between_range q : is16 (between q).
Proof. destruct q as (((a, b), c), d). unfold between, is16, clamptoi16, clampi32. set (y := _ / 32768). destruct (Z.ltb_spec y (-32768)); destruct (Z.gtb_spec y 32767); lia. Qed.
Lemma shift_ok q x : quad_ok q -> is16 x -> quad_ok (shift q x).
Proof. destruct q as (((a, b), c), d). cbn. tauto. Qed.
Lemma third_ok q : quad_ok q -> is16 (third q).
Proof. destruct q as (((a, b), c), d). cbn. tauto. Qed.
Lemma wrap16_is16 x : is16 x -> wrap16 x = x.
Proof. intros H. apply wrap16_id. unfold is16 in H. lia. Qed.
Definition hists (e : emitter) : history * history := (hist (em_2 e), hist (em_4 e)).
Definition em_ok (e : emitter) : Prop := quad_ok (em_2 e) /\ quad_ok (em_4 e).
Lemma Emit1_ok e x : is16 x -> (length (em_out e) < 32)%nat -> Emit1 e x = Some (Emitter (em_out e ++ [x]) (em_2 e) (em_4 e)).
Proof. intros X L. unfold Emit1. replace (32 <=? Z.of_nat (length (em_out e))) with false by lia. rewrite wrap16_is16 by exact X. reflexivity. Qed.
Lemma Emit2_ok e x : em_ok e -> is16 x -> (length (em_out e) < 31)%nat ->
  exists e', Emit2 e x = Some e' /\ em_out e' = em_out e ++ fst (twice (hist (em_2 e)) [x]) /\ hist (em_2 e') = snd (twice (hist (em_2 e)) [x]) /\
             em_4 e' = em_4 e /\ em_ok e' /\ length (em_out e') = (length (em_out e) + 2)%nat.
Proof.
  intros (O2 & O4) X L. unfold Emit2. rewrite wrap16_is16 by exact X. set (q := shift (em_2 e) x).
  assert (Q : quad_ok q) by (apply shift_ok; assumption).
  rewrite Emit1_ok; [|apply between_range|cbn [em_out]; lia]. cbn [bind em_out em_2 em_4].
  rewrite Emit1_ok; [|apply third_ok; exact Q|cbn [em_out]; rewrite app_length; cbn [length]; lia]. cbn [em_out em_2 em_4].
  eexists. split; [reflexivity|]. cbn [em_out em_2 em_4]. rewrite <- app_assoc. cbn [app].
  unfold q. rewrite blend_between. destruct (em_2 e) as (((a, b), c), d) eqn:E2. cbn [hist shift third twice fst snd].
  split; [reflexivity|]. split; [reflexivity|]. split; [reflexivity|]. split; [split; [exact Q|exact O4]|]. rewrite app_length. reflexivity.
Qed.
Lemma twice_app l m : forall h, twice h (l ++ m) = (let '(o, h1) := twice h l in let '(o2, h2) := twice h1 m in (o ++ o2, h2)).
Proof.
  induction l as [|x l IH]; intros ((a, b), c); cbn [app twice].
  - destruct (twice (a, b, c) m) as (o, h). reflexivity.
  - rewrite IH. destruct (twice (b, c, x) l) as (o, h). destruct (twice h m) as (o2, h2). reflexivity.
Qed.
Lemma twice_pair h x y : twice h [x; y] = (let '(o, h1) := twice h [x] in let '(o2, h2) := twice h1 [y] in (o ++ o2, h2)).
Proof. exact (twice_app [x] [y] h). Qed.
Lemma Emit4_ok e x : em_ok e -> is16 x -> (length (em_out e) < 29)%nat ->
  exists e', Emit4 e x = Some e' /\ (let '(o4, h4) := twice (hist (em_4 e)) [x] in let '(o, h2) := twice (hist (em_2 e)) o4 in
     em_out e' = em_out e ++ o /\ hists e' = (h2, h4)) /\ em_ok e' /\ length (em_out e') = (length (em_out e) + 4)%nat.
Proof.
  intros (O2 & O4) X L. unfold Emit4. rewrite wrap16_is16 by exact X. set (q := shift (em_4 e) x).
  assert (Q : quad_ok q) by (apply shift_ok; assumption).
  destruct (Emit2_ok (Emitter (em_out e) (em_2 e) q) (between q)) as (e1 & E1 & U1 & H1 & F1 & K1 & L1); [split; assumption|apply between_range|cbn [em_out]; lia|].
  rewrite E1. cbn [bind]. cbn [em_out em_2 em_4] in *.
  destruct (Emit2_ok e1 (third q)) as (e2 & E2 & U2 & H2 & F2 & K2 & L2); [exact K1|apply third_ok; exact Q|lia|].
  exists e2. split; [exact E2|]. split; [|split; [exact K2|lia]].
  assert (T : twice (hist (em_4 e)) [x] = ([between q; third q], hist q)).
  { unfold q. rewrite blend_between. destruct (em_4 e) as (((a, b), c), d). reflexivity. }
  rewrite T, twice_pair. rewrite H1 in U2, H2. destruct (twice (hist (em_2 e)) [between q]) as (o1, h1). cbn [fst snd] in *. destruct (twice h1 [third q]) as (o2, h2). cbn [fst snd] in *.
  rewrite U2, U1, <- app_assoc. split; [reflexivity|]. unfold hists. rewrite H2, F2, F1. reflexivity.
Qed.
(** How many samples one frame becomes. *)
Definition mult (rate : Z) : nat := if rate =? 44100 then 1 else if rate =? 22050 then 2 else 4.
Lemma resample_app rate l m : forall h, resample rate h (l ++ m) = (let '(o, h1) := resample rate h l in let '(o2, h2) := resample rate h1 m in (o ++ o2, h2)).
Proof.
  intros (h2, h4). unfold resample. destruct (rate =? 44100); [reflexivity|]. destruct (rate =? 22050).
  - rewrite twice_app. destruct (twice h2 l) as (o, h). destruct (twice h m) as (o2, h'). reflexivity.
  - rewrite twice_app. destruct (twice h4 l) as (o4, k4). destruct (twice k4 m) as (p4, l4) eqn:E4. rewrite twice_app. destruct (twice h2 o4) as (o, k2). rewrite E4. destruct (twice k2 p4) as (o', k2'). reflexivity.
Qed.
Lemma emit_ok rate e x : em_ok e -> is16 x -> (length (em_out e) + mult rate <= 32)%nat ->
  exists e', emit rate e x = Some e' /\ (em_out e', hists e') = (em_out e ++ fst (resample rate (hists e) [x]), snd (resample rate (hists e) [x])) /\
             em_ok e' /\ length (em_out e') = (length (em_out e) + mult rate)%nat.
Proof.
  intros K X L. unfold emit, resample, mult, hists in *. destruct (rate =? 44100).
  - rewrite Emit1_ok by (auto; lia). eexists. split; [reflexivity|]. cbn [em_out em_2 em_4 fst snd]. split; [reflexivity|]. split; [exact K|]. rewrite app_length. reflexivity.
  - destruct (rate =? 22050).
    + destruct (Emit2_ok e x K X ltac:(lia)) as (e' & A & B & C & D & E & F). exists e'. split; [exact A|]. split; [|split; assumption].
      destruct (twice (hist (em_2 e)) [x]) as (o, h). cbn [fst snd] in *. rewrite B, C, D. reflexivity.
    + destruct (Emit4_ok e x K X ltac:(lia)) as (e' & A & B & C & D). exists e'. split; [exact A|]. split; [|split; assumption].
      destruct (twice (hist (em_4 e)) [x]) as (o4, h4). destruct (twice (hist (em_2 e)) o4) as (o, h2). destruct B as (B1 & B2). cbn [fst snd]. unfold hists in B2. rewrite B1, B2. reflexivity.
Qed.

(** ** Decoding a buffer *)
Definition decoded (m : format) (e : emitter) (p : list Z) : list Z * (history * history) :=
  let '(o, h) := resample (fm_rate m) (hists e) (samples m p) in (em_out e ++ o, h).
Lemma Forall_skipn_Z {A} (P : A -> Prop) n l : Forall P l -> Forall P (skipn n l).
Proof. revert l; induction n; intros l F; [exact F|]. destruct l; [exact F|]. inversion F; subst. cbn. auto. Qed.
Lemma decode_ok m : format_ok m -> forall fuel p e, em_ok e -> Forall isbyte p -> (exists j, length (em_out e) = j * mult (fm_rate m))%nat -> (length (em_out e) <= 32)%nat ->
  exists p' e', DecodeBytes4 fuel (fm_bits m) (fm_channels m) (fm_rate m) p e = Some (p', e') /\
    (forall E, decoded m e (p ++ E) = decoded m e' (p' ++ E)) /\ em_ok e' /\ Forall isbyte p' /\ (exists j, length (em_out e') = j * mult (fm_rate m))%nat /\ (length (em_out e') <= 32)%nat /\
    (length p' <= length p)%nat /\ (0 < fuel -> frame_bytes m < length p -> (length (em_out e) < 32) -> length p' < length p)%nat.
Proof.
  intros M. induction fuel as [|fuel IH]; intros p e K F J L.
  - exists p, e. cbn. repeat split; auto; try (intros; lia); apply K.
  - cbn [DecodeBytes4]. destruct J as (j & J).
    assert (FB : fm_channels m * fm_bits m / 8 = Z.of_nat (frame_bytes m)). { unfold frame_bytes. rewrite Z2Nat.id; [reflexivity|]. destruct M as ([C|C] & _ & [B|B]); rewrite C, B; cbn; lia. }
    rewrite FB. destruct ((Z.of_nat (frame_bytes m) <? Z.of_nat (length p)) && (Z.of_nat (length (em_out e)) <? 32)) eqn:E.
    + assert (E1 : (frame_bytes m < length p)%nat) by lia. assert (E2 : (length (em_out e) < 32)%nat) by lia.
      rewrite read_frame_ok by (auto; lia).
      assert (MU : (mult (fm_rate m) = 1 \/ mult (fm_rate m) = 2 \/ mult (fm_rate m) = 4)%nat). { unfold mult. destruct (fm_rate m =? 44100); [auto|]. destruct (fm_rate m =? 22050); auto. }
      destruct (emit_ok (fm_rate m) e (frame m (fun j => nth j p 0)) K) as (e1 & EE & H1 & K1 & L1).
      { apply frame_range; auto; lia. }
      { destruct MU as [MM|[MM|MM]]; rewrite MM in *; lia. }
      rewrite EE. cbn [bind]. destruct (IH (skipn (frame_bytes m) p) e1 K1) as (p' & e' & D & S & K' & F' & J' & L' & P' & Q').
      { apply Forall_skipn_Z. exact F. }
      { exists (S j). rewrite L1, J. lia. }
      { destruct MU as [MM|[MM|MM]]; rewrite MM in *; lia. }
      exists p', e'. split; [exact D|]. split.
      { intros X. rewrite <- S. unfold decoded. rewrite samples_step by (auto; lia). set (v := frame m _) in *. pose proof (f_equal fst H1) as H1a. pose proof (f_equal snd H1) as H1b. cbn [fst snd] in H1a, H1b. clear H1.
        pose proof (resample_app (fm_rate m) [v] (samples m (skipn (frame_bytes m) p ++ X)) (hists e)) as RA. cbn [app] in RA. rewrite RA. rewrite H1a, H1b.
        destruct (resample (fm_rate m) (hists e) [v]) as (o, h). cbn [fst snd]. destruct (resample (fm_rate m) h _) as (o2, h2). rewrite app_assoc. reflexivity. }
      rewrite skipn_length in P'. pose proof (frame_bytes_ok m M) as FBM.
      repeat split; try assumption; try apply K'; try lia.
    + exists p, e. repeat split; auto; try apply K; try (exists j; exact J); try (intros; lia).
Qed.

(** ** The player's states *)
Definition rest_data (f : wfile) (pos : Z) (E : list Z) : Prop :=
  if f_wav f then chunks (skipn (Z.to_nat pos) (f_bytes f)) E else E = skipn (Z.to_nat pos) (f_bytes f).
Definition in_data (f : wfile) (pos len : Z) (E : list Z) : Prop :=
  exists E', E = firstn (Z.to_nat len) (skipn (Z.to_nat pos) (f_bytes f)) ++ E' /\
    ((pos + len <= size f /\ rest_data f (pos + len) E') \/ (size f < pos + len /\ E' = [] /\ f_wav f = true)).
Record file_ok (p : player) (m : format) : Prop := {
  fo_m : format_ok m; fo_c : channels p = fm_channels m; fo_r : rate p = fm_rate m; fo_b : bits p = fm_bits m;
  fo_bytes : Forall isbyte (f_bytes (cur p)); fo_small : size (cur p) < 2147483648; fo_pos : 0 <= pos p <= size (cur p); fo_pend : Forall isbyte (pend p) }.
Definition hs (p : player) : history * history := hists (em p).
Definition follows (p : player) (fut : list Z) : Prop :=
  em_ok (em p) /\ exists l, queued (queue p) l /\
  match pc p with
  | Top => em_out (em p) = [] /\ if run_ p then exists m d, holds (cur p) m d /\ fut = sound (hs p) ((m, d) :: l) else fut = sound (hs p) l
  | Opened => em_out (em p) = [] /\ pos p = 0 /\ exists m d, holds (cur p) m d /\ fut = sound (hs p) ((m, d) :: l)
  | Chunk => em_out (em p) = [] /\ exists m E, file_ok p m /\ rest_data (cur p) (pos p) E /\ (length (pend p) <= frame_bytes m)%nat /\ fut = sound (hs p) ((m, pend p ++ E) :: l)
  | Data => em_out (em p) = [] /\ exists m E, file_ok p m /\ 0 <= len p /\ in_data (cur p) (pos p) (len p) E /\ (length (pend p) <= frame_bytes m)%nat /\ fut = sound (hs p) ((m, pend p ++ E) :: l)
  | Decode => em_out (em p) = [] /\ exists m E, file_ok p m /\ 0 <= len p /\ in_data (cur p) (pos p) (len p) E /\ fut = sound (hs p) ((m, pend p ++ E) :: l)
  | Copy => exists m E, file_ok p m /\ 0 <= len p /\ in_data (cur p) (pos p) (len p) E /\ fut = em_out (em p) ++ sound (hs p) ((m, pend p ++ E) :: l)
  end.
(** Steps left in this call, and work left over all calls. *)
Definition left (p : player) : Z := size (cur p) - pos p.
Definition steps (p : player) (to_read : Z) : Z :=
  match pc p with
  | Top => 0
  | Opened => 6 * size (cur p) + 2
  | Chunk => 6 * left p + 3 * Z.of_nat (length (pend p)) + 1
  | Data => 6 * left p + 3 * Z.of_nat (length (pend p))
  | Decode => 6 * left p + 3 * Z.of_nat (length (pend p)) + 1
  | Copy => 6 * left p + 3 * Z.of_nat (length (pend p)) + (if (to_read =? 0) || (match em_out (em p) with [] => true | _ => false end) then 2 else 3)
  end.
Fixpoint queue_work (q : list wfile) : Z := match q with [] => 0 | f :: q => 2 * size f + 4 + queue_work q end.
Definition work (p : player) : Z :=
  queue_work (queue p) +
  match pc p with
  | Top => if run_ p then 2 * size (cur p) + 4 else 0
  | Opened => 2 * size (cur p) + 3
  | Chunk => 2 * left p + 2
  | Data => 2 * left p + (if (len p =? 0) || (left p =? 0) then 2 else 1)
  | Decode | Copy => 2 * left p + 2
  end.

Lemma chunks_short l E : chunks l E -> (length l < 8)%nat -> E = [].
Proof.
  intros K L. destruct K as [|i b l d I _ _ _ _|b l d _ _|n b H]; [reflexivity| | |]; exfalso; revert L.
  - rewrite app_length, chunk_length by exact I. lia.
  - rewrite app_length, chunk_length by reflexivity. lia.
  - rewrite !app_length, le4_length. cbn. lia.
Qed.
Lemma resample_nil r h : resample r h [] = ([], h).
Proof. destruct h as (h2, h4). unfold resample. destruct (r =? 44100); [reflexivity|]. destruct (r =? 22050); reflexivity. Qed.
Lemma sound_short h m p l : format_ok m -> (length p <= frame_bytes m)%nat -> sound h ((m, p) :: l) = sound h l.
Proof. intros M L. cbn [sound]. rewrite samples_short by assumption. rewrite resample_nil. reflexivity. Qed.
Lemma split_at f p : 0 <= p <= size f -> exists pre, f_bytes f = pre ++ skipn (Z.to_nat p) (f_bytes f) /\ Z.of_nat (length pre) = p.
Proof. intros P. exists (firstn (Z.to_nat p) (f_bytes f)). split; [symmetry; apply firstn_skipn|]. rewrite firstn_length. unfold size in P. lia. Qed.
Lemma bytes_at_firstn f p n : bytes_at f p n = firstn (Z.to_nat n) (skipn (Z.to_nat p) (f_bytes f)). Proof. reflexivity. Qed.
Lemma skipn_skipn_Z {A} a b (l : list A) : skipn a (skipn b l) = skipn (b + a) l.
Proof. revert l; induction b as [|b IH]; intros l; [reflexivity|]. destruct l; [destruct a; reflexivity|]. cbn [skipn Nat.add]. apply IH. Qed.
Lemma skipn_app_ge {A} n (a b : list A) : (length a <= n)%nat -> skipn n (a ++ b) = skipn (n - length a) b.
Proof. intros L. rewrite skipn_app, skipn_all2 by lia. reflexivity. Qed.

(** What is at a chunk: the four cases. *)
Lemma at_chunk f p E : f_wav f = true -> size f < 2147483648 -> 0 <= p <= size f -> rest_data f p E ->
  let h := bytes_at f p 8 in
  (length h <> 8%nat /\ E = []) \/
  (length h = 8%nat /\ p + 8 <= size f /\ header h 0 <> 1635017060 /\ p + 8 + header h 1 <= size f /\ 0 <= header h 1 /\ rest_data f (p + 8 + header h 1) E) \/
  (length h = 8%nat /\ p + 8 <= size f /\ header h 0 = 1635017060 /\ 0 <= header h 1 /\ in_data f (p + 8) (header h 1) E).
Proof.
  intros W S P R h. unfold rest_data in R. rewrite W in R. pose proof (bytes_at_length f p 8 ltac:(lia) ltac:(lia)) as LH. fold h in LH.
  destruct (split_at f p P) as (pre & EF & LP). remember (skipn (Z.to_nat p) (f_bytes f)) as r eqn:ER.
  destruct f as [w bytes]. cbn [f_wav f_bytes] in *. subst w.
  assert (SZ : size (WFile true bytes) = p + Z.of_nat (length r)). { unfold size. cbn [f_bytes]. rewrite EF, app_length. lia. }
  assert (SK : forall x, 0 <= x -> skipn (Z.to_nat (p + x)) bytes = skipn (Z.to_nat x) r). { intros x X. rewrite ER, skipn_skipn_Z. f_equal. lia. }
  destruct R as [l L|i b l d I IB NE SB K|b l d SB K|n b H].
  - left. split; [lia|reflexivity].
  - right; left. pose proof (chunk_header true pre i b l I SB) as CH. cbv zeta in CH. rewrite <- EF in CH. rewrite LP in CH. destruct CH as (A & B & C). fold h in A, B, C.
    rewrite app_length, chunk_length in SZ by exact I. rewrite C. split; [exact A|]. split; [lia|]. split.
    { rewrite B. intros E0. apply NE. apply (word_inj i DATA (le4 (Z.of_nat (length b))) []); auto using DATA_bytes. }
    split; [lia|]. split; [lia|]. unfold rest_data. cbn [f_wav f_bytes]. rewrite <- Z.add_assoc, SK by lia. rewrite skipn_app_ge by (rewrite chunk_length by exact I; lia).
    replace (Z.to_nat (8 + Z.of_nat (length b)) - length (chunk i b))%nat with 0%nat by (rewrite chunk_length by exact I; lia). exact K.
  - right; right. pose proof (chunk_header true pre DATA b l eq_refl SB) as CH. cbv zeta in CH. rewrite <- EF in CH. rewrite LP in CH. destruct CH as (A & B & C). fold h in A, B, C.
    rewrite app_length, chunk_length in SZ by reflexivity. rewrite B, C. split; [exact A|]. split; [lia|]. split; [reflexivity|]. split; [lia|].
    exists d. cbn [f_bytes]. split.
    + rewrite SK by lia. unfold chunk. rewrite <- app_assoc. rewrite <- (app_assoc (le4 _)). rewrite app_assoc.
      rewrite skipn_app_ge by (cbn; lia). change (Z.to_nat 8 - length (DATA ++ le4 (Z.of_nat (length b))))%nat with 0%nat. cbn [skipn]. rewrite Nat2Z.id, firstn_app, firstn_all, Nat.sub_diag. cbn [firstn]. rewrite app_nil_r. reflexivity.
    + left. split; [lia|]. unfold rest_data. cbn [f_wav f_bytes]. rewrite <- Z.add_assoc, SK by lia. rewrite skipn_app_ge by (rewrite chunk_length by reflexivity; lia).
      replace (Z.to_nat (8 + Z.of_nat (length b)) - length (chunk DATA b))%nat with 0%nat by (rewrite chunk_length by reflexivity; lia). exact K.
  - right; right. assert (HH : h = DATA ++ le4 n). { unfold h. rewrite <- LP, EF, app_assoc. rewrite <- app_assoc. rewrite (app_assoc DATA). apply bytes_mid. reflexivity. }
    assert (SZ' : size (WFile true bytes) = p + 8 + Z.of_nat (length b)) by (rewrite SZ, !app_length, le4_length; cbn [length DATA]; lia).
    rewrite HH. split; [reflexivity|]. split; [lia|]. split; [reflexivity|].
    assert (HN : header (DATA ++ le4 n) 1 = n). { rewrite <- (app_nil_r (le4 n)). apply header_id; [reflexivity|lia]. }
    rewrite HN. split; [lia|]. exists []. cbn [f_bytes]. rewrite app_nil_r, SK by lia. split; [|right; split; [lia|split; reflexivity]].
    rewrite app_assoc, skipn_app_ge by (cbn; lia). change (Z.to_nat 8 - length (DATA ++ le4 n))%nat with 0%nat. cbn [skipn]. rewrite firstn_all2 by lia. reflexivity.
Qed.
Lemma firstn_Forall {A} (P : A -> Prop) n l : Forall P l -> Forall P (firstn n l).
Proof. intros F. rewrite <- (firstn_skipn n l) in F. apply Forall_app in F. apply F. Qed.
Lemma bytes_at_bytes f p n : Forall isbyte (f_bytes f) -> Forall isbyte (bytes_at f p n).
Proof. intros F. apply firstn_Forall, Forall_skipn_Z, F. Qed.
(** Reading part of the data. *)
Lemma in_data_step f p l n E : 0 <= p <= size f -> 0 <= l -> 0 <= n -> in_data f p l E -> let b := bytes_at f p (Z.min n l) in
  exists E1, E = b ++ E1 /\ in_data f (p + Z.of_nat (length b)) (l - Z.of_nat (length b)) E1.
Proof.
  intros P L N (E' & -> & R) b. assert (LB : Z.of_nat (length b) = Z.min (Z.min n l) (size f - p)) by (unfold b; rewrite bytes_at_length; lia).
  set (k := Z.of_nat (length b)) in *. set (r := skipn (Z.to_nat p) (f_bytes f)).
  assert (LR : Z.of_nat (length r) = size f - p) by (unfold r, size; rewrite skipn_length; unfold size in P; lia).
  exists (firstn (Z.to_nat (l - k)) (skipn (Z.to_nat (p + k)) (f_bytes f)) ++ E'). split.
  - rewrite app_assoc. f_equal. replace (Z.to_nat (p + k)) with (Z.to_nat p + Z.to_nat k)%nat by lia. rewrite <- skipn_skipn_Z. fold r.
    assert (BB : b = firstn (Z.to_nat k) r). { unfold b. rewrite bytes_at_firstn. fold r. destruct (Z_le_gt_dec (Z.min n l) (size f - p)); [f_equal; lia|]. rewrite !firstn_all2 by lia. reflexivity. }
    rewrite BB, firstn_skipn_comm. replace (Z.to_nat k + Z.to_nat (l - k))%nat with (Z.to_nat l) by lia.
    rewrite <- (firstn_skipn (Z.to_nat k) (firstn (Z.to_nat l) r)) at 1. rewrite firstn_firstn. replace (Nat.min (Z.to_nat k) (Z.to_nat l)) with (Z.to_nat k) by lia. reflexivity.
  - exists E'. split; [reflexivity|]. replace (p + k + (l - k)) with (p + l) by lia. exact R.
Qed.

(** States in which a call can return. *)
Definition resting (p : player) : Prop :=
  match pc p with Top | Opened | Chunk => True | Copy => em_out (em p) <> [] | _ => False end.
Definition step_good (p : player) (fut : list Z) (n : Z) (a : action) : Prop :=
  match a with
  | Go p' w n' => cur p' = cur p /\ exists fut', fut = w ++ fut' /\ follows p' fut' /\ n' = n - Z.of_nat (length w) /\ 0 <= n' /\
                  0 <= steps p' n' < steps p n /\ 0 <= work p' <= work p /\ (pc p = Opened \/ pc p = Chunk -> work p' < work p) /\ (pc p = Copy -> em_out (em p) <> [] -> w <> [])
  | Yield p' => follows p' fut /\ resting p' /\ 0 <= work p' <= work p /\ (pc p = Top -> silent p \/ work p' < work p) /\ (n > 0 -> pc p <> Copy) /\ pc p <> Opened /\ pc p <> Chunk /\ (silent p -> p' = p)
  | _ => False
  end.
Lemma queue_work_nonneg q : 0 <= queue_work q.
Proof. induction q as [|f q IH]; cbn [queue_work]; unfold size in *; lia. Qed.
Lemma holds_bytes f m d : holds f m d -> Forall isbyte (f_bytes f) /\ size f < 2147483648 /\ format_ok m.
Proof. intros [l F S|m' n4 before b6 extra l d' M L4 O L6 body bytes K F S]; split; try exact F; split; try exact S; [|exact M]. split; cbn; auto. Qed.
Lemma holds_open f m d : holds f m d -> exists x, open_file (file_fuel f) f = Some (Some (fm_channels m, fm_rate m, fm_bits m, x)) /\ 0 <= x <= size f /\ rest_data f x d.
Proof.
  intros H. destruct H as [l F S|m n4 before b6 extra l d M L4 O L6 body bytes K F S].
  - exists 0. split; [reflexivity|]. split; [unfold size; lia|]. reflexivity.
  - destruct (open_ok m n4 before b6 extra l d M L4 O L6 K F S) as (pre & EB & OF). fold body in EB, OF. fold bytes in EB, OF. exists (Z.of_nat (length pre)). split; [exact OF|].
    split; [unfold size; cbn [f_bytes]; rewrite EB, app_length; lia|]. unfold rest_data. cbn [f_wav f_bytes]. rewrite Nat2Z.id, EB, skipn_app, skipn_all, Nat.sub_diag. exact K.
Qed.
Lemma sound_decoded m l e p : em_out e ++ sound (hists e) ((m, p) :: l) = (let '(o, h) := decoded m e p in o ++ sound h l).
Proof. unfold decoded. cbn [sound]. destruct (resample (fm_rate m) (hists e) (samples m p)) as (o, h). rewrite app_assoc. reflexivity. Qed.
Lemma supported_ok m : format_ok m -> supported (fm_bits m) (fm_channels m) (fm_rate m) = true.
Proof. intros ([C|C] & [R|[R|R]] & [B|B]); unfold supported; rewrite C, R, B; reflexivity. Qed.
Lemma fb_Z m : format_ok m -> fm_channels m * fm_bits m / 8 = Z.of_nat (frame_bytes m).
Proof. intros M. unfold frame_bytes. rewrite Z2Nat.id; [reflexivity|]. destruct M as ([C|C] & _ & [B|B]); rewrite C, B; cbn; lia. Qed.

Lemma file_ok_move p p' m : file_ok p m -> channels p' = channels p -> rate p' = rate p -> bits p' = bits p -> cur p' = cur p -> 0 <= pos p' <= size (cur p) -> Forall isbyte (pend p') -> file_ok p' m.
Proof. intros [] C R B U P E. split; try congruence; rewrite U; assumption. Qed.
Lemma step_ok sizes p fut n : follows p fut -> 0 <= n -> step_good p fut n (wstep sizes (file_fuel (cur p)) p n).
Proof.
  intros (EM & l & Q & F) N. unfold wstep. pose proof (queue_work_nonneg (queue p)) as QW. destruct (pc p) eqn:PC.
  - (* Top *) destruct F as (O & F). destruct (run_ p) eqn:R.
    + destruct F as (m & d & H & ->). cbn [step_good]. split.
      { split; [exact EM|]. exists l. split; [exact Q|]. cbn [open_next pc]. split; [exact O|]. split; [reflexivity|]. exists m, d. split; [exact H|reflexivity]. }
      unfold work, resting, silent. cbn [open_next pc queue cur]. rewrite PC, R. unfold size. repeat split; try lia; try congruence; try (intros (X1 & X2 & X3); congruence).
    + destruct (queue p) as [|f q] eqn:EQ.
      * cbn [step_good]. split. { split; [exact EM|]. exists l. rewrite EQ. split; [exact Q|]. rewrite PC. split; [exact O|]. rewrite R. exact F. }
        unfold work, resting, silent. rewrite PC, R, EQ. cbn. repeat split; try lia; try congruence; auto.
      * cbn [step_good]. inversion Q as [|f' [m d] q' l' H Q']; subst. cbn [fst snd] in H. split.
        { split; [exact EM|]. exists l'. split; [exact Q'|]. cbn [open_next pc]. split; [exact O|]. split; [reflexivity|]. exists m, d. split; [exact H|reflexivity]. }
        pose proof (queue_work_nonneg q) as QW'. unfold work, resting, silent. cbn [open_next pc queue cur]. rewrite PC, R, EQ. cbn [queue_work] in *. unfold size in *. repeat split; try lia; try congruence; try (intros (X1 & X2 & X3); congruence).
  - (* Opened *) destruct F as (O & P0 & m & d & H & ->). destruct (holds_open _ _ _ H) as (x & OF & X & RD). rewrite OF. cbn [step_good]. destruct (holds_bytes _ _ _ H) as (B & S & M).
    split; [reflexivity|]. exists (sound (hs p) ((m, d) :: l)). split; [reflexivity|]. split.
    { split; [exact EM|]. exists l. split; [exact Q|]. cbn [at_ pc]. split; [exact O|]. exists m, d. split; [split; cbn; auto|]. split; [exact RD|]. split; [cbn; lia|]. reflexivity. }
    cbn [length]. unfold steps, work, left. cbn [at_ set_pend set_pos set_format pc pos cur pend em len queue run_ length]. rewrite PC. repeat split; try lia; congruence.
  - (* Chunk *) destruct F as (O & m & E & FO & RD & PE & ->). pose proof (fo_pos _ _ FO) as FP. pose proof (fo_small _ _ FO) as FS.
    destruct (f_wav (cur p)) eqn:W.
    + destruct (at_chunk (cur p) (pos p) E W FS FP RD) as [(A & ->)|[(A & B & C & D & D' & K)|(A & B & C & D & K)]].
      * replace (negb (Z.of_nat (length (bytes_at (cur p) (pos p) 8)) =? 8)) with true by lia. cbn [step_good]. split; [reflexivity|]. exists (sound (hs p) l). split.
        { rewrite app_nil_r, sound_short; [reflexivity|apply FO|exact PE]. }
        split. { split; [exact EM|]. exists l. split; [exact Q|]. cbn. split; [exact O|reflexivity]. }
        unfold steps, work, left. cbn [stopped pc queue run_ length]. rewrite PC. repeat split; try lia; congruence.
      * replace (negb (Z.of_nat (length (bytes_at (cur p) (pos p) 8)) =? 8)) with false by lia. replace (negb (header (bytes_at (cur p) (pos p) 8) 0 =? 1635017060)) with true by lia.
        cbn [step_good]. rewrite skip_small by lia. split; [reflexivity|]. eexists. split; [reflexivity|]. split.
        { split; [exact EM|]. exists l. split; [exact Q|]. cbn [set_pos pc]. rewrite PC. split; [exact O|]. exists m, E. split; [apply (file_ok_move _ _ _ FO); try reflexivity; [cbn [at_ set_len set_pos pos]; lia|apply (fo_pend _ _ FO)]|]. split; [exact K|]. split; [exact PE|]. reflexivity. }
        unfold steps, work, left. cbn [set_pos pc pos cur pend em len queue run_ length]. rewrite PC. repeat split; try lia; congruence.
      * replace (negb (Z.of_nat (length (bytes_at (cur p) (pos p) 8)) =? 8)) with false by lia. replace (negb (header (bytes_at (cur p) (pos p) 8) 0 =? 1635017060)) with false by lia.
        cbn [step_good]. split; [reflexivity|]. eexists. split; [reflexivity|]. split.
        { split; [exact EM|]. exists l. split; [exact Q|]. cbn [set_pos set_len at_ pc]. split; [exact O|]. exists m, E. split; [apply (file_ok_move _ _ _ FO); try reflexivity; [cbn [at_ set_len set_pos pos]; lia|apply (fo_pend _ _ FO)]|]. split; [exact D|]. split; [exact K|]. split; [exact PE|]. reflexivity. }
        unfold steps, work, left. cbn [at_ set_len set_pos pc pos cur pend em len queue run_ length]. rewrite PC. destruct (_ || _); repeat split; try lia; congruence.
    + unfold rest_data in RD. rewrite W in RD. destruct (size (cur p) <=? pos p) eqn:EP.
      * cbn [step_good]. split; [reflexivity|]. exists (sound (hs p) l). split.
        { rewrite RD, skipn_all2 by (unfold size in EP; lia). rewrite app_nil_r, sound_short; [reflexivity|apply FO|exact PE]. }
        split. { split; [exact EM|]. exists l. split; [exact Q|]. cbn. split; [exact O|reflexivity]. }
        unfold steps, work, left. cbn [stopped pc queue run_ length]. rewrite PC. repeat split; try lia; congruence.
      * cbn [step_good]. split; [reflexivity|]. eexists. split; [reflexivity|]. split.
        { split; [exact EM|]. exists l. split; [exact Q|]. cbn [set_len at_ pc]. split; [exact O|]. exists m, E. split; [apply (file_ok_move _ _ _ FO); try reflexivity; [cbn [at_ set_len set_pos pos]; lia|apply (fo_pend _ _ FO)]|]. split; [cbn; lia|]. split; [|split; [exact PE|reflexivity]].
          exists []. cbn [len at_ set_len cur pos]. split; [rewrite app_nil_r, RD, firstn_all2; [reflexivity|rewrite skipn_length; unfold size; lia]|]. left. split; [lia|]. unfold rest_data. rewrite W. rewrite skipn_all2; [reflexivity|unfold size; lia]. }
        unfold steps, work, left. cbn [at_ set_len pc pos cur pend em len queue run_ length]. rewrite PC. replace ((size (cur p) - pos p =? 0) || (size (cur p) - pos p =? 0)) with false by lia. repeat split; try lia; congruence.
  - (* Data *) destruct F as (O & m & E & FO & L0 & ID & PE & ->). pose proof (fo_pos _ _ FO) as FP.
    assert (YC : len p = 0 \/ left p = 0 -> step_good p (sound (hs p) ((m, pend p ++ E) :: l)) n (Yield (at_ p Chunk))).
    { intros Z0. cbn [step_good]. assert (RD : rest_data (cur p) (pos p) E).
      { destruct ID as (E' & -> & R). destruct Z0 as [Z0|Z0].
        - rewrite Z0 in *. cbn [Z.to_nat firstn app]. destruct R as [(_ & R)|(R & _)]; [rewrite Z.add_0_r in R; exact R|lia].
        - unfold left in Z0. rewrite (skipn_all2 (f_bytes (cur p))) by (unfold size in Z0; lia). rewrite firstn_nil. cbn [app]. destruct R as [(R1 & R)|(R & -> & W)].
          + replace (pos p + len p) with (pos p) in R by lia. exact R.
          + unfold rest_data. rewrite W. apply K_end. rewrite skipn_length. unfold size in Z0. lia. }
      split. { split; [exact EM|]. exists l. split; [exact Q|]. cbn [at_ pc]. split; [exact O|]. exists m, E. split; [apply (file_ok_move _ _ _ FO); try reflexivity; [exact FP|apply (fo_pend _ _ FO)]|]. split; [exact RD|]. split; [exact PE|reflexivity]. }
      unfold work, resting, silent, left in *. cbn [at_ pc queue cur pos]. rewrite PC. replace ((len p =? 0) || (size (cur p) - pos p =? 0)) with true by lia. repeat split; try lia; try congruence; try (intros (X1 & X2 & X3); congruence). }
    destruct (len p =? 0) eqn:EL; [apply YC; lia|].
    set (b := delivered sizes p). set (req := Z.max 1 (Z.min (AlignRead (pos p) (Z.min (len p) 512)) (sizes (nreads p)))) in *.
    assert (AL : 1 <= AlignRead (pos p) (Z.min (len p) 512) <= len p).
    { unfold AlignRead. pose proof (Z.div_mod (pos p + 512) 512 ltac:(lia)). pose proof (Z.mod_pos_bound (pos p + 512) 512 ltac:(lia)). lia. }
    assert (RQ : 1 <= req <= len p) by (unfold req; lia).
    assert (BE : b = bytes_at (cur p) (pos p) (Z.min req (len p))) by (unfold b, delivered; fold req; f_equal; lia).
    assert (LB : Z.of_nat (length b) = Z.min req (size (cur p) - pos p)) by (rewrite BE, bytes_at_length; lia).
    destruct (Z.of_nat (length b) =? 0) eqn:EB; [apply YC; unfold left; lia|].
    destruct (in_data_step (cur p) (pos p) (len p) req E FP L0 ltac:(lia) ID) as (E1 & EE & ID1). rewrite <- BE in EE, ID1.
    cbn [step_good]. split; [reflexivity|]. eexists. split; [reflexivity|]. split.
    { split; [exact EM|]. exists l. split; [exact Q|]. cbn [pc]. split; [exact O|]. exists m, E1. split.
      { destruct FO; split; cbn [channels rate bits cur pos pend]; auto; [lia|]. apply Forall_app. split; [assumption|]. rewrite BE. apply bytes_at_bytes. assumption. }
      cbn [len pos cur pend]. split; [lia|]. split; [exact ID1|]. rewrite <- app_assoc, <- EE. reflexivity. }
    unfold steps, work, left. cbn [pc pos cur pend em len queue run_ length]. rewrite PC, app_length. replace ((len p =? 0) || (size (cur p) - pos p =? 0)) with false by lia. repeat split; try lia; try congruence.
  - (* Decode *) destruct F as (O & m & E & FO & L0 & ID & ->). pose proof (fo_pos _ _ FO) as FP. pose proof (fo_m _ _ FO) as M.
    rewrite (fo_c _ _ FO), (fo_b _ _ FO), (fo_r _ _ FO), (fb_Z m M). destruct (Z.of_nat (frame_bytes m) <? Z.of_nat (length (pend p))) eqn:EP.
    + rewrite (supported_ok m M). destruct (decode_ok m M (length (pend p)) (pend p) (em p) EM (fo_pend _ _ FO)) as (p' & e' & D & S & K' & F' & J' & L' & P' & Q').
      { exists 0%nat. rewrite O. reflexivity. }
      { rewrite O. cbn. lia. }
      rewrite D. cbn [step_good]. split; [reflexivity|]. specialize (Q' ltac:(lia) ltac:(lia) ltac:(rewrite O; cbn; lia)). eexists. split; [reflexivity|]. split.
      { split; [exact K'|]. exists l. split; [exact Q|]. cbn [at_ pc]. exists m, E. split; [apply (file_ok_move _ _ _ FO); try reflexivity; [exact FP|exact F']|]. split; [exact L0|]. split; [exact ID|].
        cbn [at_ set_em set_pend em pend]. unfold hs. cbn [at_ set_em set_pend em]. rewrite sound_decoded, <- S, <- sound_decoded, O. reflexivity. }
      unfold steps, work, left. cbn [at_ set_em set_pend pc pos cur pend em len queue run_ length]. rewrite PC. destruct (_ || _); repeat split; try lia; try congruence; intros [X|X]; congruence.
    + pose proof (frame_bytes_ok m M) as FB. replace (8 <? Z.of_nat (length (pend p))) with false by lia. cbn [step_good]. split; [reflexivity|]. eexists. split; [reflexivity|]. split.
      { split; [exact EM|]. exists l. split; [exact Q|]. cbn [at_ pc]. split; [exact O|]. exists m, E. split; [apply (file_ok_move _ _ _ FO); try reflexivity; [exact FP|apply (fo_pend _ _ FO)]|]. split; [exact L0|]. split; [exact ID|]. split; [cbn [at_ pend]; lia|reflexivity]. }
      unfold steps, work, left. cbn [at_ pc pos cur pend em len queue run_ length]. rewrite PC. destruct (_ || _); repeat split; try lia; try congruence; intros [X|X]; congruence.
  - (* Copy *) destruct F as (m & E & FO & L0 & ID & ->). pose proof (fo_pos _ _ FO) as FP. destruct (em_out (em p)) as [|x o] eqn:O.
    + cbn [step_good]. split; [reflexivity|]. eexists. split; [reflexivity|]. split.
      { split; [exact EM|]. exists l. split; [exact Q|]. cbn [at_ pc]. split; [exact O|]. exists m, E. split; [apply (file_ok_move _ _ _ FO); try reflexivity; [exact FP|apply (fo_pend _ _ FO)]|]. split; [exact L0|]. split; [exact ID|reflexivity]. }
      unfold steps, work, left. cbn [at_ pc pos cur pend em len queue run_ length]. rewrite PC, O, orb_true_r. repeat split; try lia; try congruence; intros [X|X]; congruence.
    + destruct (n =? 0) eqn:EN.
      * cbn [step_good]. split. { split; [exact EM|]. exists l. split; [exact Q|]. rewrite PC. exists m, E. rewrite O. auto. }
        unfold resting, silent. rewrite PC, O. assert (WN : 0 <= work p) by (unfold work, left; rewrite PC; lia). repeat split; try lia; try congruence.
      * set (o' := x :: o) in *. assert (LW : Z.of_nat (length (firstn (Z.to_nat n) o')) = Z.min n (Z.of_nat (length o'))) by (rewrite firstn_length; lia).
        cbn [step_good]. split; [reflexivity|]. exists (skipn (Z.to_nat n) o' ++ sound (hs p) ((m, pend p ++ E) :: l)). split; [rewrite app_assoc, firstn_skipn; reflexivity|]. split.
        { split; [exact EM|]. exists l. split; [exact Q|]. cbn [set_out set_em pc]. rewrite PC. exists m, E. split; [apply (file_ok_move _ _ _ FO); try reflexivity; [exact FP|apply (fo_pend _ _ FO)]|]. split; [exact L0|]. split; [exact ID|reflexivity]. }
        assert (LO : Z.of_nat (length o') = 1 + Z.of_nat (length o)) by (unfold o'; cbn [length]; lia).
        split; [reflexivity|]. split; [lia|]. split.
        { unfold steps, left. cbn [set_out set_em pc pos cur pend em em_out]. rewrite PC, O. replace ((n =? 0) || match o' with [] => true | _ :: _ => false end) with false by (rewrite EN; reflexivity).
          assert (XX : (n - Z.of_nat (length (firstn (Z.to_nat n) o')) =? 0) || match skipn (Z.to_nat n) o' with [] => true | _ :: _ => false end = true).
          { destruct (Z_le_gt_dec n (Z.of_nat (length o'))); [replace (n - Z.of_nat (length (firstn (Z.to_nat n) o')) =? 0) with true by lia; reflexivity|]. rewrite skipn_all2 by lia. apply orb_true_r. }
          rewrite XX. lia. }
        split. { unfold work, left. cbn [set_out set_em pc pos cur queue]. rewrite PC. lia. }
        split; [intros [X|X]; congruence|]. intros _ _ X. rewrite X in LW. cbn in LW. lia.
Qed.

(** ** Calls *)
Lemma loop_ok sizes p0 fuel : forall p fut n w, cur p = cur p0 -> follows p fut -> 0 <= n -> steps p n < Z.of_nat fuel ->
  exists p' o fut', loop sizes (file_fuel (cur p0)) fuel p n w = Done p' (w ++ o) /\ fut = o ++ fut' /\ follows p' fut' /\ resting p' /\
    Z.of_nat (length o) <= n /\ 0 <= work p' <= work p /\ (silent p -> p' = p) /\
    (resting p -> n > 0 -> silent p \/ work p' < work p \/ o <> []) .
Proof.
  induction fuel as [|fuel IH]; intros p fut n w C F N L.
  { exfalso. pose proof (step_ok sizes p fut n F N) as G. revert L. unfold steps. destruct F as (_ & l & _ & F). clear G. destruct (pc p); unfold left.
    - lia. - unfold size; lia.
    - destruct F as (_ & m & E & FO & _). pose proof (fo_pos _ _ FO). lia.
    - destruct F as (_ & m & E & FO & _). pose proof (fo_pos _ _ FO). lia.
    - destruct F as (_ & m & E & FO & _). pose proof (fo_pos _ _ FO). lia.
    - destruct F as (m & E & FO & _). pose proof (fo_pos _ _ FO). destruct (_ || _); lia. }
  cbn [loop]. rewrite <- C. pose proof (step_ok sizes p fut n F N) as G. destruct (wstep sizes (file_fuel (cur p)) p n) as [p1 w1 n1|p1| |]; cbn [step_good] in G; [| |contradiction|contradiction].
  - destruct G as (C1 & fut1 & -> & F1 & -> & N1 & S1 & W1 & ST & CP). rewrite C.
    destruct (IH p1 fut1 _ (w ++ w1) ltac:(congruence) F1 N1 ltac:(lia)) as (p2 & o & fut2 & LO & -> & F2 & R2 & LL & W2 & SI2 & PR).
    exists p2, (w1 ++ o), fut2. rewrite LO, <- !app_assoc. split; [reflexivity|]. split; [reflexivity|]. split; [exact F2|]. split; [exact R2|]. split; [rewrite app_length; lia|]. split; [lia|].
    split.
    { intros (X1 & X2 & X3). exfalso. assert (Z0 : steps p n = 0) by (unfold steps; rewrite X1; reflexivity). lia. }
    intros RE NP. right. unfold resting in RE. destruct (pc p) eqn:PC; try contradiction.
    + (* Top never goes on *) assert (Z0 : steps p n = 0) by (unfold steps; rewrite PC; reflexivity). lia.
    + left. specialize (ST (or_introl eq_refl)). lia.
    + left. specialize (ST (or_intror eq_refl)). lia.
    + right. specialize (CP eq_refl RE). destruct w1; [congruence|discriminate].
  - destruct G as (F1 & R1 & W1 & TP & CP & NO & NC & SI). exists p1, [], fut. rewrite app_nil_r. split; [reflexivity|]. split; [reflexivity|]. split; [exact F1|]. split; [exact R1|]. split; [cbn; lia|]. split; [lia|].
    split; [exact SI|]. intros RE NP. unfold resting in RE. destruct (pc p) eqn:PC; try contradiction; try (exfalso; apply NO; reflexivity); try (exfalso; apply NC; reflexivity); try (exfalso; apply (CP NP); reflexivity).
    destruct (TP eq_refl) as [X|X]; auto.
Qed.
Lemma steps_fuel p fut n : follows p fut -> steps p n < Z.of_nat (loop_fuel p).
Proof.
  intros (_ & l & _ & F). unfold steps, loop_fuel, left. rewrite Nat2Z.inj_add, Nat2Z.inj_mul, Nat2Z.inj_add. fold (size (cur p)). destruct (pc p); unfold size in *.
  - lia. - lia.
  - destruct F as (_ & m & E & FO & _). pose proof (fo_pos _ _ FO). lia.
  - destruct F as (_ & m & E & FO & _). pose proof (fo_pos _ _ FO). lia.
  - destruct F as (_ & m & E & FO & _). pose proof (fo_pos _ _ FO). lia.
  - destruct F as (m & E & FO & _). pose proof (fo_pos _ _ FO). destruct (_ || _); lia.
Qed.
Lemma read_ok sizes p fut n : follows p fut -> 0 <= n ->
  exists p' o fut', read sizes p n = Done p' o /\ fut = o ++ fut' /\ follows p' fut' /\ resting p' /\ Z.of_nat (length o) <= n /\ 0 <= work p' <= work p /\ (silent p -> p' = p) /\
    (resting p -> n > 0 -> silent p \/ work p' < work p \/ o <> []).
Proof. intros F N. unfold read. apply (loop_ok sizes p (loop_fuel p) p fut n [] eq_refl F N). eapply steps_fuel. exact F. Qed.
Lemma silent_fut p fut : follows p fut -> silent p -> fut = [].
Proof. intros (_ & l & Q & F) (P & R & E). rewrite P, R in F. rewrite E in Q. inversion Q; subst. destruct F as (_ & ->). reflexivity. Qed.
Lemma reads_ok sizes ns : forall p fut, follows p fut -> Forall (fun n => 0 <= n) ns ->
  exists p' os fut', reads sizes p ns = Some (p', os) /\ fut = concat os ++ fut' /\ follows p' fut' /\ Forall2 (fun n o => Z.of_nat (length o) <= n) ns os /\
    (resting p -> Forall (fun n => 0 < n) ns -> work p + Z.of_nat (length fut) <= Z.of_nat (length ns) -> silent p').
Proof.
  induction ns as [|n ns IH]; intros p fut F N; cbn [reads].
  - exists p, [], fut. split; [reflexivity|]. split; [reflexivity|]. split; [exact F|]. split; [constructor|]. intros RE _ WK. cbn [length] in WK. unfold silent. unfold work in WK.
    pose proof (queue_work_nonneg (queue p)) as QW. destruct (pc p) eqn:PC.
    + destruct (run_ p) eqn:R; [unfold size in WK; lia|]. repeat split; auto. destruct (queue p) as [|f q]; [reflexivity|]. cbn [queue_work] in *. pose proof (queue_work_nonneg q). unfold size in *. lia.
    + unfold size in WK; lia.
    + destruct F as (_ & l & _ & F). rewrite PC in F. destruct F as (_ & m & E & FO & _). pose proof (fo_pos _ _ FO). unfold left in WK. lia.
    + unfold resting in RE. rewrite PC in RE. contradiction.
    + unfold resting in RE. rewrite PC in RE. contradiction.
    + destruct F as (_ & l & _ & F). rewrite PC in F. destruct F as (m & E & FO & _). pose proof (fo_pos _ _ FO). unfold left in WK. lia.
  - inversion N; subst. destruct (read_ok sizes p fut n F) as (p1 & o & fut1 & E & -> & F1 & R1 & L1 & W1 & SI & PR); [assumption|]. rewrite E.
    destruct (IH p1 fut1 F1) as (p2 & os & fut2 & E2 & -> & F2 & LL & TT); [assumption|]. rewrite E2. exists p2, (o :: os), fut2. cbn [concat]. rewrite <- app_assoc.
    split; [reflexivity|]. split; [reflexivity|]. split; [exact F2|]. split; [constructor; assumption|]. intros RE NP WK. inversion NP; subst. destruct (PR RE ltac:(lia)) as [X|X].
    + apply TT; [exact R1|assumption|]. rewrite (silent_fut p1 _ F1) by (rewrite SI by exact X; exact X). rewrite (SI X). destruct X as (X1 & X2 & X3). unfold work. rewrite X1, X2, X3. cbn. lia.
    + apply TT; [exact R1|assumption|]. cbn [length] in WK. rewrite !app_length in *. destruct X as [X|X]; [lia|]. destruct o; [congruence|]. cbn [length] in WK. lia.
Qed.
