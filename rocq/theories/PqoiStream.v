(** Lemmas about the streaming image decoder and rows. *)
From Coq Require Import ZArith List Bool Lia ZifyBool ZifyNat.
From Verif Require Import Machine PqoiModel PqoiSpec PqoiProofs.
Import ListNotations.
Open Scope Z_scope.

(** The bytes of an operation begun but not finished. *)
Definition pend (s : streaming) : list Z :=
  match s_state s with AT_START => [] | AT_RAW1 => [0] | AT_RAW2 => [0; previous_byte s] | AT_LUMA => [previous_byte s] end.
Definition wf (s : streaming) : Prop := s_state s = AT_LUMA -> 160 <= previous_byte s <= 191.

Lemma round_spec c old hist bytes : match streaming_round c old hist bytes with
  | Some (Yield s') => s_codec s' = c /\ pend s' = bytes /\ s_in s' = [] /\ wf s' /\ decode_one c hist bytes = None
  | Some (Emit s1 ps) => decode_one c hist bytes = Some (s_codec s1, ps, s_in s1) /\ s_state s1 = AT_START
  | None => (length hist < 4)%nat
  end.
Proof.
  unfold streaming_round, decode_one, emit_pixel. destruct bytes as [|byte bytes]; [unfold wf; cbn; intuition discriminate|].
  destruct (byte =? 0) eqn:E0. { destruct bytes as [|b2 [|b3 ?]]; unfold wf; cbn; intuition (try discriminate; try lia); repeat f_equal; lia. }
  destruct (byte <=? 124) eqn:E1; [cbn; auto|].
  destruct (byte =? 125) eqn:E2; [destruct hist as [|? [|? ?]]; cbn; try lia; auto|].
  destruct (byte =? 126) eqn:E3; [destruct hist as [|? [|? [|? [|? ?]]]]; cbn; try lia; auto|].
  destruct (byte =? 127) eqn:E4; [destruct hist as [|? [|? [|? [|? ?]]]]; cbn; try lia; auto|].
  destruct (byte <=? 159) eqn:E5; [cbn; auto|].
  destruct (byte <=? 191) eqn:E6; [|cbn; auto].
  destruct bytes as [|b2 bytes]; [|cbn; auto]. unfold wf, pend. cbn. intuition lia.
Qed.
Lemma resume_spec s hist : wf s -> match streaming_resume s with
  | Yield s' => s_codec s' = s_codec s /\ pend s' = pend s ++ s_in s /\ s_in s' = [] /\ wf s' /\ decode_one (s_codec s) hist (pend s ++ s_in s) = None
  | Emit s1 ps => s_state s1 = AT_START /\ decodes (s_codec s) hist (pend s ++ s_in s) ps (s_codec s1) (s_in s1) /\ (length ps <= 1)%nat
  end.
Proof.
  intros W. unfold streaming_resume, pend. destruct s as [c q old inp]. cbn [s_codec s_state s_in previous_byte] in *.
  assert (ONE : forall h bytes c1 p rest, decode_one c h bytes = Some (c1, [p], rest) -> decodes c h bytes [p] c1 rest).
  { intros h bytes c1 p rest E. change [p] with ([p] ++ []). econstructor; [exact E|constructor]. }
  destruct q.
  - cbn. split; [reflexivity|]. split; [constructor|lia].
  - destruct inp as [|b2 [|b3 inp]]; unfold wf; cbn; try (intuition discriminate). split; [reflexivity|]. split; [apply ONE; reflexivity|lia].
  - destruct inp as [|b3 inp]; unfold wf; cbn; try (intuition discriminate). split; [reflexivity|]. split; [apply ONE; reflexivity|lia].
  - specialize (W eq_refl). cbn [previous_byte] in W. destruct inp as [|b2 inp]; cbn [app emit_pixel s_state s_codec s_in].
    + cbn [s_codec s_state s_in previous_byte]. split; [reflexivity|]. split; [reflexivity|]. split; [reflexivity|]. split; [intros _; exact W|].
      cbn [decode_one]. replace (old =? 0) with false by lia. replace (old <=? 124) with false by lia. replace (old =? 125) with false by lia.
      replace (old =? 126) with false by lia. replace (old =? 127) with false by lia. replace (old <=? 159) with false by lia. replace (old <=? 191) with true by lia. reflexivity.
    + unfold emit_pixel. cbn [s_state s_codec s_in]. split; [reflexivity|]. split; [|cbn; lia]. apply ONE. cbn [decode_one].
      replace (old =? 0) with false by lia. replace (old <=? 124) with false by lia. replace (old =? 125) with false by lia.
      replace (old =? 126) with false by lia. replace (old =? 127) with false by lia. replace (old <=? 159) with false by lia. replace (old <=? 191) with true by lia. reflexivity.
Qed.
Lemma loop_spec rounds : forall s hist n, s_state s = AT_START -> (n <= rounds)%nat -> (4 <= length hist)%nat ->
  exists s' out, streaming_loop rounds s hist n = Some (s', out) /\ decodes (s_codec s) hist (s_in s) out (s_codec s') (pend s' ++ s_in s') /\ wf s' /\
    ((n <= length out)%nat \/ (s_in s' = [] /\ decode_one (s_codec s') (rev out ++ hist) (pend s') = None)) /\ (length out <= n + 32)%nat /\ (n = 0%nat -> out = []).
Proof.
  induction rounds as [|rounds IH]; intros s hist n Q N L.
  - destruct n; [|lia]. cbn. eexists. eexists. split; [reflexivity|]. cbn. split; [constructor|]. split; [unfold wf; cbn; discriminate|]. repeat split; lia.
  - destruct n as [|n]; [cbn; eexists; eexists; split; [reflexivity|]; cbn; split; [constructor|]; split; [unfold wf; cbn; discriminate|]; repeat split; lia|].
    cbn [streaming_loop]. pose proof (round_spec (s_codec s) (previous_byte s) hist (s_in s)) as R.
    destruct (streaming_round (s_codec s) (previous_byte s) hist (s_in s)) as [[s'|s1 ps]|]; [| |lia].
    + destruct R as (R1 & R2 & R3 & R4 & R5). exists s', []. split; [reflexivity|]. rewrite R1, R2, R3, app_nil_r. split; [constructor|]. split; [exact R4|]. split; [right; auto|]. cbn. split; [lia|auto].
    + destruct R as (R1 & R2). destruct (decode_one_emits _ _ _ _ _ _ R1) as (E & _).
      destruct (IH s1 (rev ps ++ hist) (S n - length ps)%nat R2) as (s2 & qs & A & B & C & D & F & G); [lia|rewrite app_length; lia|].
      rewrite A. exists s2, (ps ++ qs). split; [reflexivity|]. split; [econstructor; eauto|]. split; [exact C|]. rewrite app_length. split; [|split; [|lia]].
      * destruct D as [D|(D1 & D2)]; [left; lia|]. right. split; [exact D1|]. rewrite rev_app_distr, <- app_assoc. exact D2.
      * destruct (Nat.le_gt_cases (S n) (length ps)) as [X|X]; [|lia]. rewrite G by lia. cbn. lia.
Qed.
Lemma read_spec s hist n : wf s -> (4 <= length hist)%nat ->
  exists s' out, streaming_read s hist n = Some (s', out) /\ decodes (s_codec s) hist (pend s ++ s_in s) out (s_codec s') (pend s' ++ s_in s') /\ wf s' /\
    ((n <= length out)%nat \/ (s_in s' = [] /\ decode_one (s_codec s') (rev out ++ hist) (pend s') = None)) /\ (length out <= n + 32)%nat.
Proof.
  intros W L. unfold streaming_read. pose proof (resume_spec s hist W) as R. destruct (streaming_resume s) as [s'|s1 ps].
  - destruct R as (R1 & R2 & R3 & R4 & R5). exists s', []. split; [reflexivity|]. rewrite R1, R2, R3, app_nil_r. split; [constructor|]. split; [exact R4|]. split; [|cbn; lia]. right. auto.
  - destruct R as (R1 & R2 & R3). destruct (loop_spec (n - length ps) s1 (rev ps ++ hist) (n - length ps) R1) as (s2 & qs & A & B & C & D & F & G); [lia|rewrite app_length; lia|].
    rewrite A. exists s2, (ps ++ qs). split; [reflexivity|]. split; [eapply decodes_app; eauto|]. split; [exact C|]. rewrite app_length.
    split; [|destruct (Nat.le_gt_cases n (length ps)) as [X|X]; [rewrite G by lia; cbn; lia|lia]].
    destruct D as [D|(D1 & D2)]; [left; lia|]. right. split; [exact D1|]. rewrite rev_app_distr, <- app_assoc. exact D2.
Qed.

(** * Rows *)
Lemma decode_one_None_hist c h1 h2 bytes : firstn 4 h1 = firstn 4 h2 -> decode_one c h1 bytes = None -> decode_one c h2 bytes = None.
Proof. intros E. rewrite (decode_one_hist c h1 h2) by exact E. auto. Qed.
Definition shown (d : display) : list Z := concat (rows d) ++ filled (row d).
Definition dinv (width : nat) (memory bytes : list Z) (d : display) : Prop :=
  decodes codec0 memory bytes (shown d) (s_codec (decoder d)) (pend (decoder d) ++ waiting d) /\
  wf (decoder d) /\
  firstn 4 (rev (filled (row d)) ++ before (row d)) = firstn 4 (rev (shown d) ++ memory) /\
  (4 <= length (rev (filled (row d)) ++ before (row d)))%nat /\
  Forall (fun r => length r = width) (rows d) /\
  (length (filled (row d)) <= width + 32)%nat.
Lemma firstn_pad {A} (l x old : list A) : (4 <= length (l ++ x))%nat -> firstn 4 (l ++ firstn (4 - length l) x ++ old) = firstn 4 (l ++ x).
Proof.
  intros L. rewrite app_length in L. rewrite !firstn_app. f_equal. rewrite firstn_firstn. rewrite Nat.min_id. rewrite firstn_length_le by lia.
  replace (4 - length l - (4 - length l))%nat with 0%nat by lia. cbn. apply app_nil_r.
Qed.
Lemma dinv_step width memory bytes d e : dinv width memory bytes d ->
  exists d', step width (Some d) e = Some d' /\ dinv width memory (bytes ++ match e with Arrive bs => bs | _ => [] end) d' /\
  (match e with Fill n => (length (waiting d) <= n)%nat -> (width <= length (filled (row d')))%nat \/
      (waiting d' = [] /\ decode_one (s_codec (decoder d')) (rev (shown d') ++ memory) (pend (decoder d')) = None) | _ => True end) /\
  (match e with Fill _ => rows d' = rows d | _ => True end).
Proof.
  intros (A & B & C & D & E & F). destruct e as [bs|n|old]; cbn [step].
  - eexists. split; [reflexivity|]. unfold dinv, shown in *. cbn [decoder waiting rows row]. split; [|auto].
    rewrite app_assoc. split; [apply decodes_more; exact A|]. auto 10.
  - unfold chunk_fill. rewrite app_nil_r. destruct (width <=? length (filled (row d)))%nat eqn:FULL.
    + eexists. split; [reflexivity|]. unfold dinv, shown in *. cbn [decoder waiting rows row set_input s_in s_codec s_state previous_byte pend]. 
      rewrite firstn_skipn. split; [split; [exact A|]; split; [exact B|]; auto|]. split; [|reflexivity]. intros _. left. apply Nat.leb_le. exact FULL.
    + apply Nat.leb_gt in FULL. set (s := set_input (decoder d) (firstn n (waiting d))). set (hist := rev (filled (row d)) ++ before (row d)) in *.
      assert (WS : wf s) by exact B.
      destruct (read_spec s hist (width - length (filled (row d))) WS D) as (s' & out & R1 & R2 & R3 & R4 & R5). rewrite R1. eexists. split; [reflexivity|].
      unfold dinv, shown in *. cbn [decoder waiting rows row filled before].
      assert (H4 : firstn 4 (rev out ++ hist) = firstn 4 (rev (concat (rows d) ++ filled (row d) ++ out) ++ memory)).
      { rewrite app_assoc, rev_app_distr, <- app_assoc. apply firstn_4_more. exact C. }
      split; [|split; [|reflexivity]].
      * rewrite app_assoc. split; [|split; [exact R3|]].
        { eapply decodes_app; [exact A|]. eapply decodes_hist; [exact C|]. 
          apply (decodes_more _ _ _ _ _ _ (skipn n (waiting d))) in R2. unfold s in R2. cbn [set_input s_codec s_in pend s_state previous_byte] in R2.
          change (pend {| s_codec := s_codec (decoder d); s_state := s_state (decoder d); previous_byte := previous_byte (decoder d); s_in := firstn n (waiting d) |}) with (pend (decoder d)) in R2.
          rewrite <- !app_assoc, firstn_skipn in R2. exact R2. }
        rewrite <- app_assoc. rewrite rev_app_distr, <- app_assoc. fold hist. split; [exact H4|]. split; [rewrite app_length; lia|]. split; [exact E|]. rewrite app_length. lia.
      * intros N. rewrite skipn_all2 by exact N. rewrite app_nil_r. destruct R4 as [R4|(R4 & R6)]; [left; rewrite app_length; lia|]. right. split; [exact R4|].
        eapply decode_one_None_hist; [exact H4|exact R6].
  - unfold chunk_full. destruct (width <=? length (filled (row d)))%nat eqn:FULL.
    + apply Nat.leb_le in FULL. eexists. split; [reflexivity|]. split; [|auto]. unfold dinv, shown in *. cbn [decoder waiting rows row chunk_next filled before]. rewrite app_nil_r.
      assert (SH : concat (rows d ++ [firstn width (filled (row d))]) ++ skipn width (filled (row d)) = concat (rows d) ++ filled (row d)).
      { rewrite concat_app. cbn. rewrite app_nil_r, <- app_assoc, firstn_skipn. reflexivity. }
      rewrite SH. split; [exact A|]. split; [exact B|].
      assert (RV : rev (filled (row d)) = rev (skipn width (filled (row d))) ++ rev (firstn width (filled (row d)))) by (rewrite <- rev_app_distr, firstn_skipn; reflexivity).
      rewrite RV, <- app_assoc in C, D.
      assert (F4 : firstn 4 (rev (skipn width (filled (row d))) ++ firstn (4 - length (skipn width (filled (row d)))) (rev (firstn width (filled (row d))) ++ before (row d)) ++ old) =
                   firstn 4 (rev (skipn width (filled (row d))) ++ rev (firstn width (filled (row d))) ++ before (row d))).
      { rewrite <- (rev_length (skipn width (filled (row d)))). apply firstn_pad. exact D. }
      split; [rewrite F4; exact C|]. split; [|split].
      * assert (L4 : length (firstn 4 (rev (skipn width (filled (row d))) ++ rev (firstn width (filled (row d))) ++ before (row d))) = 4%nat) by (rewrite firstn_length; lia).
        rewrite <- F4, firstn_length in L4. lia.
      * apply Forall_app. split; [exact E|]. constructor; [|constructor]. apply firstn_length_le. exact FULL.
      * rewrite skipn_length. lia.
    + exists d. split; [reflexivity|]. rewrite app_nil_r. split; [|auto]. unfold dinv. auto 10.
Qed.
Lemma arrived_app es e : arrived (es ++ [e]) = arrived es ++ match e with Arrive bs => bs | _ => [] end.
Proof. unfold arrived. rewrite map_app, concat_app. cbn. rewrite app_nil_r. reflexivity. Qed.
Lemma play_inv width memory es : (4 <= length memory)%nat -> exists d, play width memory es = Some d /\ dinv width memory (arrived es) d.
Proof.
  intros M. induction es as [|e es IH] using rev_ind.
  - eexists. split; [reflexivity|]. unfold dinv, shown. cbn. split; [constructor|]. split; [unfold wf; cbn; discriminate|]. split; [reflexivity|]. split; [exact M|]. split; [constructor|lia].
  - destruct IH as (d & P & I). destruct (dinv_step width memory _ d e I) as (d' & S & J & _). exists d'. unfold play in *. rewrite fold_left_app. cbn [fold_left]. rewrite P.
    split; [exact S|]. rewrite arrived_app. exact J.
Qed.
Lemma shown_prefix width memory image es more d : Forall is_pixel image -> arrived es ++ more = snd (encodePixels codec0 image) -> dinv width memory (arrived es) d ->
  exists q, image = shown d ++ q /\ decodes (s_codec (decoder d)) (rev (shown d) ++ memory) ((pend (decoder d) ++ waiting d) ++ more) q (fst (encodePixels codec0 image)) [].
Proof.
  intros P E (A & _). apply (decodes_more _ _ _ _ _ _ more) in A. rewrite E in A.
  destruct (encodePixels_ok codec0 memory image [] codec0_ok P) as (B & _). rewrite app_nil_r in B.
  destruct (decodes_det _ _ _ _ _ _ A _ _ _ B) as [(q & Q1 & Q2)|(q & Q1 & Q2)]; [eauto|].
  apply decodes_empty in Q2. destruct Q2 as (-> & Q2 & Q3). exists []. rewrite app_nil_r in *. split; [auto|]. rewrite Q3, Q2. constructor.
Qed.
Lemma cut_concat width (rs : list (list Z)) rest : Forall (fun r => length r = width) rs -> cut (length rs) width (concat rs ++ rest) = rs.
Proof.
  induction 1 as [|r rs R RS IH]; [reflexivity|]. cbn [length cut concat]. rewrite <- app_assoc. rewrite firstn_app, skipn_app, <- R, firstn_all, skipn_all, Nat.sub_diag. cbn. rewrite app_nil_r, R, IH. reflexivity.
Qed.
