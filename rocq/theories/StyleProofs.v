From Coq Require Import ZArith List Bool Lia ZifyBool ZifyNat.
From Verif Require Import StrModel StrSpec StrProofs ArgModel ArgSpec ArgProofs StyleModel StyleSpec.
Import ListNotations.
Open Scope Z_scope.

Lemma nb_false c : ~ blank c -> is_blank c = false.
Proof. intros H. destruct (is_blank c) eqn:E; [|auto]. apply is_blank_blank in E. contradiction. Qed.

Lemma skip_nonblank_word w r : Forall (fun c => ~ blank c) w ->
  (r = [] \/ exists c r', r = c :: r' /\ blank c) -> skip_nonblank (w ++ r) = r.
Proof.
  intros F R. induction w as [|c w IH]; cbn.
  - destruct R as [->|(c & r' & -> & B)]; [reflexivity|]. cbn.
    apply is_blank_blank in B. rewrite B. reflexivity.
  - inversion F; subst. rewrite nb_false by auto. auto.
Qed.
Lemma take_nonblank_word w r : Forall (fun c => ~ blank c) w ->
  (r = [] \/ exists c r', r = c :: r' /\ blank c) -> take_nonblank (w ++ r) = w.
Proof.
  intros F R. induction w as [|c w IH]; cbn.
  - destruct R as [->|(c & r' & -> & B)]; [reflexivity|]. cbn.
    apply is_blank_blank in B. rewrite B. reflexivity.
  - inversion F; subst. rewrite nb_false by auto. f_equal. auto.
Qed.
Lemma SkipSpace_word w r : is_word w -> SkipSpace (w ++ r) = w ++ r.
Proof.
  intros [N F]. destruct w as [|c w]; [congruence|]. cbn. inversion F; subst.
  rewrite nb_false by auto. reflexivity.
Qed.

Lemma copy_word_points p w : is_word w -> points_at p w -> copy_word p = w.
Proof.
  intros W (r & -> & R). unfold copy_word, SkipWord. rewrite SkipSpace_word by auto.
  destruct W as [N F]. rewrite skip_nonblank_word by auto.
  rewrite app_length. replace (length w + length r - length r)%nat with (length w) by lia.
  rewrite firstn_app, firstn_all, Nat.sub_diag. cbn. apply app_nil_r.
Qed.
Lemma copy_word_word w : is_word w -> copy_word w = w.
Proof. intros W. apply copy_word_points; auto. exists []. rewrite app_nil_r. auto. Qed.
Lemma take_points p w : is_word w -> points_at p w -> take_nonblank p = w.
Proof. intros [N F] (r & -> & R). apply take_nonblank_word; auto. Qed.

Lemma argument_word s n w : argument s n = Some w -> arg_text w.
Proof.
  unfold argument, arg_text. destruct (n <? 1); [discriminate|].
  destruct (nth_error _ _) as [[|c w']|] eqn:E; try discriminate.
  destruct (Z.eqb_spec c 126); [discriminate|]. intros H; injection H as <-.
  split; [|auto]. apply nth_error_In in E. pose proof (words_are_words s) as W.
  rewrite Forall_forall in W. auto.
Qed.

Definition pick_text (o : option str) (d : str) : str := match o with Some w => w | None => d end.

Lemma copy_GetArg s n d : is_word d -> copy_word (GetArg s n d) = pick_text (argument s n) d.
Proof.
  intros D. pose proof (get_arg_spec s n d) as G. destruct (argument s n) as [w|] eqn:E; cbn.
  - apply copy_word_points; [|tauto]. apply argument_word in E. apply E.
  - rewrite G. apply copy_word_word; auto.
Qed.
Lemma take_GetArg s n d : is_word d -> take_nonblank (GetArg s n d) = pick_text (argument s n) d.
Proof.
  intros D. pose proof (get_arg_spec s n d) as G. destruct (argument s n) as [w|] eqn:E; cbn.
  - apply take_points; [|tauto]. apply argument_word in E. apply E.
  - rewrite G. rewrite <- (app_nil_r d) at 1. apply take_nonblank_word; [apply D|auto].
Qed.

(** The default of the last GetArg for absolute argument a. *)
Fixpoint asked (cs : list call) (off a : Z) (acc : option str) : option str :=
  match cs with
  | [] => acc
  | CGet n d :: cs => asked cs off a (if a =? n + off then Some d else acc)
  | CShift k :: cs => asked cs (off + k) a acc
  end.

Lemma ga_run_spec s0 a cs : Forall call_ok cs -> forall s off acc out,
  0 <= off ->
  (forall n, 1 <= n -> argument s n = argument s0 (n + off)) ->
  out = match acc with Some d => Some (pick_text (argument s0 a) d) | None => None end ->
  ga_run cs s off a out = match asked cs off a acc with
      Some d => Some (pick_text (argument s0 a) d) | None => None end.
Proof.
  induction cs as [|[n d|k] cs IH]; intros F s off acc out O A E; inversion F as [|? ? C F']; subst; cbn [ga_run asked].
  - reflexivity.
  - apply IH; auto. destruct (Z.eqb_spec a (n + off)); [|reflexivity].
    destruct C as [N [W _]]. rewrite copy_GetArg by auto. rewrite A by auto. congruence.
  - cbn in C. apply IH; auto; [lia|]. intros n N. rewrite argument_Shift by lia. rewrite A by lia.
    f_equal. lia.
Qed.

Definition calls_of (st : style) (s : str) : list call := make_calls st (SkipWord s).

Lemma make_calls_ok st s : style_ok st -> Forall call_ok (make_calls st s).
Proof.
  destruct st as [cs|pick]; cbn; auto. intros H.
  assert (arg_text zero_text /\ arg_text one_text) as [A B].
  { repeat split; cbn; try discriminate; repeat constructor; intros [?|?]; discriminate. }
  constructor; [split; [lia|exact A]|]. constructor; [split; [lia|exact B]|].
  constructor; [cbn; lia|]. apply H.
Qed.

(** Which calls are made depends only on these texts. *)
Lemma argument_SkipWord s a : 1 <= a -> argument (SkipWord s) a =
  match nth_error (words s) (Z.to_nat a) with
  | Some (c :: w) => if c =? 126 then None else Some (c :: w) | _ => None end.
Proof.
  intros H. unfold argument. destruct (Z.ltb_spec a 1); [lia|].
  rewrite words_SkipWord. replace (Z.to_nat a) with (S (Z.to_nat (a - 1))) by lia.
  destruct (words s); cbn; [destruct (Z.to_nat (a-1)); reflexivity|reflexivity].
Qed.

Definition raw_get (ws : list (list Z)) (a : Z) : bool * option str :=
  match nth_error ws (Z.to_nat a) with
  | None => (false, Some [])
  | Some [126] => (false, Some [])
  | Some w => (true, Some w)
  end.

Lemma tidy_ends s : tidy s -> ends_blank s = false.
Proof.
  intros T. unfold ends_blank. destruct (rev s) as [|c l] eqn:E; [reflexivity|].
  apply (f_equal (@rev Z)) in E. rewrite rev_involutive in E. cbn in E.
  apply T in E. apply nb_false; auto.
Qed.

Lemma iter_SkipWord k s : words (Nat.iter k SkipWord s) = skipn k (words s).
Proof. pose proof (words_Shift s (Z.of_nat k)) as H. unfold Shift in H. rewrite Nat2Z.id in H. auto. Qed.

Lemma GetArgument_spec table s a st : tidy s -> FindStyle table s = Some st -> style_ok st -> 0 <= a ->
  GetArgument table s a =
  match asked (calls_of st s) 0 a None with
  | Some d => (true, Some (pick_text (argument (SkipWord s) a) d))
  | None => raw_get (words s) a
  end.
Proof.
  intros T F OK A. unfold GetArgument. rewrite F.
  destruct (Z.geb_spec a 0); [|lia].
  rewrite (ga_run_spec (SkipWord s) a _ (make_calls_ok st (SkipWord s) OK) (SkipWord s) 0 None None); auto; try lia.
  2:{ intros. f_equal; lia. }
  unfold calls_of. destruct (asked _ 0 a None); [reflexivity|].
  rewrite CountWords_spec, tidy_ends, Z.add_0_r by auto.
  unfold raw_get. destruct (Z.geb_spec a (Z.of_nat (length (words s)))).
  - assert (nth_error (words s) (Z.to_nat a) = None) as -> by (apply nth_error_None; lia). reflexivity.
  - destruct (nth_error (words s) (Z.to_nat a)) as [w|] eqn:E.
    2:{ apply nth_error_None in E. lia. }
    assert (W : copy_word (SkipSpace (Nat.iter (Z.to_nat a) SkipWord s)) = w).
    { pose proof (iter_SkipWord (Z.to_nat a) s) as I.
      set (t := Nat.iter _ _ _) in *.
      assert (S : skipn (Z.to_nat a) (words s) = w :: skipn (S (Z.to_nat a)) (words s)).
      { clear -E. revert E. generalize (Z.to_nat a) (words s). induction n; intros l E.
        - destruct l; [discriminate|]. cbn in *. congruence.
        - destruct l; [discriminate|]. cbn in E. cbn. apply IHn. auto. }
      rewrite S in I. rewrite words_step in I.
      destruct (SkipSpace_hd t) as [X|(c & r & X & B)]; rewrite X in *; [discriminate|].
      injection I as I _. apply copy_word_points.
      - rewrite <- I. apply is_word_take; auto.
      - exists (skip_nonblank (c :: r)). rewrite <- I. split; [apply take_skip|apply skip_nonblank_end]. }
    rewrite W. reflexivity.
Qed.

(** * SetArgument *)
Definition set_text (table : list (str * style)) s n v (i : Z) : str :=
  if i =? n then v else match GetArgument table s i with (true, Some o) => o | _ => [126] end.

Fixpoint upto (i : Z) (k : nat) : list Z := match k with O => [] | S k => i :: upto (i + 1) k end.

Lemma words_pieces ws : forall w, is_word w -> Forall is_word ws ->
  words (w ++ flat_map (cons 32) ws) = w :: ws.
Proof.
  induction ws as [|x ws IH]; intros w W F.
  - cbn [flat_map]. rewrite words_app by auto. reflexivity.
  - inversion F; subst. cbn [flat_map]. rewrite words_app; auto.
    + f_equal. cbn [app]. rewrite words_blank by reflexivity. apply IH; auto.
    + right. exists 32. eexists. split; [reflexivity|left; reflexivity].
Qed.

Lemma raw_get_word ws a : Forall is_word ws ->
  match raw_get ws a with (true, Some o) => is_word o | (false, Some []) => True | _ => False end.
Proof.
  intros F. unfold raw_get. destruct (nth_error ws (Z.to_nat a)) as [w|] eqn:E; [|exact I].
  apply nth_error_In in E. rewrite Forall_forall in F. apply F in E.
  destruct w as [|c [|d w]]; [destruct E; congruence| |].
  - destruct (Z.eq_dec c 126) as [->|N]; [exact I|].
    destruct c as [|p|p]; auto. repeat (destruct p as [p|p|]; auto).
  - destruct c as [|p|p]; auto. repeat (destruct p as [p|p|]; auto).
Qed.

Lemma asked_ok cs : Forall call_ok cs -> forall off a acc d,
  (forall d0, acc = Some d0 -> arg_text d0) -> asked cs off a acc = Some d -> arg_text d.
Proof.
  induction cs as [|[n d0|k] cs IH]; intros F off a acc d A E; inversion F as [|? ? C F']; subst; cbn in E.
  - auto.
  - apply (IH F' _ _ _ _) in E; [auto|].
    intros d1 H. destruct (a =? n + off); [|auto]. injection H as <-. apply C.
  - apply (IH F' _ _ _ _) in E; auto.
Qed.

Lemma get_result table s st a : tidy s -> FindStyle table s = Some st -> style_ok st -> 0 <= a ->
  exists w, GetArgument table s a = (true, Some w) /\ is_word w \/ GetArgument table s a = (false, Some []).
Proof.
  intros T F OK A. rewrite (GetArgument_spec table s a st) by auto.
  destruct (asked (calls_of st s) 0 a None) as [d|] eqn:E.
  - exists (pick_text (argument (SkipWord s) a) d). left. split; [auto|].
    destruct (argument (SkipWord s) a) eqn:G; cbn.
    + apply argument_word in G. apply G.
    + apply asked_ok in E; [apply E| |discriminate]. apply make_calls_ok; auto.
  - pose proof (raw_get_word (words s) a (words_are_words s)) as R.
    destruct (raw_get (words s) a) as [[] [[|c w]|]]; try contradiction.
    + destruct R; congruence.
    + exists (c :: w). auto.
    + exists []. auto.
Qed.

Lemma tilde_word : is_word [126].
Proof. split; [discriminate|]. repeat constructor. intros [?|?]; discriminate. Qed.

Lemma set_text_word table s st n v i : tidy s -> FindStyle table s = Some st -> style_ok st ->
  is_word v -> 0 <= i -> is_word (set_text table s n v i).
Proof.
  intros T F OK V I. unfold set_text. destruct (i =? n); [auto|].
  destruct (get_result table s st i T F OK I) as [w [[-> W]| ->]]; auto using tilde_word.
Qed.

Lemma set_loop_words table s st n v g : tidy s -> FindStyle table s = Some st -> style_ok st ->
  1 <= n -> forall k i, 0 <= i ->
  set_loop table s n v g k i = flat_map (fun j => (if j =? 0 then [] else [32]) ++ set_text table s n v j) (upto i k).
Proof.
  intros T F OK N. induction k; intros i I; cbn [set_loop upto flat_map]; [reflexivity|].
  rewrite IHk by lia. f_equal. unfold set_piece, set_text.
  destruct (Z.eqb_spec i n).
  - destruct (Z.eqb_spec i 0); [lia|reflexivity].
  - destruct (get_result table s st i T F OK I) as [w [[-> W]| ->]]; reflexivity.
Qed.

Lemma upto_in i k j : In j (upto i k) <-> i <= j < i + Z.of_nat k.
Proof.
  revert i; induction k; intros i; cbn [upto In]; [lia|]. rewrite IHk. lia.
Qed.

Lemma set_words table s st n v g : tidy s -> FindStyle table s = Some st -> style_ok st ->
  1 <= n -> is_word v -> forall k, (1 <= k)%nat ->
  words (set_loop table s n v g k 0) = map (set_text table s n v) (upto 0 k).
Proof.
  intros T F OK N V k K. rewrite (set_loop_words table s st) by (auto; lia).
  destruct k as [|k]; [lia|]. cbn [upto flat_map map].
  change ((if 0 =? 0 then [] else [32]) ++ set_text table s n v 0) with (set_text table s n v 0).
  replace (flat_map (fun j => (if j =? 0 then [] else [32]) ++ set_text table s n v j) (upto (0+1) k))
    with (flat_map (cons 32) (map (set_text table s n v) (upto (0 + 1) k))).
  2:{ rewrite flat_map_concat_map, map_map, <- flat_map_concat_map.
      assert (P : forall j, In j (upto (0 + 1) k) -> j <> 0) by (intros j J; apply upto_in in J; lia).
      revert P. generalize (upto (0 + 1) k). induction l as [|j l IH]; intros P; [reflexivity|].
      cbn [flat_map]. rewrite IH by (intros; apply P; right; auto).
      destruct (Z.eqb_spec j 0); [exfalso; apply (P j); [left; auto|auto]|reflexivity]. }
  apply words_pieces.
  - eapply set_text_word; eauto. lia.
  - apply Forall_map. apply Forall_forall. intros j J. apply upto_in in J.
    eapply set_text_word; eauto. lia.
Qed.

Lemma nth_upto f k j : 0 <= j -> @nth_error (list Z) (map f (upto 0 k)) (Z.to_nat j) =
  if j <? Z.of_nat k then Some (f j) else (None : option (list Z)).
Proof.
  intros J. assert (G : forall k i m, nth_error (map f (upto i k)) m =
    if (m <? k)%nat then Some (f (i + Z.of_nat m)) else (None : option (list Z))).
  { induction k0; intros i m; cbn [upto map].
    - destruct m; reflexivity.
    - destruct m; cbn [nth_error].
      + cbn. f_equal. f_equal. lia.
      + rewrite IHk0. destruct (Nat.ltb_spec m k0), (Nat.ltb_spec (S m) (S k0)); try lia; auto.
        do 2 f_equal. lia. }
  rewrite G. destruct (Nat.ltb_spec (Z.to_nat j) k), (Z.ltb_spec j (Z.of_nat k)); try lia; auto.
  do 2 f_equal. lia.
Qed.

Lemma FindStyle_words table s s' : Forall (fun e : str * style => is_word (fst e)) table ->
  hd_error (words s) = hd_error (words s') -> FindStyle table s = FindStyle table s'.
Proof.
  intros F H. induction table as [|[nm st] table IH]; [reflexivity|]. inversion F; subst. cbn.
  rewrite IH by auto. cbn in H2.
  destruct (FirstWord s nm) eqn:A, (FirstWord s' nm) eqn:B; auto; exfalso.
  - apply FirstWord_spec in A; auto. rewrite H in A. apply FirstWord_spec in A; auto. congruence.
  - apply FirstWord_spec in B; auto. rewrite <- H in B. apply FirstWord_spec in B; auto. congruence.
Qed.

Lemma FindStyle_ok table s st : table_ok table -> FindStyle table s = Some st ->
  style_ok st /\ words s <> [].
Proof.
  induction table as [|[nm st'] table IH]; intros T F; [discriminate|]. inversion T; subst. cbn in F.
  destruct (FirstWord s nm) eqn:E; [|auto].
  injection F as <-. destruct H1. split; [auto|]. cbn in H.
  apply FirstWord_spec in E; auto. intros X. rewrite X in E. discriminate.
Qed.

Lemma asked_high cs : Forall call_ok cs -> forall off a acc, 0 <= off -> a < off + 1 ->
  asked cs off a acc = acc.
Proof.
  induction cs as [|[n d|k] cs IH]; intros F off a acc O H; inversion F as [|? ? C F']; subst; cbn; auto.
  - cbn in C. rewrite IH by auto. destruct (Z.eqb_spec a (n + off)); [lia|auto].
  - cbn in C. apply IH; auto; lia.
Qed.

Lemma tidy_app a w : is_word w -> tidy (a ++ w).
Proof.
  intros [N F] b c E.
  destruct (exists_last N) as (w' & d & ->). rewrite app_assoc in E.
  apply app_inj_tail in E as [_ ->]. apply Forall_app in F as [_ F]. inversion F; auto.
Qed.

Lemma upto_snoc i k : upto i (S k) = upto i k ++ [i + Z.of_nat k].
Proof.
  revert i; induction k; intros i; cbn [upto app].
  - f_equal. lia.
  - f_equal. cbn [upto] in IHk. rewrite IHk. do 2 f_equal. lia.
Qed.

Lemma set_loop_tidy table s st n v g : tidy s -> FindStyle table s = Some st -> style_ok st ->
  1 <= n -> is_word v -> forall k, (1 <= k)%nat -> tidy (set_loop table s n v g k 0).
Proof.
  intros T F OK N V k K. rewrite (set_loop_words table s st) by (auto; lia).
  destruct k as [|k]; [lia|]. rewrite upto_snoc. rewrite flat_map_app. cbn [flat_map].
  rewrite app_nil_r. rewrite app_assoc. apply tidy_app. eapply set_text_word; eauto. lia.
Qed.

Lemma SetArgument_get table s st n v g r :
  table_ok table -> tidy s -> FindStyle table s = Some st -> settable st n -> arg_text v ->
  SetArgument table s n v g = SetOk r ->
  tidy r /\ FindStyle table r = Some st /\
  GetArgument table r n = (true, Some v) /\
  forall a, 0 <= a -> a <> n -> GetArgument table r a = GetArgument table s a.
Proof.
  intros TO T F SN V E.
  destruct (FindStyle_ok table s st TO F) as [OK NE].
  assert (N : 1 <= n) by (destruct st; cbn in SN; lia).
  unfold SetArgument in E. rewrite CountWords_spec, tidy_ends, Z.add_0_r in E by auto.
  set (k := Z.to_nat (Z.max (Z.of_nat (length (words s))) (n + 1))) in *.
  destruct (_ <? 512); [|discriminate]. injection E as E.
  assert (K : (1 <= k)%nat) by lia.
  assert (W : words r = map (set_text table s n v) (upto 0 k)).
  { rewrite <- E. eapply set_words; eauto. apply V. }
  assert (TR : tidy r) by (rewrite <- E; eapply set_loop_tidy; eauto; apply V).
  assert (NTH : forall a, 0 <= a -> nth_error (words r) (Z.to_nat a) =
     if a <? Z.of_nat k then Some (set_text table s n v a) else None).
  { intros a A. rewrite W. apply nth_upto. auto. }
  assert (NAMES : Forall (fun e : str * style => is_word (fst e)) table).
  { eapply Forall_impl; [|exact TO]. intros e H; apply H. }
  pose proof (words_are_words s) as WW.
  (* word 0 *)
  assert (H0 : hd_error (words r) = hd_error (words s)).
  { rewrite W. destruct k as [|k']; [lia|]. cbn [upto map hd_error].
    unfold set_text. destruct (Z.eqb_spec 0 n); [lia|].
    rewrite (GetArgument_spec table s 0 st) by (auto; lia).
    assert (asked (calls_of st s) 0 0 None = None) as ->.
    { apply asked_high; try lia. apply make_calls_ok; auto. }
    unfold raw_get. change (Z.to_nat 0) with 0%nat.
    destruct (words s) as [|w ws] eqn:EW; [congruence|]. cbn [nth_error hd_error].
    destruct w as [|c [|d w]]; try reflexivity.
    - destruct c as [|p|p]; try reflexivity. repeat (destruct p as [p|p|]; try reflexivity).
    - destruct c as [|p|p]; try reflexivity. repeat (destruct p as [p|p|]; try reflexivity). }
  assert (FR : FindStyle table r = Some st).
  { rewrite <- F. apply FindStyle_words; auto. }
  (* the calls are the same *)
  assert (TEXT : forall a d, 1 <= a -> a <> n -> asked (calls_of st s) 0 a None = Some d ->
     pick_text (argument (SkipWord r) a) d = pick_text (argument (SkipWord s) a) d).
  { intros a d A AN AD. rewrite (argument_SkipWord r) by auto. rewrite NTH by lia.
    assert (D : arg_text d) by
      (apply (asked_ok _ (make_calls_ok _ (SkipWord s) OK) 0 a None d); [discriminate|exact AD]).
    destruct (Z.ltb_spec a (Z.of_nat k)).
    - unfold set_text. destruct (Z.eqb_spec a n); [congruence|].
      rewrite (GetArgument_spec table s a st) by (auto; lia). rewrite AD.
      set (t := pick_text (argument (SkipWord s) a) d).
      assert (arg_text t).
      { unfold t. destruct (argument (SkipWord s) a) eqn:G; cbn; auto. eapply argument_word; eauto. }
      destruct t as [|c t]; [destruct H1 as [[X _] _]; congruence|].
      destruct H1 as [_ X]. cbn in X. destruct (Z.eqb_spec c 126); [congruence|]. reflexivity.
    - rewrite argument_SkipWord by auto.
      assert (nth_error (words s) (Z.to_nat a) = None) as ->; [|reflexivity].
      apply nth_error_None. lia. }
  assert (CALLS : calls_of st r = calls_of st s).
  { unfold calls_of. destruct st as [cs|pick]; [reflexivity|]. cbn [make_calls]. cbn in SN.
    assert (X : is_word zero_text /\ is_word one_text).
    { repeat split; try discriminate; repeat constructor; intros [?|?]; discriminate. }
    destruct X as [X0 X1].
    assert (P : forall a b, Forall call_ok (pick a b)) by apply OK.
    rewrite !take_GetArg by auto.
    rewrite (TEXT 1 zero_text), (TEXT 2 one_text); try lia; try reflexivity.
    - unfold calls_of. cbn [make_calls asked]. cbn [Z.add Z.eqb Pos.eqb].
      change (2 =? 1 + 0) with false. change (2 =? 2 + 0) with true. cbn [Z.add].
      rewrite asked_high; auto; lia.
    - unfold calls_of. cbn [make_calls asked].
      change (1 =? 1 + 0) with true. change (1 =? 2 + 0) with false. cbn [Z.add].
      rewrite asked_high; auto; lia. }
  split; [auto|]. split; [auto|]. split.
  - rewrite (GetArgument_spec table r n st) by (auto; lia).
    assert (NK : n <? Z.of_nat k = true) by lia.
    assert (ST : set_text table s n v n = v) by (unfold set_text; rewrite Z.eqb_refl; auto).
    destruct V as [VW V0]. destruct v as [|c v]; [destruct VW; congruence|]. cbn in V0.
    destruct (asked (calls_of st r) 0 n None).
    + rewrite argument_SkipWord by auto. rewrite NTH, NK, ST by lia.
      destruct (Z.eqb_spec c 126); [congruence|]. reflexivity.
    + unfold raw_get. rewrite NTH, NK, ST by lia.
      destruct v; destruct c as [|p|p]; try reflexivity; repeat (destruct p as [p|p|]; try reflexivity; try congruence).
  - intros a A AN. rewrite !(GetArgument_spec table _ a st) by auto. rewrite CALLS.
    destruct (asked (calls_of st s) 0 a None) as [d|] eqn:AD.
    + destruct (Z.eq_dec a 0).
      { subst. rewrite asked_high in AD; [discriminate| |lia|lia]. apply make_calls_ok; auto. }
      rewrite (TEXT a d) by (auto; lia). reflexivity.
    + unfold raw_get at 1. rewrite NTH by auto.
      destruct (Z.ltb_spec a (Z.of_nat k)).
      * unfold set_text. destruct (Z.eqb_spec a n); [congruence|].
        rewrite (GetArgument_spec table s a st) by auto. rewrite AD.
        unfold raw_get. destruct (nth_error (words s) (Z.to_nat a)) as [w|]; [|reflexivity].
        destruct w as [|c [|d w]]; try reflexivity;
        destruct c as [|p|p]; try reflexivity; repeat (destruct p as [p|p|]; try reflexivity).
      * unfold raw_get. assert (nth_error (words s) (Z.to_nat a) = None) as ->; [|reflexivity].
        apply nth_error_None. lia.
Qed.

(** * Copying *)
Definition sep (r : str) : Prop := r = [] \/ exists c r', r = c :: r' /\ blank c.

Lemma words_nonempty c s : is_blank c = false -> exists w ws, words (c :: s) = w :: ws.
Proof. intros B. rewrite words_step. cbn [SkipSpace]. rewrite B. eauto. Qed.

Lemma words_split p r : sep r -> words (p ++ r) = words p ++ words r.
Proof.
  intros R. induction p as [|c p IH]; [reflexivity|].
  cbn [app]. destruct (is_blank c) eqn:B.
  - rewrite !words_blank by auto. auto.
  - cbn [words]. rewrite <- blankb_is_blank, B.
    destruct p as [|d p].
    + cbn [app]. destruct R as [->|(x & r' & -> & X)]; [reflexivity|].
      apply is_blank_blank in X. rewrite <- blankb_is_blank, X. reflexivity.
    + cbn [app]. rewrite <- blankb_is_blank. destruct (is_blank d) eqn:D.
      * cbn [app] in IH. cbn [app]. f_equal. exact IH.
      * cbn [app] in IH. rewrite IH. destruct (words_nonempty d p D) as (w & ws & ->). reflexivity.
Qed.

Lemma SkipWord_sep s : sep (SkipWord s).
Proof. unfold SkipWord. apply skip_nonblank_end. Qed.

Lemma sep_app a b : sep a -> sep b -> sep (a ++ b).
Proof.
  intros [->|(c & r & -> & B)] Hb; [exact Hb|]. right. exists c, (r ++ b). auto.
Qed.

Lemma id_words_spec s : id_words s = if FirstWord s builtin_text then 3%nat else 1%nat.
Proof.
  assert (W : is_word builtin_text).
  { split; [discriminate|]. repeat constructor; intros [?|?]; discriminate. }
  unfold id_words. destruct (FirstWord s builtin_text) eqn:E.
  - apply FirstWord_spec in E; auto. destruct (words s); [discriminate|]. cbn in E.
    injection E as ->. reflexivity.
  - destruct (words s) as [|w ws] eqn:EW; [reflexivity|].
    destruct (list_eq_dec Z.eq_dec w builtin_text) as [X|X].
    + subst w. assert (FirstWord s builtin_text = true) by (apply FirstWord_spec; auto; rewrite EW; reflexivity).
      congruence.
    + clear E EW. unfold builtin_text in X.
      repeat match goal with
      | |- context [match ?l with [] => _ | _ :: _ => _ end] => is_var l; destruct l; try reflexivity
      | |- context [match ?z with Z0 => _ | Zpos _ => _ | Zneg _ => _ end] => is_var z; destruct z; try reflexivity
      | |- context [match ?p with xI _ => _ | xO _ => _ | xH => _ end] => is_var p; destruct p; try reflexivity
      end; congruence.
Qed.

Lemma after_words s : words (after_identifier s) = arg_words s.
Proof.
  unfold arg_words, after_identifier. rewrite id_words_spec. destruct (FirstWord s builtin_text).
  - change (SkipWord (SkipWord (SkipWord s))) with (Nat.iter 3 SkipWord s). apply iter_SkipWord.
  - change (SkipWord s) with (Nat.iter 1 SkipWord s). apply iter_SkipWord.
Qed.
Lemma after_sep s : sep (after_identifier s).
Proof. unfold after_identifier. destruct (FirstWord s builtin_text); apply SkipWord_sep. Qed.

Lemma firstn_prefix (p r : str) : firstn (length (p ++ r) - length r) (p ++ r) = p.
Proof.
  rewrite app_length. replace (length p + length r - length r)%nat with (length p) by lia.
  rewrite firstn_app, firstn_all, Nat.sub_diag. cbn. apply app_nil_r.
Qed.

Lemma firstn_prefix' (s p r : str) : s = p ++ r -> firstn (length s - length r) s = p.
Proof. intros ->. apply firstn_prefix. Qed.

Lemma suffix_trans (a b c : str) : (exists p, a = p ++ b) -> (exists q, b = q ++ c) -> exists r, a = r ++ c.
Proof. intros [p ->] [q ->]. exists (p ++ q). rewrite app_assoc. reflexivity. Qed.

Lemma after_suffix s : exists p, s = p ++ after_identifier s.
Proof.
  unfold after_identifier. destruct (FirstWord s builtin_text); [|apply SkipWord_suffix].
  eapply suffix_trans; [apply SkipWord_suffix|]. eapply suffix_trans; apply SkipWord_suffix.
Qed.

Lemma identifier_app s : s = identifier s ++ after_identifier s.
Proof.
  destruct (after_suffix s) as [p P]. unfold identifier. rewrite (firstn_prefix' _ _ _ P). exact P.
Qed.

Lemma identifier_words s : words (identifier s) = name_words s.
Proof.
  assert (E : words (identifier s) ++ arg_words s = name_words s ++ arg_words s).
  { rewrite <- after_words at 1. rewrite <- words_split by apply after_sep.
    rewrite <- identifier_app. unfold name_words, arg_words. symmetry. apply firstn_skipn. }
  apply app_inv_tail in E. exact E.
Qed.

Lemma Reset_words s : words (ResetArguments s) = name_words s.
Proof. apply identifier_words. Qed.

Lemma Copy_words from to : words (written (CopyArguments from to)) = name_words to ++ arg_words from.
Proof.
  cbn. rewrite words_split by apply after_sep. rewrite identifier_words, after_words. reflexivity.
Qed.
Lemma Copy_fits from to : allocated (CopyArguments from to) =
  Z.of_nat (length (written (CopyArguments from to))) + 1.
Proof.
  cbn. rewrite app_length. rewrite (identifier_app from) at 1. rewrite app_length. lia.
Qed.

Lemma iter_suffix k s : exists p, s = p ++ Nat.iter k SkipWord s.
Proof.
  induction k; [exists []; reflexivity|]. eapply suffix_trans; [exact IHk|].
  change (Nat.iter (S k) SkipWord s) with (SkipWord (Nat.iter k SkipWord s)). apply SkipWord_suffix.
Qed.
Lemma iter_sep k s : sep s -> sep (Nat.iter k SkipWord s).
Proof.
  intros H. destruct k; [exact H|].
  change (Nat.iter (S k) SkipWord s) with (SkipWord (Nat.iter k SkipWord s)). apply SkipWord_sep.
Qed.

Lemma prefix_sep (p r : str) : sep (p ++ r) -> sep p.
Proof.
  intros [E|(c & r' & E & B)].
  - left. destruct p; [reflexivity|discriminate].
  - destruct p as [|d p]; [left; reflexivity|]. right. cbn in E. injection E as -> _. eauto.
Qed.

Lemma part1_app s n : after_identifier s = part1 s n ++ part2 s n.
Proof.
  unfold part1, part2, Shift. destruct (iter_suffix (Z.to_nat n) (after_identifier s)) as [p P].
  cbv zeta. rewrite (firstn_prefix' _ _ _ P). exact P.
Qed.
Lemma part2_words s n : words (part2 s n) = skipn (Z.to_nat n) (arg_words s).
Proof. unfold part2. rewrite words_Shift, after_words. reflexivity. Qed.
Lemma part2_sep s n : sep (part2 s n).
Proof. unfold part2, Shift. apply iter_sep, after_sep. Qed.
Lemma part1_sep s n : sep (part1 s n).
Proof. apply (prefix_sep _ (part2 s n)). rewrite <- part1_app. apply after_sep. Qed.
Lemma part1_words s n : words (part1 s n) = firstn (Z.to_nat n) (arg_words s).
Proof.
  assert (E : words (part1 s n) ++ skipn (Z.to_nat n) (arg_words s) =
              firstn (Z.to_nat n) (arg_words s) ++ skipn (Z.to_nat n) (arg_words s)).
  { rewrite <- part2_words at 1. rewrite <- words_split by apply part2_sep.
    rewrite <- part1_app, after_words. symmetry. apply firstn_skipn. }
  apply app_inv_tail in E. exact E.
Qed.

Lemma CopyAfter_words from to n : words (written (CopyArgumentsAfter from to n)) =
  name_words to ++ firstn (Z.to_nat n) (arg_words from) ++ skipn (Z.to_nat n) (arg_words to).
Proof.
  cbn. rewrite !words_split.
  - rewrite identifier_words, part1_words, part2_words. reflexivity.
  - apply part2_sep.
  - apply sep_app; [apply part1_sep|apply part2_sep].
Qed.

(** Keep lists and colours. *)
Lemma copy_len_text fuel ch : forall arg F T,
  copy_len fuel ch arg F T = Z.of_nat (length (copy_text fuel ch arg F T)).
Proof.
  induction fuel; intros; cbn [copy_len copy_text]; [reflexivity|].
  destruct (_ || _); [|reflexivity]. rewrite app_length, IHfuel.
  destruct (ch _ _ _); lia.
Qed.
Lemma copy_choose_fits ch from to : allocated (copy_choose ch from to) =
  Z.of_nat (length (written (copy_choose ch from to))) + 1.
Proof. unfold copy_choose. cbn [allocated written]. rewrite copy_len_text. reflexivity. Qed.

Definition wf_rest (a : str) : Prop := sep a /\ tidy a.

Lemma tidy_suffix p a : a <> [] -> tidy (p ++ a) -> tidy a.
Proof. intros N T b c E. apply (T (p ++ b) c). rewrite E, app_assoc. reflexivity. Qed.
Lemma tidy_nil : tidy [].
Proof. intros b c E. destruct b; discriminate. Qed.
Lemma tidy_suffix' p a : tidy (p ++ a) -> tidy a.
Proof. destruct a; [intros; apply tidy_nil|]. apply tidy_suffix. discriminate. Qed.

Lemma tidy_words a : tidy a -> a <> [] -> words a <> [].
Proof.
  intros T N E. rewrite words_step in E. destruct (SkipSpace a) as [|c r] eqn:S; [|discriminate].
  destruct a as [|c a]; [congruence|]. apply SkipSpace_nil_ends in S.
  rewrite tidy_ends in S by auto. discriminate.
Qed.

(** One step of the iterator over the rest of the arguments. *)
Lemma it_step a : wf_rest a ->
  let i := Iter a (SkipWord a) in
  (it_bool i = negb (match a with [] => true | _ => false end)) /\
  words (it_text i) = [hd [126] (words a)] /\ sep (it_text i) /\
  wf_rest (SkipWord a) /\ words (SkipWord a) = tl (words a) /\
  (exists b, it_piece i = b ++ hd [] (words a) /\ Forall blank b) /\
  (a <> [] -> (length (SkipWord a) < length a)%nat).
Proof.
  intros [S T] i.
  assert (WF : wf_rest (SkipWord a)).
  { split; [apply SkipWord_sep|]. destruct (SkipWord_suffix a) as [p P]. rewrite P in T.
    eapply tidy_suffix'; eauto. }
  destruct a as [|c a].
  { cbn. repeat split; auto; try apply WF.
    - right. exists 32, [126]. split; [reflexivity|left; reflexivity].
    - exists []. split; [reflexivity|constructor].
    - congruence. }
  pose proof (SkipWord_len c a) as L.
  assert (B : it_bool i = true) by (unfold it_bool, i; cbn [it_start it_end]; apply negb_true_iff, Nat.eqb_neq; lia).
  destruct (SkipWord_suffix (c :: a)) as [p P].
  assert (PC : it_piece i = p).
  { unfold it_piece, i. cbn [it_start it_end]. apply firstn_prefix'. exact P. }
  assert (NE : words (c :: a) <> []) by (apply tidy_words; [auto|discriminate]).
  assert (WP : words p = [hd [126] (words (c :: a))]).
  { assert (E : words p ++ tl (words (c :: a)) = [hd [126] (words (c :: a))] ++ tl (words (c :: a))).
    { rewrite <- words_SkipWord. rewrite <- words_split by apply SkipWord_sep. rewrite <- P.
      rewrite words_SkipWord. destruct (words (c :: a)); [congruence|reflexivity]. }
    apply app_inv_tail in E. exact E. }
  split; [exact B|]. unfold it_text. rewrite B, PC. split; [exact WP|].
  split; [apply (prefix_sep _ (SkipWord (c :: a))); rewrite <- P; exact S|].
  split; [exact WF|]. split; [apply words_SkipWord|]. split; [|intros; exact L].
  (* blanks then the word *)
  destruct (SkipSpace_suffix (c :: a)) as [q Q].
  destruct (SkipSpace_hd (c :: a)) as [E|(d & r & E & D)].
  { rewrite words_step, E in NE. congruence. }
  exists q. split.
  - rewrite (words_step (c :: a)), E. cbn [hd].
    apply (app_inv_tail (SkipWord (c :: a))). rewrite <- P, <- app_assoc.
    unfold SkipWord at 1. rewrite E, <- take_skip. rewrite <- E. exact Q.
  - clear -Q E D. revert q Q. generalize (c :: a) as s. induction s as [|x s IH]; intros q Q.
    + destruct q; [constructor|discriminate].
    + cbn in Q. destruct (is_blank x) eqn:B.
      * destruct q as [|y q].
        -- cbn in Q. apply (f_equal (@length Z)) in Q. pose proof (SkipSpace_len s). cbn in Q. lia.
        -- cbn in Q. injection Q as -> Q. constructor; [apply is_blank_blank; auto|auto].
      * destruct q as [|y q]; [constructor|]. apply (f_equal (@length Z)) in Q.
        cbn in Q. rewrite app_length in Q. cbn in Q. lia.
Qed.

Lemma copy_text_spec ch : 
  (forall i bf f bt t, Forall blank bf -> Forall blank bt -> ch i (bf ++ f) (bt ++ t) = ch i f t) ->
  forall fuel arg a b, wf_rest a -> wf_rest b -> (length a + length b < fuel)%nat ->
  let r := copy_text fuel ch arg (Iter a (SkipWord a)) (Iter b (SkipWord b)) in
  words r = merge ch arg (Nat.max (length (words a)) (length (words b))) (words a) (words b) /\ sep r.
Proof.
  intros CH. induction fuel; intros arg a b WA WB L; [lia|].
  destruct (it_step a WA) as (A1 & A2 & A3 & A4 & A5 & (pa & A6 & A6') & A7).
  destruct (it_step b WB) as (B1 & B2 & B3 & B4 & B5 & (pb & B6 & B6') & B7).
  cbn zeta in *. cbn [copy_text]. rewrite A1, B1.
  destruct (negb match a with [] => true | _ => false end || negb match b with [] => true | _ => false end) eqn:E.
  2:{ destruct a, b; try discriminate. cbn. split; [reflexivity|left; reflexivity]. }
  rewrite A6, B6, CH by auto.
  specialize (IHfuel (arg + 1) (SkipWord a) (SkipWord b) A4 B4).
  assert (L' : (length (SkipWord a) + length (SkipWord b) < fuel)%nat).
  { destruct a as [|x a], b as [|y b]; try discriminate.
    - specialize (B7 ltac:(discriminate)). cbn in *. lia.
    - specialize (A7 ltac:(discriminate)). cbn in *. lia.
    - specialize (A7 ltac:(discriminate)). specialize (B7 ltac:(discriminate)). cbn in *. lia. }
  specialize (IHfuel L'). cbn zeta in IHfuel. destruct IHfuel as [I1 I2].
  unfold it_next. cbn [it_end].
  assert (K : exists k, Nat.max (length (words a)) (length (words b)) = S k /\
     Nat.max (length (words (SkipWord a))) (length (words (SkipWord b))) = k).
  { rewrite A5, B5. destruct (words a) as [|wa wsa] eqn:EA, (words b) as [|wb wsb] eqn:EB.
    - exfalso. destruct a as [|x a]; [|revert EA; apply tidy_words; [apply WA|discriminate]].
      destruct b as [|y b]; [discriminate|revert EB; apply tidy_words; [apply WB|discriminate]].
    - exists (length wsb). cbn. lia.
    - exists (length wsa). cbn. lia.
    - exists (Nat.max (length wsa) (length wsb)). cbn. lia. }
  destruct K as (k & K1 & K2). rewrite K1. cbn [merge].
  split.
  - rewrite words_split by exact I2. rewrite I1, K2, A5, B5.
    destruct (ch arg (hd [] (words a)) (hd [] (words b))); [rewrite B2|rewrite A2]; reflexivity.
  - apply sep_app; [|exact I2]. destruct (ch _ _ _); auto.
Qed.

Lemma copy_choose_words ch from to :
  (forall i bf f bt t, Forall blank bf -> Forall blank bt -> ch i (bf ++ f) (bt ++ t) = ch i f t) ->
  ch 0 (identifier from) (identifier to) = true ->
  tidy from -> tidy to -> words to <> [] ->
  words (written (copy_choose ch from to)) =
  name_words to ++ merge ch 1 (Nat.max (length (arg_words from)) (length (arg_words to)))
                         (arg_words from) (arg_words to).
Proof.
  intros CH C0 TF TT NE. unfold copy_choose. cbn [written].
  assert (WF : forall s, tidy s -> wf_rest (after_identifier s)).
  { intros s T. split; [apply after_sep|]. rewrite (identifier_app s) in T. eapply tidy_suffix'; eauto. }
  assert (PI : forall s, it_piece (it_begin s) = identifier s) by reflexivity.
  assert (BT : it_bool (it_begin to) = true).
  { unfold it_bool, it_begin. cbn [it_start it_end]. apply negb_true_iff, Nat.eqb_neq.
    assert (words (identifier to) <> []).
    { rewrite identifier_words. unfold name_words. rewrite id_words_spec.
      destruct (words to); [congruence|]. destruct (FirstWord to builtin_text); discriminate. }
    pose proof (f_equal (@length Z) (identifier_app to)) as LL. rewrite app_length in LL.
    destruct (identifier to); [cbn in H; congruence|]. cbn in LL. lia. }
  cbn [copy_text]. rewrite BT, orb_true_r. rewrite !PI, C0.
  unfold it_text. rewrite BT, PI. unfold it_next, it_begin. cbn [it_end].
  assert (L : (length (after_identifier from) + length (after_identifier to) < S (length from + length to))%nat).
  { pose proof (f_equal (@length Z) (identifier_app to)) as L1. rewrite app_length in L1.
    pose proof (f_equal (@length Z) (identifier_app from)) as L2. rewrite app_length in L2. lia. }
  assert (L2 : (length (after_identifier from) + length (after_identifier to) < length from + length to)%nat).
  { pose proof (f_equal (@length Z) (identifier_app to)) as L1. rewrite app_length in L1.
    pose proof (f_equal (@length Z) (identifier_app from)) as L3. rewrite app_length in L3.
    unfold it_bool, it_begin in BT. cbn [it_start it_end] in BT. apply negb_true_iff, Nat.eqb_neq in BT. lia. }
  destruct (copy_text_spec ch CH _ 1 _ _ (WF from TF) (WF to TT) L2) as [W S].
  cbn zeta in W, S. change (0 + 1) with 1.
  rewrite words_split by exact S. rewrite W, identifier_words, !after_words. reflexivity.
Qed.

Lemma contains_app c a b : contains c (a ++ b) = contains c a || contains c b.
Proof. unfold contains. apply existsb_app. Qed.
Lemma contains_blank b : Forall blank b -> contains 44 b = false.
Proof.
  intros F. induction F as [|x l H F IH]; [reflexivity|]. unfold contains in *. cbn [existsb].
  rewrite IH. destruct H; subst; reflexivity.
Qed.

Lemma Copy_all from to : fits (CopyArguments from to) /\
  words (written (CopyArguments from to)) = name_words to ++ arg_words from.
Proof. split; [unfold fits; rewrite Copy_fits; lia|apply Copy_words]. Qed.

Lemma CopyAfter_overflow : exists from to n, 0 <= n /\ ~ fits (CopyArgumentsAfter from to n).
Proof.
  exists [97; 32; 49], [98; 98; 98; 98; 98; 98; 98; 98; 32; 50], 1. split; [lia|].
  unfold fits. vm_compute. intros H. apply H. reflexivity.
Qed.
Lemma CopyAfter_position : exists from to n,
  nth_error (arg_words to) n <> None /\
  nth_error (arg_words (written (CopyArgumentsAfter from to (Z.of_nat n)))) n <>
  nth_error (arg_words to) n.
Proof.
  exists [97], [98; 32; 49; 32; 50], 1%nat. vm_compute. split; discriminate.
Qed.

Lemma merge_ext c1 c2 : forall k i f t, 1 <= i -> (forall j a b, 1 <= j -> c1 j a b = c2 j a b) ->
  merge c1 i k f t = merge c2 i k f t.
Proof.
  induction k; intros i f t I E; [reflexivity|]. cbn [merge]. rewrite E by auto.
  f_equal. apply IHk; [lia|auto].
Qed.

Lemma CopyKeep_all from to args : tidy from -> tidy to -> words to <> [] ->
  let r := CopyArgumentsKeep from to args in
  fits r /\
  words (written r) = name_words to ++
    merge (fun i _ _ => existsb (Z.eqb i) args) 1
          (Nat.max (length (arg_words from)) (length (arg_words to))) (arg_words from) (arg_words to).
Proof.
  intros TF TT NE r. split; [unfold fits, r, CopyArgumentsKeep; rewrite copy_choose_fits; lia|].
  unfold r, CopyArgumentsKeep. rewrite copy_choose_words by auto. f_equal.
  apply merge_ext; [lia|]. intros j _ _ J. unfold keep. destruct (j =? 0) eqn:E; [lia|reflexivity].
Qed.

Lemma contains_words s : contains 44 s = existsb (contains 44) (words s).
Proof.
  induction s as [|c s IH]; [reflexivity|]. unfold contains in *. cbn [existsb words].
  destruct (blankb c) eqn:B.
  - rewrite IH. destruct (44 =? c) eqn:E; [|reflexivity]. unfold blankb in B. lia.
  - destruct s as [|d s]; [cbn; rewrite !orb_false_r; reflexivity|].
    destruct (blankb d) eqn:D.
    + rewrite IH. cbn. rewrite orb_false_r. reflexivity.
    + rewrite IH. destruct (words_nonempty d s) as (w & ws & E); [rewrite blankb_is_blank; auto|].
      rewrite E. cbn [existsb]. rewrite orb_assoc. reflexivity.
Qed.

Lemma CopyColor_all from to : tidy from -> tidy to -> words to <> [] ->
  (forall w, In w (name_words from ++ name_words to) -> ~ In 44 w) ->
  let r := CopyColorArguments from to in
  fits r /\
  words (written r) = name_words to ++
    merge (fun _ f t => negb (contains 44 f || contains 44 t)) 1
          (Nat.max (length (arg_words from)) (length (arg_words to))) (arg_words from) (arg_words to).
Proof.
  intros TF TT NE NC r. split; [unfold fits, r, CopyColorArguments; rewrite copy_choose_fits; lia|].
  unfold r, CopyColorArguments. apply copy_choose_words; auto.
  - intros i bf f bt t F1 F2. rewrite !contains_app, (contains_blank bf), (contains_blank bt) by auto. reflexivity.
  - assert (C : forall s, (forall w, In w (name_words s) -> ~ In 44 w) -> contains 44 (identifier s) = false).
    { intros s H. rewrite contains_words, identifier_words.
      destruct (existsb (contains 44) (name_words s)) eqn:E; [|reflexivity].
      apply existsb_exists in E as (w & W & E). exfalso. apply (H w W).
      apply existsb_exists in E as (c & I & E). apply Z.eqb_eq in E. subst c. exact I. }
    rewrite !C; [reflexivity| |]; intros w W; apply NC; apply in_or_app; auto.
Qed.

Lemma SetArgument_overflow : exists table s st n v garbage,
  table_ok table /\ tidy s /\ FindStyle table s = Some st /\ settable st n /\ arg_text v /\
  SetArgument table s n v garbage = SetOverflow.
Proof.
  exists [([120], Plain [])], [120], (Plain []), 1, (repeat 65 511), [].
  assert (W : forall c, c <> 32 -> c <> 9 -> ~ blank c) by (intros c ? ? [?|?]; congruence).
  split. { constructor; [|constructor]. cbn. split; [split; [discriminate|]|constructor].
    constructor; [apply W; discriminate|constructor]. }
  split. { intros a c E. destruct a as [|? [|? ?]]; cbn in E; inversion E; subst. apply W; discriminate. }
  split; [reflexivity|]. split; [cbn; lia|].
  split; [|vm_compute; reflexivity].
  split; [|cbn; discriminate]. split; [discriminate|]. apply Forall_forall. intros x I.
  apply repeat_spec in I. subst. apply W; discriminate.
Qed.

Lemma SetArgument_trailing_blank : exists table s st n v r,
  table_ok table /\ FindStyle table s = Some st /\ settable st n /\ arg_text v /\
  SetArgument table s n v [] = SetOk r /\ GetArgument table r n <> (true, Some v).
Proof.
  exists [([120], Plain [])], [120; 32; 97; 32], (Plain []), 3, [118], [120; 32; 97; 32; 32; 118].
  assert (W : forall c, c <> 32 -> c <> 9 -> ~ blank c) by (intros c ? ? [?|?]; congruence).
  split. { constructor; [|constructor]. cbn. split; [split; [discriminate|]|constructor].
    constructor; [apply W; discriminate|constructor]. }
  split; [reflexivity|]. split; [cbn; lia|].
  split. { split; [|cbn; discriminate]. split; [discriminate|]. constructor; [apply W; discriminate|constructor]. }
  split; [reflexivity|]. vm_compute. discriminate.
Qed.
