From Coq Require Import ZArith List Bool Lia ZifyBool ZifyNat.
From Verif Require Import StrModel StrSpec StrProofs FileModel FileSpec FileProofs ConfigModel ConfigSpec.
Import ListNotations.
Open Scope Z_scope.

Lemma whiteb c : white c -> (c =? SP) || (c =? TAB) || (c =? LF) || (c =? CR) = true.
Proof. unfold white, SP, TAB, LF, CR. lia. Qed.
Lemma nwhiteb c : ~ white c -> c <> 10 -> (c =? SP) || (c =? TAB) || (c =? LF) || (c =? CR) = false.
Proof. unfold white, SP, TAB, LF, CR. lia. Qed.

Lemma skipwhite_app ws r : Forall white ws -> skipwhite (ws ++ r) = skipwhite r.
Proof.
  intros F. induction F as [|c ws C F IH]; [reflexivity|]. cbn [app skipwhite].
  rewrite (whiteb c C). exact IH.
Qed.
Lemma skipwhite_LF r : skipwhite (LF :: r) = skipwhite r.
Proof. reflexivity. Qed.
Lemma skipwhite_stop c r : ~ white c -> c <> 10 -> skipwhite (c :: r) = c :: r.
Proof. intros W N. cbn [skipwhite]. rewrite (nwhiteb c W N). reflexivity. Qed.
Lemma skipwhite_space r : skipwhite (skipspace r) = skipwhite r.
Proof.
  induction r as [|c r IH]; [reflexivity|]. cbn [skipspace skipwhite].
  destruct ((c =? SP) || (c =? TAB)) eqn:E; [cbn [orb]; exact IH|].
  cbn [skipwhite]. rewrite E. reflexivity.
Qed.
Lemma name_letter_char c : name_letter c <-> name_char (toLower c) = true.
Proof. unfold name_letter, name_char, toLower, is_digit. split; intros; dif; lia. Qed.
Lemma name_letter_ch c : name_letter c -> name_char (toLower c) = true.
Proof. apply name_letter_char. Qed.
Lemma name_letter_plain c : name_letter c -> ~ white c /\ c <> 10 /\ c <> 35 /\ c <> 61.
Proof. unfold name_letter, white. lia. Qed.
Lemma lower_toLower s : map toLower s = lower_str s.
Proof. apply map_ext. apply toLower_lower. Qed.

Lemma var_name_ok n : n <> [] -> (length n <= 32)%nat -> Forall name_letter n -> name_ok n.
Proof.
  intros N L F. repeat split; auto. eapply Forall_impl; [|exact F]. apply name_letter_ch.
Qed.

Lemma list_eqb_spec a b : list_eqb a b = true <-> a = b.
Proof. unfold list_eqb. destruct (list_eq_dec Z.eq_dec a b); split; congruence. Qed.
Lemma list_eqb_false a b : a <> b -> list_eqb a b = false.
Proof. intros N. unfold list_eqb. destruct (list_eq_dec Z.eq_dec a b); congruence. Qed.

Lemma lower_end : lower_str txt_end = txt_end. Proof. reflexivity. Qed.
Lemma lower_installed : lower_str txt_installed = txt_installed. Proof. reflexivity. Qed.

(** One step of the loop on "ws name ws1 = rest". *)
Lemma white_not_name c : white c \/ c = 61 -> name_char (toLower c) = false.
Proof. unfold white, name_char, toLower, is_digit. intros; dif; lia. Qed.
Lemma peek_ws ws r : Forall white ws -> name_char (toLower (peek (ws ++ EQS :: r))) = false.
Proof. intros F. destruct F as [|c ws C F]; apply white_not_name; [right; reflexivity|left; exact C]. Qed.

Definition step_assign n install vs name f vals :=
  let f := skipwhite f in
  if list_eqb name txt_installed then
    match expect install f with
    | None => (READ_FAIL, vals)
    | Some f => read_lines n install vs (skipline f) vals
    end
  else let (v, f) := readFloatValue f in
       read_lines n install vs (skipline f) (SetVariable vs vals name v).

Lemma read_assign n install vs ws name ws1 r vals :
  Forall white ws -> Forall white ws1 -> name_ok name -> lower_str name <> txt_end ->
  read_lines (S n) install vs (ws ++ name ++ ws1 ++ [EQS] ++ r) vals =
  step_assign n install vs (lower_str name) r vals.
Proof.
  intros W W1 N NE. pose proof N as (N1 & N2 & N3).
  assert (S1 : skipwhite (ws ++ name ++ ws1 ++ [EQS] ++ r) = name ++ ws1 ++ [EQS] ++ r).
  { rewrite skipwhite_app by auto. destruct name as [|c name]; [congruence|].
    cbn [app]. inversion N3; subst. apply name_char_nospace in H1.
    apply skipwhite_stop; unfold white, SP, TAB, LF, CR in *; lia. }
  assert (NEmpty : exists c0 r0, ws ++ name ++ ws1 ++ [EQS] ++ r = c0 :: r0).
  { destruct ws as [|x ws]; [|cbn [app]; eauto]. destruct name; [congruence|]. cbn [app]; eauto. }
  destruct NEmpty as (c0 & r0 & NEmpty).
  cbn [read_lines]. rewrite NEmpty. rewrite <- NEmpty. rewrite S1.
  assert (PH : peek (name ++ ws1 ++ [EQS] ++ r) =? HASH = false).
  { destruct name as [|c name]; [congruence|]. inversion N3; subst. apply name_char_nospace in H1.
    cbn [app peek]. lia. }
  rewrite PH. cbn [app]. rewrite readVariable_name by (auto; apply peek_ws; auto).
  rewrite lower_toLower. rewrite list_eqb_false by auto.
  rewrite skipwhite_space, skipwhite_app by auto.
  rewrite (skipwhite_stop EQS r) by (unfold white, EQS; lia).
  cbn [peek]. change (negb (EQS =? EQS)) with false. cbv iota. cbn [tl]. reflexivity.
Qed.

(** Numbers *)
Lemma read_number n rest : number_ok n ->
  (match rest with [] => True | c :: _ => ~ 48 <= c <= 57 /\ c <> 46 end) ->
  readFloatValue (number_text n ++ rest) = (number_value n, rest).
Proof.
  intros [[N D] F] R. unfold readFloatValue, number_text, number_value.
  assert (G : read_float ((ipart n ++ match fpart n with Some f => 46 :: f | None => [] end) ++ rest) 0 None =
     (Dec (digits_value (ipart n ++ match fpart n with Some f => f | None => [] end))
          (match fpart n with Some f => length f | None => 0%nat end), rest)).
  { rewrite <- app_assoc. rewrite read_float_digits by auto. fold (digits_value (ipart n)).
    destruct (fpart n) as [f|].
    - cbn [app read_float]. change (is_digit 46) with false. change (46 =? 46) with true. cbv iota.
      rewrite read_float_digits by auto. unfold digits_value. rewrite fold_left_app. cbn [Nat.add].
      destruct rest as [|c rest]; [reflexivity|]. cbn [read_float]. unfold is_digit.
      destruct ((48 <=? c) && (c <=? 57)) eqn:E1; [lia|]. destruct (c =? 46) eqn:E2; [lia|]. reflexivity.
    - rewrite app_nil_r. cbn [app]. destruct rest as [|c rest]; [reflexivity|]. cbn [read_float]. unfold is_digit.
      destruct ((48 <=? c) && (c <=? 57)) eqn:E1; [lia|]. destruct (c =? 46) eqn:E2; [lia|]. reflexivity. }
  destruct (minus n).
  - cbn [app peek tl]. rewrite Z.eqb_refl. cbn [app] in G. rewrite G. reflexivity.
  - cbn [app]. destruct (ipart n) as [|c ds]; [congruence|]. inversion D; subst. cbn [app peek].
    destruct (c =? 45) eqn:E; [lia|]. cbn [app] in G. exact G.
Qed.

Lemma number_head n : number_ok n -> exists c r, number_text n = c :: r /\ ~ white c /\ c <> 10 /\
  in_line (number_text n).
Proof.
  intros [[N D] F]. 
  assert (IL : in_line (number_text n)).
  { unfold in_line, number_text. apply Forall_app. split; [destruct (minus n); repeat constructor; lia|].
    apply Forall_app. split; [eapply Forall_impl; [|exact D]; cbn; lia|].
    destruct (fpart n); constructor; [lia|]. eapply Forall_impl; [|exact F]. cbn. lia. }
  destruct (number_text n) as [|c r] eqn:E.
  - unfold number_text in E. destruct (minus n), (ipart n); cbn in E; congruence.
  - exists c, r. split; [reflexivity|]. unfold number_text in E.
    assert (c = 45 \/ 48 <= c <= 57).
    { destruct (minus n); cbn in E; [left; congruence|].
      destruct (ipart n); [congruence|]. cbn in E. inversion D; subst. right. congruence. }
    unfold white. split; [lia|]. split; [lia|exact IL].
Qed.

(** The whole file *)
Definition upd (vs : vars) (vals : list dec) (ls : list line) : list dec :=
  map (fun x => match last_value (fst (fst x)) ls with Some v => v | None => snd x end) (combine vs vals).

Lemma combine_map_r {A B} (f : A * B -> B) : forall (l : list A) (m : list B),
  combine l (map f (combine l m)) = map (fun x => (fst x, f x)) (combine l m).
Proof. induction l; intros [|b m]; cbn; [reflexivity..|]. f_equal. apply IHl. Qed.

Lemma upd_cons vs vals l ls : upd vs vals (l :: ls) =
  upd vs (map (fun x => match assigns (fst (fst x)) l with Some v => v | None => snd x end) (combine vs vals)) ls.
Proof.
  unfold upd. rewrite combine_map_r, map_map. apply map_ext. intros [[n d] x]. cbn [fst snd last_value].
  destruct (last_value n ls); reflexivity.
Qed.
Lemma upd_skip vs vals l ls : length vals = length vs -> (forall n, assigns n l = None) ->
  upd vs vals (l :: ls) = upd vs vals ls.
Proof.
  intros L N. rewrite upd_cons. f_equal.
  revert vals L. induction vs; intros [|v vals] L; try discriminate; [reflexivity|].
  cbn. rewrite N. f_equal. apply IHvs. cbn in L. lia.
Qed.

Lemma SetVariable_upd vs vals ws n ws1 ws2 v rest :
  SetVariable vs vals (lower_str n) (number_value v) =
  map (fun x => match assigns (fst (fst x)) (LAssign ws n ws1 ws2 v rest) with Some v => v | None => snd x end)
      (combine vs vals).
Proof.
  unfold SetVariable. apply map_ext. intros [[m d] x]. cbn [fst snd assigns].
  destruct (sp_eq m (lower_str n)) eqn:E.
  - destruct (sp_dictionary m (lower_str n)) as [H _]. apply H in E. unfold same_nocase in E.
    assert (I : lower_str (lower_str n) = lower_str n).
    { unfold lower_str. rewrite map_map. apply map_ext. intros c. unfold lower. dif; lia. }
    rewrite I in E. destruct (list_eq_dec _ _ _); congruence.
  - destruct (list_eq_dec _ _ _) as [e|]; [|reflexivity].
    destruct (sp_dictionary m (lower_str n)) as [H _]. exfalso.
    assert (sp_eq m (lower_str n) = true).
    { apply H. unfold same_nocase. rewrite <- e. unfold lower_str. rewrite map_map.
      symmetry. apply map_ext. intros c. unfold lower. dif; lia. }
    congruence.
Qed.

Lemma upd_length vs vals ls : length vals = length vs -> length (upd vs vals ls) = length vs.
Proof. intros L. unfold upd. rewrite map_length, combine_length. lia. Qed.

Lemma skipline_line a r : in_line a -> skipline (a ++ 10 :: r) = r.
Proof. apply skipline_app. Qed.

Lemma white_in_line ws : Forall white ws -> in_line ws.
Proof. intros F. eapply Forall_impl; [|exact F]. unfold white. cbn. lia. Qed.

Lemma read_blank fuel install vs ws f vals : Forall white ws -> (length f <= fuel)%nat ->
  read_lines (S fuel) install vs (ws ++ LF :: f) vals = read_lines (S fuel) install vs f vals.
Proof.
  intros W L. assert (exists c r, ws ++ LF :: f = c :: r) as (c & r & E) by (destruct ws; cbn; eauto).
  cbn [read_lines]. rewrite E. rewrite <- E. rewrite skipwhite_app, skipwhite_LF by auto.
  destruct f as [|d f]; [|reflexivity]. cbn. destruct fuel; reflexivity.
Qed.

Lemma read_lines_text install vs : install_ok install -> forall ls fuel tail vals,
  Forall line_ok ls -> length vals = length vs ->
  (length (file_text install ls ++ tail) <= fuel)%nat ->
  exists fuel', (length tail <= fuel')%nat /\
  read_lines fuel install vs (file_text install ls ++ tail) vals =
  read_lines fuel' install vs tail (upd vs vals ls).
Proof.
  intros IO. induction ls as [|l ls IH]; intros fuel tail vals F LV LF'.
  { exists fuel. split; [exact LF'|]. cbn [file_text flat_map app]. f_equal.
    unfold upd. cbn [last_value]. clear -LV. revert vals LV.
    induction vs; intros [|v vals] L; try discriminate; [reflexivity|]. cbn. f_equal. apply IHvs. cbn in L. lia. }
  inversion F as [|? ? OK F']; subst.
  cbn [file_text flat_map] in LF' |- *. fold (file_text install ls) in LF' |- *.
  rewrite <- !app_assoc in LF' |- *. cbn [app] in LF' |- *.
  set (R := file_text install ls ++ tail) in *.
  assert (LR : (length R < fuel)%nat) by (rewrite app_length in LF'; cbn in LF'; lia).
  destruct fuel as [|fuel]; [lia|].
  destruct l as [ws|ws body|ws c body|ws name ws1 ws2 n rest|ws ws1 ws2 rest]; cbn [line_ok line_text] in OK, LF' |- *.
  - rewrite read_blank by (auto; lia). rewrite upd_skip by auto.
    destruct (IH (S fuel) tail vals F' LV) as (fuel' & L1 & E1); [fold R; lia|].
    exists fuel'. split; [exact L1|]. exact E1.
  - destruct OK as [W B].
    assert (E : read_lines (S fuel) install vs ((ws ++ 35 :: body) ++ 10 :: R) vals = read_lines fuel install vs R vals).
    { rewrite <- app_assoc. cbn [app].
      assert (exists c r, ws ++ 35 :: body ++ 10 :: R = c :: r) as (c & r & E) by (destruct ws; cbn; eauto).
      cbn [read_lines]. rewrite E. rewrite <- E. rewrite skipwhite_app by auto.
      rewrite skipwhite_stop by (unfold white; lia). cbn [peek]. change (35 =? HASH) with true. cbv iota.
      f_equal. change (35 :: body ++ 10 :: R) with ((35 :: body) ++ 10 :: R). apply skipline_line.
      constructor; [lia|auto]. }
    rewrite E. rewrite upd_skip by auto. apply (IH fuel tail vals F' LV). fold R. lia.
  - destruct OK as (W & B & C1 & C2 & C3 & C4 & C5).
    assert (E : read_lines (S fuel) install vs ((ws ++ c :: body) ++ 10 :: R) vals = read_lines fuel install vs R vals).
    { rewrite <- app_assoc. cbn [app].
      assert (exists c0 r, ws ++ c :: body ++ 10 :: R = c0 :: r) as (c0 & r & E) by (destruct ws; cbn; eauto).
      assert (NC : name_char (toLower c) = false).
      { destruct (name_char (toLower c)) eqn:X; [|reflexivity]. exfalso. apply C3. apply name_letter_char. exact X. }
      cbn [read_lines]. rewrite E. rewrite <- E. rewrite skipwhite_app by auto.
      rewrite skipwhite_stop by auto. cbn [peek]. unfold HASH. replace (c =? 35) with false by lia.
      unfold readVariable. cbn [skipspace].
      replace ((c =? SP) || (c =? TAB)) with false by (unfold white, SP, TAB in *; lia).
      cbn [read_name]. rewrite NC. cbn [skipspace].
      replace ((c =? SP) || (c =? TAB)) with false by (unfold white, SP, TAB in *; lia).
      change (list_eqb [] txt_end) with false. cbv iota. rewrite skipwhite_stop by auto. cbn [peek].
      unfold EQS. replace (c =? 61) with false by lia. cbv iota. cbn [negb].
      f_equal. change (c :: body ++ 10 :: R) with ((c :: body) ++ 10 :: R). apply skipline_line.
      constructor; auto. }
    rewrite E. rewrite upd_skip by auto. apply (IH fuel tail vals F' LV). fold R. lia.
  - destruct OK as (W & W1 & W2 & (N1 & N2 & N3 & N4 & N5) & NO & IL & RH).
    assert (E : read_lines (S fuel) install vs ((ws ++ name ++ ws1 ++ [61] ++ ws2 ++ number_text n ++ rest) ++ 10 :: R) vals =
       read_lines fuel install vs R (SetVariable vs vals (lower_str name) (number_value n))).
    { rewrite <- !app_assoc. change [61] with [EQS].
      rewrite read_assign; auto using var_name_ok.
      unfold step_assign. rewrite skipwhite_app by auto.
      destruct (number_head n NO) as (c & r & NH & C1 & C2 & _).
      assert (S1 : skipwhite (number_text n ++ rest ++ 10 :: R) = number_text n ++ rest ++ 10 :: R).
      { rewrite NH. cbn [app]. apply skipwhite_stop; auto. }
      cbv zeta. rewrite S1. rewrite list_eqb_false by auto.
      rewrite (read_number n (rest ++ 10 :: R) NO).
      - rewrite skipline_line by auto. reflexivity.
      - destruct rest; cbn [app]; [lia|exact RH]. }
    rewrite E. rewrite (SetVariable_upd vs vals ws name ws1 ws2 n rest).
    rewrite upd_cons. apply (IH fuel); auto.
    + rewrite map_length, combine_length. lia.
    + fold R. lia.
  - destruct OK as (W & W1 & W2 & IL). destruct IO as (I1 & I2 & I3).
    assert (E : read_lines (S fuel) install vs ((ws ++ txt_installed ++ ws1 ++ [61] ++ ws2 ++ install ++ rest) ++ 10 :: R) vals =
       read_lines fuel install vs R vals).
    { rewrite <- !app_assoc. change [61] with [EQS].
      rewrite read_assign; auto; [|repeat split; [discriminate|cbn; lia|repeat constructor]|discriminate].
      unfold step_assign. rewrite skipwhite_app by auto. cbv zeta.
      assert (S1 : skipwhite (install ++ rest ++ 10 :: R) = install ++ rest ++ 10 :: R).
      { destruct install as [|c i]; [contradiction|]. cbn [app]. inversion I1; subst. apply skipwhite_stop; auto. }
      rewrite S1. rewrite (proj2 (list_eqb_spec _ _)) by reflexivity. rewrite expect_app.
      rewrite skipline_line by auto. reflexivity. }
    rewrite E. rewrite upd_skip by auto. apply (IH fuel tail vals F' LV). fold R. lia.
Qed.

(** "end" stops reading. *)
Definition end_line (ws rest : list Z) : list Z := ws ++ txt_end ++ rest.
Lemma read_end fuel install vs ws rest vals : Forall white ws ->
  (match rest with [] => True | c :: _ => ~ name_letter c end) -> (0 < fuel)%nat ->
  read_lines fuel install vs (end_line ws rest) vals = (READ_END, vals).
Proof.
  intros W R L. destruct fuel as [|fuel]; [lia|]. unfold end_line.
  assert (exists c r, ws ++ txt_end ++ rest = c :: r) as (c & r & E) by (destruct ws; cbn; eauto).
  cbn [read_lines]. rewrite E. rewrite <- E. rewrite skipwhite_app by auto.
  change (skipwhite (txt_end ++ rest)) with (txt_end ++ rest).
  change (peek (txt_end ++ rest) =? HASH) with false. cbv iota.
  rewrite readVariable_name.
  - change (list_eqb (map toLower txt_end) txt_end) with true. reflexivity.
  - repeat split; [discriminate|cbn; lia|repeat constructor].
  - destruct rest as [|d rest]; [reflexivity|]. cbn [peek].
    destruct (name_char (toLower d)) eqn:X; [|reflexivity]. exfalso. apply R. apply name_letter_char. exact X.
Qed.

Lemma upd_defaults vs ls : upd vs (Defaults vs) ls = map (value_after ls) vs.
Proof.
  unfold upd, Defaults, value_after. induction vs as [|[n d] vs IH]; [reflexivity|]. cbn. f_equal. exact IH.
Qed.

Lemma Read_file install vs ls : install_ok install -> Forall line_ok ls ->
  Read install vs (file_text install ls) (Defaults vs) = (READ_OK, map (value_after ls) vs).
Proof.
  intros I F. unfold Read.
  destruct (read_lines_text install vs I ls (length (file_text install ls)) [] (Defaults vs) F) as (k & _ & E).
  - unfold Defaults. apply map_length.
  - rewrite app_nil_r. lia.
  - rewrite app_nil_r in E. rewrite E, upd_defaults. destruct k; reflexivity.
Qed.

Lemma Read_file_end install vs ls ws rest : install_ok install -> Forall line_ok ls ->
  Forall white ws -> (match rest with [] => True | c :: _ => ~ name_letter c end) ->
  Read install vs (file_text install ls ++ ws ++ txt_end ++ rest) (Defaults vs) =
  (READ_END, map (value_after ls) vs).
Proof.
  intros I F W R. unfold Read. fold (end_line ws rest).
  destruct (read_lines_text install vs I ls (length (file_text install ls ++ end_line ws rest))
     (end_line ws rest) (Defaults vs) F) as (k & K & E).
  - unfold Defaults. apply map_length.
  - lia.
  - rewrite E, upd_defaults. apply read_end; auto.
    unfold end_line in K. rewrite !app_length in K. cbn in K. lia.
Qed.

(** Reading back what was written. *)
Definition float_number (d : dec) : number :=
  let h := floor_times d 100 in
  Number false (digits (h / 100)) (Some (digits ((h / 10) mod 10) ++ digits (h mod 10))).

Lemma float_number_text d : 0 <= mant d -> float_text d = number_text (float_number d).
Proof.
  intros M. destruct (floor_chain d M) as (F1 & F10 & F100).
  unfold float_text, float_number, number_text. cbn [minus ipart fpart app].
  remember (floor_times d 100) as h.
  assert (A1 : 0 <= floor_times d 1) by (rewrite F1; apply Z.div_pos; lia).
  assert (A2 : 0 <= floor_times d 10) by (rewrite F10; apply Z.div_pos; lia).
  rewrite !Z.rem_mod_nonneg by lia. rewrite F10, F1.
  pose proof (Z.mod_pos_bound (h / 10) 10 ltac:(lia)). pose proof (Z.mod_pos_bound h 10 ltac:(lia)).
  unfold itoa. replace (h / 100 <? 0) with false by lia.
  replace ((h / 10) mod 10 <? 0) with false by lia. replace (h mod 10 <? 0) with false by lia. reflexivity.
Qed.
Lemma float_number_ok d : 0 <= mant d -> number_ok (float_number d).
Proof.
  intros M. destruct (floor_chain d M) as (_ & _ & F100). unfold float_number, number_ok. cbn [ipart fpart].
  remember (floor_times d 100) as h.
  pose proof (Z.mod_pos_bound (h / 10) 10 ltac:(lia)). pose proof (Z.mod_pos_bound h 10 ltac:(lia)).
  assert (0 <= h / 100) by (apply Z.div_pos; lia).
  split; [apply digits_spec; auto|].
  apply Forall_app. split; apply digits_spec; lia.
Qed.
Lemma float_number_value d : 0 <= mant d -> number_value (float_number d) = two_decimals d.
Proof.
  intros M. pose proof (read_float_text d [] M I ltac:(discriminate)) as A.
  pose proof (read_number (float_number d) [] (float_number_ok d M) I) as B.
  rewrite <- float_number_text in B by auto. rewrite A in B. congruence.
Qed.

Lemma escape_id s : Forall (fun c => c <> LF /\ c <> TAB /\ c <> BSL) s -> escape s = s.
Proof.
  intros F. induction F as [|c s C F IH]; [reflexivity|]. cbn [escape].
  unfold LF, TAB, BSL in *. replace (c =? 10) with false by lia. replace (c =? 9) with false by lia.
  replace (c =? 92) with false by lia. cbn [app]. f_equal. exact IH.
Qed.

Definition saved_line (x : (list Z * dec) * dec) : line :=
  LAssign [] (fst (fst x)) [] [] (float_number (snd x)) [].

Lemma digits_ok_chars d : 0 <= mant d -> Forall (fun c => c <> LF /\ c <> TAB /\ c <> BSL) (number_text (float_number d)).
Proof.
  intros M. destruct (float_number_ok d M) as [[_ D] F]. unfold number_text.
  assert (X : forall l, Forall (fun c => 48 <= c <= 57) l -> Forall (fun c => c <> LF /\ c <> TAB /\ c <> BSL) l).
  { intros l H. eapply Forall_impl; [|exact H]. unfold LF, TAB, BSL. cbn. lia. }
  apply Forall_app. split; [cbn; constructor|]. apply Forall_app. split; [auto|].
  cbn [fpart float_number]. constructor; [unfold LF, TAB, BSL; lia|]. apply X. exact F.
Qed.

Lemma config_text_lines install vs vals : install_ok install -> Forall (fun d => 0 <= mant d) vals ->
  config_text install vs vals =
  file_text install (LInstalled [] [] [] [] :: map saved_line (combine vs vals)) ++ [] ++ txt_end ++ [61; 49; 10].
Proof.
  intros (I1 & I2 & _) V. unfold config_text. cbn [file_text flat_map line_text]. cbn [app].
  unfold write_key_value at 1. rewrite escape_id.
  2:{ clear V. induction install as [|c i IH]; constructor; inversion I1; inversion I2; subst; unfold LF, TAB, BSL; [lia|auto]. }
  rewrite app_nil_r, <- !app_assoc. cbn [app]. f_equal. f_equal. f_equal. f_equal.
  f_equal.
  clear I1 I2. revert vals V. induction vs as [|[n d] vs IH]; intros [|v vals] V; try reflexivity.
  inversion V; subst. cbn [combine flat_map map]. rewrite IH by auto. f_equal.
  cbn [fst snd saved_line line_text app]. unfold write_key_float, write_key_value.
  rewrite float_number_text by auto. rewrite escape_id by (apply digits_ok_chars; auto).
  rewrite app_nil_r, <- app_assoc. reflexivity.
Qed.

Lemma last_value_saved vs : NoDup (map (fun v : list Z * dec => lower_str (fst v)) vs) -> forall vals x,
  In x (combine vs vals) -> Forall (fun d => 0 <= mant d) vals ->
  last_value (fst (fst x)) (map saved_line (combine vs vals)) = Some (two_decimals (snd x)).
Proof.
  intros ND. induction vs as [|[n d] vs IH]; intros [|v vals] x I V; try destruct I.
  - subst x. inversion V; subst. inversion ND; subst. cbn [combine map last_value fst snd].
    assert (N : last_value n (map saved_line (combine vs vals)) = None).
    { clear -H3. revert vals. induction vs as [|[m e] vs IH]; intros [|v vals]; try reflexivity.
      cbn [combine map last_value]. rewrite IH.
      - cbn [assigns saved_line fst snd]. destruct (list_eq_dec _ _ _) as [E|]; [|reflexivity]. exfalso. apply H3. left. exact E.
      - intros X. apply H3. right. exact X. }
    rewrite N. cbn [assigns saved_line fst snd]. destruct (list_eq_dec _ _ _); [|congruence]. rewrite float_number_value by auto. reflexivity.
  - inversion V; subst. inversion ND; subst. cbn [combine map last_value].
    rewrite (IH H5 vals x H H3). reflexivity.
Qed.

Lemma saved_ok vs vals : vars_ok vs -> Forall (fun d => 0 <= mant d) vals ->
  Forall line_ok (LInstalled [] [] [] [] :: map saved_line (combine vs vals)).
Proof.
  intros [VN _] V. constructor; [cbn; repeat split; constructor|].
  apply Forall_forall. intros l L. apply in_map_iff in L as ([[n d] x] & <- & I).
  pose proof (in_combine_l _ _ _ _ I) as I1. pose proof (in_combine_r _ _ _ _ I) as I2.
  rewrite Forall_forall in VN, V. specialize (VN _ I1). specialize (V _ I2).
  cbn [saved_line line_ok fst snd]. split; [constructor|]. split; [constructor|]. split; [constructor|].
  split; [exact VN|]. split; [apply float_number_ok; auto|]. split; [constructor|exact Logic.I].
Qed.

Lemma config_round_trip install vs vals junk : install_ok install -> vars_ok vs ->
  length vals = length vs -> Forall (fun d => 0 <= mant d) vals ->
  Read install vs (config_text install vs vals ++ junk) (Defaults vs) =
  (READ_END, map two_decimals vals).
Proof.
  intros IO VO L V. rewrite config_text_lines by auto.
  rewrite <- !app_assoc.
  change ([] ++ txt_end ++ [61; 49; 10] ++ junk) with (([] : list Z) ++ txt_end ++ ([61; 49; 10] ++ junk)).
  rewrite Read_file_end; auto using saved_ok.
  2:{ cbn. unfold name_letter. lia. }
  f_equal. destruct VO as [_ ND].
  assert (G : forall x, In x (combine vs vals) -> value_after (LInstalled [] [] [] [] :: map saved_line (combine vs vals)) (fst x) = two_decimals (snd x)).
  { intros x X. unfold value_after. cbn [last_value].
    rewrite (last_value_saved vs ND vals x X V). reflexivity. }
  remember (value_after _) as g. clear Heqg ND.
  revert vals L V G. induction vs as [|a vs IH]; intros [|v vals] L V G; try discriminate; [reflexivity|].
  cbn [map]. f_equal.
  - apply (G (a, v)). left. reflexivity.
  - inversion V; subst. apply IH; auto. intros x X. apply G. right. exact X.
Qed.

Lemma expect_other s : forall t r, length s = length t -> t <> s -> expect s (t ++ r) = None.
Proof.
  induction s as [|c s IH]; intros [|d t] r L N; try discriminate; [congruence|].
  cbn [app expect]. destruct (d =? c) eqn:E; [|reflexivity].
  apply IH; [cbn in L; lia|]. apply Z.eqb_eq in E. congruence.
Qed.
Lemma other_build install other vs vals junk :
  install_ok install -> install_ok other -> length install = length other -> other <> install ->
  fst (Read install vs (config_text other vs vals ++ junk) (Defaults vs)) = READ_FAIL.
Proof.
  intros I (O1 & O2 & O3) L N. unfold config_text. rewrite <- app_assoc.
  set (tail := (_ ++ write_key_value txt_end [49]) ++ junk). clearbody tail.
  unfold Read, write_key_value.
  rewrite escape_id.
  2:{ clear -O1 O2. induction other as [|c i IH]; constructor; inversion O1; inversion O2; subst; unfold LF, TAB, BSL; [lia|auto]. }
  destruct other as [|c other]; [destruct O3|].
  assert (W : skipwhite ((c :: other) ++ LF :: tail) = (c :: other) ++ LF :: tail).
  { inversion O1; subst. cbn [app]. apply skipwhite_stop; auto. }
  assert (NI : name_ok txt_installed).
  { apply var_name_ok; [discriminate|cbn; lia|]. unfold txt_installed, name_letter. repeat (apply Forall_cons; [lia|]). constructor. }
  rewrite <- !app_assoc. cbn [length].
  change (txt_installed ++ [EQS] ++ (c :: other) ++ [LF] ++ tail)
    with ([] ++ txt_installed ++ [] ++ [EQS] ++ (c :: other) ++ LF :: tail).
  remember (length ([] ++ txt_installed ++ [] ++ [EQS] ++ (c :: other) ++ LF :: tail)) as n.
  destruct n as [|n]; [discriminate|].
  rewrite read_assign; [|constructor|constructor|exact NI|discriminate].
  unfold step_assign. rewrite W. rewrite lower_installed.
  rewrite (proj2 (list_eqb_spec _ _) eq_refl).
  rewrite (expect_other install (c :: other) (LF :: tail) L N). reflexivity.
Qed.
