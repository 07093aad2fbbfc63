From Coq Require Import ZArith QArith Qround List Bool Lia ZifyBool ZifyNat.
From Verif Require Import StrModel StrSpec StrProofs ArgModel ArgSpec ArgProofs FileModel FileSpec FileProofs
  StyleModel StyleSpec StyleProofs ArithModel ArithProofs ModeModel ModeSpec ModeProofs DialModel EditModel EditSpec.
Import ListNotations.
Open Scope Z_scope.

(** * Texts of numbers and colors *)
Lemma chars_word w : w <> [] -> Forall (fun c => 44 <= c <= 57) w -> arg_text w.
Proof.
  intros N F. split.
  - split; [exact N|]. eapply Forall_impl; [|exact F]. cbn. intros c C [B|B]; lia.
  - destruct w; [congruence|]. inversion F; subst. cbn. lia.
Qed.
Lemma itoa_nonnil v : itoa v <> [].
Proof.
  unfold itoa. destruct (v <? 0) eqn:E; [discriminate|].
  destruct (digits_spec v ltac:(lia)) as ([N _] & _). exact N.
Qed.
Lemma itoa_range v : Forall (fun c => 44 <= c <= 57) (itoa v).
Proof. eapply Forall_impl; [|apply itoa_chars]. cbn. lia. Qed.
Lemma itoa_text v : arg_text (itoa v).
Proof. apply chars_word; [apply itoa_nonnil|apply itoa_range]. Qed.
Lemma color_text_text c : arg_text (color_text c).
Proof.
  destruct c as [[r g] b]. unfold color_text. apply chars_word.
  - pose proof (itoa_nonnil r). destruct (itoa r); [congruence|discriminate].
  - repeat (apply Forall_app; split); try apply itoa_range; repeat constructor; lia.
Qed.

Lemma number10 ds r : Forall (fun c => 48 <= c <= 57) ds -> no_digit r -> forall a,
  number 10 (ds ++ r) a = (fold_left (fun a c => 10 * a + (c - 48)) ds a, r).
Proof.
  induction ds as [|c ds IH]; intros D R a.
  - cbn [app fold_left]. destruct r as [|c r]; [reflexivity|]. cbn in R. cbn [number]. unfold digit_of.
    unfold is_digit. replace ((48 <=? c) && (c <=? 57)) with false by lia.
    repeat match goal with |- context [if ?b then _ else _] => destruct b eqn:? end; try lia; reflexivity.
  - inversion D; subst. cbn [app number]. unfold digit_of, is_digit.
    replace ((48 <=? c) && (c <=? 57)) with true by lia. replace (c - 48 <? 10) with true by lia.
    rewrite IH by auto. cbn [fold_left]. f_equal. f_equal. lia.
Qed.
(** Decimal text without a leading zero. *)
Lemma digits_go_lead fuel : forall n acc, 0 < n < 2 ^ Z.of_nat fuel -> exists c ds, digits_go fuel n acc = c :: ds ++ acc /\ c <> 48.
Proof.
  induction fuel; intros n acc N.
  - cbn in N. lia.
  - cbn [digits_go]. destruct (n <? 10) eqn:E.
    + exists (48 + n mod 10), []. split; [reflexivity|]. rewrite Z.mod_small by lia. lia.
    + destruct (IHfuel (n / 10) ((48 + n mod 10) :: acc)) as (c & ds & X & C).
      { rewrite Nat2Z.inj_succ, Z.pow_succ_r in N by lia. split; [apply Z.div_str_pos; lia|].
        apply Z.div_lt_upper_bound; lia. }
      exists c, (ds ++ [48 + n mod 10]). rewrite X, <- app_assoc. auto.
Qed.
Lemma digits_lead n : 0 < n -> exists c ds, digits n = c :: ds /\ c <> 48.
Proof.
  intros N. unfold digits. destruct (digits_go_lead (S (Z.to_nat (Z.log2 n))) n []) as (c & ds & E & C).
  { split; [lia|]. pose proof (Z.log2_spec n N). pose proof (Z.log2_nonneg n).
    rewrite Nat2Z.inj_succ, Z2Nat.id by lia. lia. }
  exists c, ds. rewrite E, app_nil_r. auto.
Qed.
Definition sep_after (r : list Z) : Prop := match r with [] => True | c :: _ => c = 44 end.
Lemma sep_no r : sep_after r -> no_digit r.
Proof. destruct r; cbn; [auto|]. intros ->. lia. Qed.
Lemma strtol0_itoa v r : 0 <= v -> sep_after r -> strtol0 (itoa v ++ r) = (v, r).
Proof.
  intros V R. unfold itoa. replace (v <? 0) with false by lia.
  destruct (Z.eq_dec v 0) as [->|NZ].
  { change (digits 0) with [48]. cbn [app]. unfold strtol0. cbn [Z.eqb].
    destruct r as [|c r]; [reflexivity|]. cbn in R. subst c. reflexivity. }
  destruct (digits_lead v ltac:(lia)) as (c & ds & E & C).
  destruct (digits_spec v V) as ([_ D] & DV & _).
  pose proof (number10 (digits v) r D (sep_no r R) 0) as N.
  fold (digits_value (digits v)) in N. rewrite DV in N. rewrite E in N, D |- *. inversion D; subst.
  unfold strtol0. cbn [app] in *. replace (c =? 45) with false by lia.
  enough (X : (match c :: ds ++ r with
    | 48 :: 120 :: t => number 16 t 0
    | 48 :: 88 :: t => number 16 t 0
    | 48 :: t => number 8 t 0
    | _ => number 10 (c :: ds ++ r) 0
    end) = number 10 (c :: ds ++ r) 0) by (rewrite X, N; reflexivity).
  assert (c = 49 \/ c = 50 \/ c = 51 \/ c = 52 \/ c = 53 \/ c = 54 \/ c = 55 \/ c = 56 \/ c = 57) as K by lia.
  repeat (destruct K as [-> | K]; [reflexivity|]). subst c. reflexivity.
Qed.
Lemma parse_color_text r g b : ch16 r -> ch16 g -> ch16 b -> parse_color (color_text (r, g, b)) = Some (r, g, b).
Proof.
  unfold ch16. intros R G B. unfold color_text, parse_color.
  rewrite strtol0_itoa by (cbn; auto; lia). cbn [app].
  rewrite strtol0_itoa by (cbn; auto; lia).
  rewrite <- (app_nil_r (itoa b)), strtol0_itoa by (cbn; auto; lia).
  rewrite !Z.mod_small by lia. reflexivity.
Qed.

(** * GetArgInfo *)
Lemma asked_offset cs : forall o, snd (EditModel.asked cs o) = o + shifts cs.
Proof.
  induction cs as [|[n d|k] cs IH]; intros o; cbn [EditModel.asked shifts].
  - cbn. lia.
  - specialize (IH o). destruct (EditModel.asked cs o). exact IH.
  - rewrite IH. lia.
Qed.
Lemma asked_asks cs : forall o x, In x (fst (EditModel.asked cs o)) -> asks cs (fst x - o).
Proof.
  induction cs as [|[n d|k] cs IH]; intros o x I; cbn [EditModel.asked] in I.
  - destruct I.
  - specialize (IH o x). destruct (EditModel.asked cs o) as [l o']. cbn [fst In] in *. destruct I as [<- | I].
    + exists [], n, d, cs. cbn. split; [reflexivity|lia].
    + destruct (IH I) as (b & k & d' & a & -> & E). exists (CGet n d :: b), k, d', a. cbn. auto.
  - destruct (IH _ _ I) as (b & n & d' & a & -> & E). exists (CShift k :: b), n, d', a. cbn. split; [reflexivity|lia].
Qed.
Lemma asks_pos cs n : Forall call_ok cs -> asks cs n -> 1 <= n.
Proof.
  intros F (b & k & d & a & -> & ->). apply Forall_app in F. destruct F as [F G].
  inversion G as [|? ? C _]; subst. cbn in C. 
  assert (0 <= shifts b). { clear - F. induction F as [|[] l C F IH]; cbn in *; lia. } lia.
Qed.
Lemma shifts_nonneg cs : Forall call_ok cs -> 0 <= shifts cs.
Proof. intros F. induction F as [|[] l C F IH]; cbn in *; lia. Qed.
Lemma bits_nonneg x : In x bits -> 0 <= x.
Proof. unfold bits. intros I. apply in_map_iff in I. destruct I as (j & <- & _). lia. Qed.
Lemma info_arg table t st a c : table_ok table -> FindStyle table t = Some st -> In (a, c) (snd (info table t)) ->
  asks (make_calls st (SkipWord t)) (a + fst (info table t)) /\ settable st (a + fst (info table t)).
Proof.
  intros TO F. unfold info. rewrite F. pose proof bits_nonneg as BN. revert BN. generalize bits. intros all BN I.
  destruct (FindStyle_ok table t st TO F) as [OK _].
  pose proof (make_calls_ok st (SkipWord t) OK) as CO.
  pose proof (asked_offset (make_calls st (SkipWord t)) 0) as AO.
  pose proof (asked_asks (make_calls st (SkipWord t)) 0) as AA.
  destruct (EditModel.asked (make_calls st (SkipWord t)) 0) as [l o]. cbn [fst snd] in *.
  destruct (_ && _); [destruct I|]. cbn [fst snd] in *.
  apply in_map_iff in I. destruct I as (x & E & I). injection E as <- <-.
  apply filter_In in I. destruct I as [J I]. apply BN in J.
  apply andb_prop in I. destruct I as [I U]. apply andb_prop in I. destruct I as [I _].
  unfold used in U. apply existsb_exists in U. destruct U as (y & Y & E2).
  assert (A : asks (make_calls st (SkipWord t)) (x + o)).
  { replace (x + o) with (fst y - 0) by lia. apply AA. exact Y. }
  split; [exact A|].
  destruct st as [cs|p]; cbn [settable make_calls] in *.
  - apply (asks_pos cs); auto.
  - cbn [shifts] in AO. inversion CO as [|? ? _ CO1]; subst. inversion CO1 as [|? ? _ CO2]; subst. inversion CO2 as [|? ? _ CO3]; subst.
    pose proof (shifts_nonneg _ CO3). lia.
Qed.
(** Which arguments there are does not change when one of them is set. *)
Lemma first_word_kept table st s r : table_ok table -> tidy s -> tidy r -> FindStyle table s = Some st -> FindStyle table r = Some st ->
  GetArgument table r 0 = GetArgument table s 0 -> hd_error (words r) = hd_error (words s).
Proof.
  intros TO TS TR FS FR E.
  destruct (FindStyle_ok table s st TO FS) as [OK NS]. destruct (FindStyle_ok table r st TO FR) as [_ NR].
  rewrite (GetArgument_spec table r 0 st), (GetArgument_spec table s 0 st) in E by (auto; lia).
  unfold calls_of in E.
  rewrite !StyleProofs.asked_high in E by (try apply make_calls_ok; auto; lia).
  destruct (words r) as [|w ws]; [congruence|]. destruct (words s) as [|w' ws']; [congruence|]. cbn [hd_error] in *.
  assert (X : forall u us, (raw_get (u :: us) 0 = (false, Some []) /\ u = [126]) \/ raw_get (u :: us) 0 = (true, Some u)).
  { intros u us. unfold raw_get. change (Z.to_nat 0) with 0%nat. cbn [nth_error].
    destruct u as [|c u]; [auto|]. destruct (Z.eq_dec c 126) as [->|N]; [destruct u; auto|].
    right. destruct c as [|c|c]; try reflexivity. do 7 (destruct c as [c|c|]; try reflexivity). congruence. }
  destruct (X w ws) as [[A ->]|A], (X w' ws') as [[B ->]|B]; try reflexivity; rewrite A, B in E; congruence.
Qed.
Lemma calls_kept table st s r : table_ok table -> tidy s -> tidy r -> FindStyle table s = Some st -> FindStyle table r = Some st ->
  (match st with Plain _ => True | Builtin _ => GetArgument table r 1 = GetArgument table s 1 /\ GetArgument table r 2 = GetArgument table s 2 end) ->
  make_calls st (SkipWord r) = make_calls st (SkipWord s).
Proof.
  intros TO TS TR FS FR E. destruct st as [cs|p]; [reflexivity|]. destruct E as [E1 E2].
  destruct (FindStyle_ok table s _ TO FS) as [OK NS].
  assert (K : forall t n d, tidy t -> FindStyle table t = Some (Builtin p) -> n = 1 \/ n = 2 -> d = (if n =? 1 then zero_text else one_text) ->
    GetArgument table t n = (true, Some (take_nonblank (ArgModel.GetArg (SkipWord t) n d)))).
  { intros t n d TT FT N D. rewrite (GetArgument_spec table t n (Builtin p)) by (auto; lia).
    unfold calls_of, make_calls. cbn [StyleProofs.asked].
    assert (W : is_word d). { subst d. destruct N as [-> | ->]; cbn; split; try discriminate; repeat constructor; intros [?|?]; discriminate. }
    rewrite (take_GetArg (SkipWord t) n d) by exact W.
    rewrite StyleProofs.asked_high; [|apply OK|lia|lia].
    subst d. destruct N as [-> | ->]; reflexivity. }
  rewrite (K r 1 zero_text), (K s 1 zero_text) in E1 by auto.
  rewrite (K r 2 one_text), (K s 2 one_text) in E2 by auto.
  injection E1 as E1. injection E2 as E2. cbn [make_calls]. rewrite E1, E2. reflexivity.
Qed.
Lemma info_kept table st s n v g r : table_ok table -> tidy s -> FindStyle table s = Some st -> settable st n -> arg_text v ->
  SetArgument table s n v g = SetOk r -> info table r = info table s.
Proof.
  intros TO TS FS SN V E. destruct (SetArgument_get table s st n v g r TO TS FS SN V E) as (TR & FR & G & O).
  assert (N : 1 <= n) by (destruct st; cbn in SN; lia).
  assert (H : hd_error (words r) = hd_error (words s)). { eapply first_word_kept; eauto. apply O; lia. }
  unfold info. rewrite FS, FR.
  assert (C : make_calls st (SkipWord r) = make_calls st (SkipWord s)).
  { eapply calls_kept; eauto.
    destruct st; [exact I|]. cbn in SN. split; apply O; lia. }
  rewrite C.
  assert (FirstWord r builtin_text = FirstWord s builtin_text) as ->; [|reflexivity].
  assert (W : is_word builtin_text). { split; [discriminate|]. repeat constructor; intros [?|?]; discriminate. }
  destruct (FirstWord r builtin_text) eqn:A, (FirstWord s builtin_text) eqn:B; auto; exfalso.
  - apply FirstWord_spec in A; auto. rewrite H in A. apply FirstWord_spec in A; auto. congruence.
  - apply FirstWord_spec in B; auto. rewrite <- H in B. apply FirstWord_spec in B; auto. congruence.
Qed.

Lemma millis_ok x : millis_of x = millis x.
Proof.
  unfold millis_of, millis, to_int.
  set (q := (inject_Z x / 32768 * (inject_Z x / 32768) * 30 * 1000)%Q).
  assert (N : Qnum q = x * x * 30000) by (cbn -[Z.mul]; lia).
  assert (D : QDen q = 32768 * 32768) by reflexivity.
  assert (F : Qfloor q = x * x * 30000 / (32768 * 32768)) by (rewrite <- N, <- D; destruct q; reflexivity).
  assert (B : Qle_bool 0 q = true). { unfold Qle_bool. rewrite N. cbn [Qnum Qden]. pose proof (Z.square_nonneg x). lia. }
  rewrite B. exact F.
Qed.

(** * The menus *)
Section Edit.
Variable table : list (str * style).
Variable garbage : str.
Variable blades : Z.
Variable is_time : Z -> bool.
Variable presets : Z.
Variable max_arg : str -> Z -> Z.
Local Notation step := (EditModel.step table garbage blades is_time presets max_arg).
Local Notation play := (EditModel.play table garbage blades is_time presets max_arg).
Local Notation pop := (EditModel.pop table blades).
Local Notation activate_list := (EditModel.activate_list table blades).
Local Notation SetArg := (EditModel.SetArg table garbage blades).
Local Notation text s := (texts s (cur s) (blade s)).

(** Everything but the stack, the offset and the texts. *)
Definition same (s s' : ed) : Prop :=
  cur s' = cur s /\ blade s' = blade s /\ arg s' = arg s /\ sel_preset s' = sel_preset s /\ sel_blade s' = sel_blade s /\
  list_pos s' = list_pos s /\ num_pos s' = num_pos s /\ num_max s' = num_max s /\ style_pos s' = style_pos s /\
  smooth_d s' = smooth_d s /\ time_d s' = time_d s /\ shown s' = shown s.

Lemma GetStyle_some s b t : GetStyle blades s b = Some t -> 1 <= b <= blades /\ t = texts s (cur s) b.
Proof. clear garbage is_time max_arg. unfold GetStyle. destruct (_ && _) eqn:E; [|discriminate]. intros [= <-]. split; [lia|reflexivity]. Qed.
Lemma GetStyle_in s b : 1 <= b <= blades -> GetStyle blades s b = Some (texts s (cur s) b).
Proof. clear garbage is_time max_arg. intros B. unfold GetStyle. replace ((1 <=? b) && (b <=? blades)) with true by lia. reflexivity. Qed.
Lemma SetArg_some s b a v s' : SetArg s b a v = Some s' -> exists r, 1 <= b <= blades /\
  SetArgument table (texts s (cur s) b) (a + off s) v garbage = SetOk r /\
  s' = set_texts s (fun p x => if (p =? cur s) && (x =? b) then r else texts s p x).
Proof.
  unfold EditModel.SetArg. destruct (GetStyle blades s b) as [t|] eqn:G; [|discriminate].
  apply GetStyle_some in G. destruct G as [B ->].
  destruct (SetArgument _ _ _ _ _) as [r|] eqn:E; [|discriminate].
  unfold SetStyle. destruct (_ && _); [|discriminate]. intros [= <-]. exists r. auto.
Qed.
Lemma activate_list_some s s' : activate_list s = Some s' ->
  1 <= blade s <= blades /\ texts s' = texts s /\ same s s' /\ off s' = fst (info table (text s)) /\
  ((snd (info table (text s)) = [] /\ stack s' = tl (stack s)) \/ (snd (info table (text s)) <> [] /\ stack s' = stack s)).
Proof. clear garbage is_time max_arg.
  unfold EditModel.activate_list. destruct (GetStyle blades s (blade s)) as [t|] eqn:G; [|discriminate].
  apply GetStyle_some in G. destruct G as [B ->].
  destruct (snd (info table (text s))) eqn:E; intros [= <-]; cbn; unfold same; cbn; repeat split; auto; try lia.
  right. split; [discriminate|reflexivity].
Qed.
Lemma pop_some s s' : pop s = Some s' -> texts s' = texts s /\ same s s' /\
  match tl (stack s) with
  | ArgList :: st => 1 <= blade s <= blades /\ off s' = fst (info table (text s)) /\
     ((snd (info table (text s)) = [] /\ stack s' = st) \/ (snd (info table (text s)) <> [] /\ stack s' = ArgList :: st))
  | st => off s' = off s /\ stack s' = st
  end.
Proof. clear garbage is_time max_arg.
  unfold EditModel.pop. cbn [stack set_stack]. destruct (tl (stack s)) as [|m st] eqn:E.
  { intros [= <-]. unfold same. cbn. repeat split; auto. }
  destruct m; try (intros [= <-]; unfold same; cbn; repeat split; auto; fail).
  intros H. apply activate_list_some in H. destruct H as (B & T & S & O & K). cbn in *.
  split; [exact T|]. split; [exact S|]. split; [exact B|]. split; [exact O|exact K].
Qed.

(** What holds between operations, as long as only the argument menus are used. *)
Definition editing (s : ed) : Prop :=
  1 <= blade s <= blades /\ off s = fst (info table (text s)) /\ snd (info table (text s)) <> [].
Definition choosing (s : ed) : Prop := editing s /\ exists c, In (arg s, c) (snd (info table (text s))).
Definition inv (s : ed) : Prop :=
  (forall p b, tidy (texts s p b)) /\
  match stack s with
  | [Base] => True
  | [EditStyle; Base] => 1 <= blade s <= blades
  | [ArgList; EditStyle; Base] => editing s
  | [ArgNumber; ArgList; EditStyle; Base] | [ArgSmooth; ArgList; EditStyle; Base]
  | [ArgTime; ArgList; EditStyle; Base] | [ArgColor; ArgList; EditStyle; Base] => choosing s
  | _ => False
  end.


Lemma value_text_ok s v : value_text s = Some v -> arg_text v.
Proof. unfold value_text. destruct (top s); intros [= <-]; auto using itoa_text, color_text_text. Qed.

Hypothesis TO : table_ok table.

Lemma info_style t : snd (info table t) <> [] -> exists st, FindStyle table t = Some st.
Proof. unfold info. destruct (FindStyle table t) as [st|]; [exists st; reflexivity|]. cbn. congruence. Qed.

Lemma SetArg_one s v s' : choosing s -> (forall p b, tidy (texts s p b)) -> arg_text v ->
  SetArg s (blade s) (arg s) v = Some s' ->
  one_argument table (texts s) (texts s') (cur s) (blade s) (arg s + off s) v /\
  (exists st, FindStyle table (text s) = Some st /\ asks (make_calls st (SkipWord (text s))) (arg s + off s)) /\
  (forall p b, tidy (texts s' p b)) /\ same s s' /\ off s' = off s /\ stack s' = stack s /\ info table (text s') = info table (text s).
Proof.
  intros [(B & O & NE) (c & A)] TD V E.
  destruct (info_style _ NE) as [st F].
  destruct (info_arg table (text s) st (arg s) c TO F A) as [AS SE]. rewrite <- O in AS, SE.
  apply SetArg_some in E. destruct E as (r & _ & E & ->).
  destruct (SetArgument_get table _ st _ v garbage r TO (TD _ _) F SE V E) as (TR & FR & G & OT).
  pose proof (info_kept table st _ _ v garbage r TO (TD _ _) F SE V E) as IK.
  assert (H : (if (cur s =? cur s) && (blade s =? blade s) then r else text s) = r) by (rewrite !Z.eqb_refl; reflexivity).
  split; [|split; [exists st; auto|]].
  - unfold one_argument. cbn [texts set_texts]. rewrite H. split; [|split; [congruence|split; [exact G|exact OT]]].
    intros p' b' D. replace ((p' =? cur s) && (b' =? blade s)) with false by lia. reflexivity.
  - cbn [texts set_texts cur blade off stack]. rewrite H. split. { intros p b. destruct ((p =? cur s) && (b =? blade s)). exact TR. apply TD. }
    split; [unfold same; cbn; repeat split; auto|]. auto.
Qed.

Lemma text_same s s' : texts s' = texts s -> same s s' -> text s' = text s.
Proof. intros T (C & B & _). rewrite T, C, B. reflexivity. Qed.
Lemma choosing_same s s' : texts s' = texts s -> same s s' -> off s' = off s -> choosing s -> choosing s'.
Proof.
  intros T S O [(B & E & N) C]. pose proof (text_same s s' T S) as X. destruct S as (_ & SB & SA & _).
  unfold choosing, editing. rewrite X, SB, SA, O. auto.
Qed.

Lemma inv_ext s s' : texts s' = texts s -> stack s' = stack s -> cur s' = cur s -> blade s' = blade s -> arg s' = arg s -> off s' = off s ->
  inv s -> inv s'.
Proof. unfold inv, choosing, editing. intros -> -> -> -> -> -> H. exact H. Qed.
Lemma inv_stacks s : inv s -> In (stack s) [[Base]; [EditStyle; Base]; [ArgList; EditStyle; Base];
  [ArgNumber; ArgList; EditStyle; Base]; [ArgSmooth; ArgList; EditStyle; Base];
  [ArgTime; ArgList; EditStyle; Base]; [ArgColor; ArgList; EditStyle; Base]].
Proof.
  intros [_ I]. destruct (stack s) as [|m l]; [contradiction|].
  destruct m; destruct l as [|m2 l]; try contradiction; cbn [In]; auto;
  destruct m2; try contradiction; destruct l as [|m3 l]; try contradiction; auto 10;
  destruct m3; try contradiction; destruct l as [|m4 l]; try contradiction; auto 10;
  destruct m4; try contradiction; destruct l; try contradiction; auto 10.
Qed.

Definition changed (s s' : ed) : Prop :=
  exists v, value_text s = Some v /\
  one_argument table (texts s) (texts s') (cur s) (blade s) (arg s + off s) v /\
  exists st, FindStyle table (text s) = Some st /\ asks (make_calls st (SkipWord (text s))) (arg s + off s).

(** After leaving one of the four modes, or opening the list. *)
Lemma pop_list s s' st1 m : pop s = Some s' -> (forall p b, tidy (texts s p b)) -> stack s = m :: ArgList :: st1 -> st1 = [EditStyle; Base] ->
  texts s' = texts s /\ same s s' /\ off s' = fst (info table (text s)) /\ inv s' /\
  (snd (info table (text s)) <> [] -> stack s' = [ArgList; EditStyle; Base]) /\ 1 <= blade s <= blades.
Proof.
  intros P TD ST ->. apply pop_some in P. rewrite ST in P. cbn [tl] in P. destruct P as (T & S & B & O & K).
  split; [exact T|]. split; [exact S|]. split; [exact O|].
  pose proof (text_same s s' T S) as X.
  assert (SB : blade s' = blade s) by apply S.
  split; [|split; [|exact B]].
  - unfold inv. split; [rewrite T; exact TD|]. destruct K as [[N ->]|[N ->]].
    + rewrite SB. exact B.
    + unfold editing. rewrite X, SB, O. auto.
  - intros N. destruct K as [[N' _]|[_ K]]; [contradiction|exact K].
Qed.

Ltac plain E := injection E as <-; split; [|left; reflexivity]; eapply inv_ext; [| | | | | |eassumption]; cbn; auto.

Lemma set_then_pop s v s1 s' m : (forall p b, tidy (texts s p b)) -> stack s = [m; ArgList; EditStyle; Base] -> choosing s ->
  value_text s = Some v ->
  SetArg s (blade s) (arg s) v = Some s1 -> pop s1 = Some s' ->
  inv s' /\ changed s s' /\ stack s' = [ArgList; EditStyle; Base] /\ info table (text s') = info table (text s) /\ same s s' /\ off s' = off s.
Proof.
  intros TD ST C VT E P. pose proof (value_text_ok s v VT) as V.
  destruct (SetArg_one s v s1 C TD V E) as (ONE & AS & TD1 & S1 & O1 & ST1 & IK).
  assert (ST1' : stack s1 = m :: ArgList :: [EditStyle; Base]) by congruence.
  destruct (pop_list s1 s' _ m P TD1 ST1' eq_refl) as (T & S & O & I & K & B).
  pose proof (text_same s1 s' T S) as X.
  assert (SS : same s s').
  { unfold same in *. intuition congruence. }
  split; [exact I|]. split; [exists v; split; [exact VT|split; [|exact AS]]|].
  - rewrite T. exact ONE.
  - destruct C as [(_ & OE & NE) _]. rewrite IK in *. split; [apply K; exact NE|]. split; [rewrite X; exact IK|].
    split; [exact SS|congruence].
Qed.
Lemma pop_set_pop s v s0 s1 s' m : (forall p b, tidy (texts s p b)) -> stack s = [m; ArgList; EditStyle; Base] -> choosing s ->
  value_text s = Some v ->
  pop s = Some s0 -> SetArg s0 (blade s0) (arg s0) v = Some s1 -> pop s1 = Some s' ->
  inv s' /\ changed s s' /\ stack s' = [EditStyle; Base] /\ info table (text s') = info table (text s) /\ same s s' /\ off s' = off s.
Proof.
  intros TD ST C VT P0 E P. pose proof (value_text_ok s v VT) as V.
  destruct (pop_list s s0 _ m P0 TD ST eq_refl) as (T0 & S0 & O0 & I0 & K0 & B0).
  assert (OE : off s0 = off s) by (rewrite O0; symmetry; apply C).
  pose proof (choosing_same s s0 T0 S0 OE C) as C0.
  pose proof (text_same s s0 T0 S0) as X0.
  assert (NE : snd (info table (text s)) <> []) by apply C.
  destruct (SetArg_one s0 v s1 C0 (proj1 I0) V E) as (ONE & AS & TD1 & S1 & O1 & ST1 & IK).
  apply pop_some in P. rewrite ST1, (K0 NE) in P. cbn [tl] in P. destruct P as (T & S & O & K).
  pose proof (text_same s1 s' T S) as X.
  assert (SS : same s s'). { unfold same in *. intuition congruence. }
  assert (CU : cur s0 = cur s) by apply S0. assert (BL : blade s0 = blade s) by apply S0. assert (AR : arg s0 = arg s) by apply S0.
  split; [|split; [exists v; split; [exact VT|split]|]].
  - unfold inv. rewrite K. split; [rewrite T; exact TD1|]. assert (blade s' = blade s) as -> by apply SS. exact B0.
  - rewrite T. rewrite T0, CU, BL, AR, OE in ONE. exact ONE.
  - rewrite X0, AR, OE in AS. exact AS.
  - split; [exact K|]. split; [congruence|]. split; [exact SS|congruence].
Qed.

Lemma top_stack s m l : stack s = m :: l -> top s = m.
Proof. unfold top. intros ->. reflexivity. Qed.

Lemma opened_choose s m a s' t : opened table blades max_arg s m a = Some s' -> m = ArgNumber \/ m = ArgSmooth \/ m = ArgTime \/ m = ArgColor ->
  GetStyle blades s (blade s) = Some t ->
  texts s' = texts s /\ stack s' = stack s /\ cur s' = cur s /\ blade s' = blade s /\ arg s' = arg s /\ off s' = off s /\
  (m <> ArgColor -> shown s' = shown s).
Proof.
  intros E M G. destruct M as [-> | [-> | [-> | ->]]]; cbn [opened] in E.
  - rewrite G in E. destruct (GetIntArg _ _ _); [|discriminate]. injection E as <-. cbn. repeat split; auto.
  - destruct (GetIntArg _ _ _); [|discriminate]. injection E as <-. cbn. repeat split; auto.
  - destruct (GetIntArg _ _ _); [|discriminate]. injection E as <-. cbn. repeat split; auto.
  - destruct (GetColorArg _ _ _); [|discriminate]. injection E as <-. cbn. repeat split; auto. congruence.
Qed.
Lemma list_select_some s a s' : list_select table blades is_time max_arg s a = Some s' -> exists x m,
  1 <= blade s <= blades /\ nth_error (snd (info table (text s))) (Z.to_nat (list_pos s)) = Some x /\
  (m = ArgNumber \/ m = ArgSmooth \/ m = ArgTime \/ m = ArgColor) /\
  push table blades max_arg (set_arg s (fst x)) m a = Some s' /\
  texts s' = texts s /\ stack s' = m :: stack s /\ cur s' = cur s /\ blade s' = blade s /\ arg s' = fst x /\ off s' = off s.
Proof.
  unfold list_select, bind. destruct (GetStyle blades s (blade s)) as [t|] eqn:G; [|discriminate].
  destruct (GetStyle_some _ _ _ G) as [B ->].
  destruct (nth_error _ _) as [x|] eqn:N; [|discriminate]. intros E.
  assert (exists m, (m = ArgNumber \/ m = ArgSmooth \/ m = ArgTime \/ m = ArgColor) /\ push table blades max_arg (set_arg s (fst x)) m a = Some s') as (m & M & P).
  { destruct (snd x); [exists ArgColor; auto|]. destruct (_ || _); [exists ArgSmooth; auto|]. destruct (_ && _); [exists ArgTime; auto|exists ArgNumber; auto]. }
  exists x, m. split; [exact B|]. split; [reflexivity|]. split; [exact M|]. split; [exact P|].
  unfold push in P.
  destruct (opened_choose _ m a s' _ P M (GetStyle_in _ _ B)) as (T & S & C & BL & A & O & _). cbn in *. auto 10.
Qed.

Lemma step_inv s o s' : inv s -> args_only o -> step s o = Some s' ->
  inv s' /\ (texts s' = texts s \/ storing s o /\ changed s s').
Proof.
  intros I AO E. pose proof (inv_stacks s I) as L. cbn [In] in L.
  pose proof I as [TD IS]. unfold EditModel.step in E.
  destruct L as [L|[L|[L|[L|[L|[L|[L|[]]]]]]]]; symmetry in L; rewrite L in E, IS; unfold storing; rewrite (top_stack _ _ _ L).
  - (* Base *)
    destruct o; try (plain E; fail).
    + injection E as <-. split; [|auto]. unfold inv. cbn. rewrite L. auto.
    + destruct (_ && _) eqn:B; [|plain E]. unfold push in E. cbn in E. injection E as <-. split; [|auto].
      unfold inv. cbn. rewrite L. split; [exact TD|lia].
  - (* EditStyle *)
    destruct o; try (plain E; fail).
    + cbn in AO. destruct k; try contradiction. cbn [picked] in E. unfold push in E. cbn [opened] in E.
      apply activate_list_some in E. cbn [texts stack set_stack cur blade] in E. destruct E as (B & T & S & O & K).
      split; [|auto]. rewrite L in K. cbn [tl] in K. pose proof (text_same _ _ T S) as X. cbn [texts set_stack cur blade] in X.
      assert (SB : blade s' = blade s) by apply S.
      unfold inv. rewrite T. split; [exact TD|]. destruct K as [[N ->]|[N ->]].
      * rewrite SB. exact IS.
      * unfold editing. rewrite X, SB, O. auto.
    + apply pop_some in E. rewrite L in E. cbn [tl] in E. destruct E as (T & S & O & K).
      split; [|auto]. unfold inv. rewrite K, T. auto.
  - (* ArgList *)
    destruct o; try (plain E; fail).
    + unfold bind in E. destruct (GetStyle _ _ _); [|discriminate]. destruct (menu_step _ _ _); [|discriminate]. plain E.
    + apply list_select_some in E. destruct E as (x & m & B & N & M & P & T & S & C & BL & A & O).
      split; [|auto]. unfold inv. rewrite T, S, L. split; [exact TD|].
      assert (choosing s').
      { unfold choosing, editing in *. rewrite T, C, BL, A, O. split; [exact IS|]. exists (snd x). rewrite <- surjective_pairing. eapply nth_error_In; eauto. }
      destruct M as [-> | [-> | [-> | ->]]]; auto.
    + apply pop_some in E. rewrite L in E. cbn [tl] in E. destruct E as (T & S & O & K).
      split; [|auto]. unfold inv. rewrite K, T. split; [exact TD|]. assert (blade s' = blade s) as -> by apply S. apply IS.
  - (* ArgNumber *)
    destruct o; try (plain E; fail).
    + unfold bind in E. destruct (menu_step _ _ _); [|discriminate]. plain E.
    + unfold bind in E. destruct (SetIntArg _ _ _ _ _) as [s1|] eqn:E1; [|discriminate]. unfold SetIntArg in E1.
      destruct (set_then_pop s (itoa (num_pos s)) s1 s' _ TD L IS) as (J & CH & _); auto.
      unfold value_text. rewrite (top_stack _ _ _ L). reflexivity.
    + destruct (pop_list s s' _ _ E TD L eq_refl) as (T & S & O & J & _). auto.
  - (* ArgSmooth *)
    destruct o; try (plain E; fail).
    + unfold bind in E. destruct (pop s) as [s0|] eqn:E0; [|discriminate]. cbn beta in E.
      destruct (SetIntArg _ _ _ s0 _) as [s1|] eqn:E1; [|discriminate]. unfold SetIntArg in E1.
      assert (VT : value_text s = Some (itoa (snd (store (smooth_d s))))) by (unfold value_text; rewrite (top_stack _ _ _ L); reflexivity).
      destruct (pop_set_pop s _ s0 s1 s' _ TD L IS VT E0 E1 E) as (J & CH & _); auto.
    + assert (L' : stack (set_dials s (exit (Z * Z) dial_set (smooth_d s)) (time_d s)) = [ArgSmooth; ArgList; EditStyle; Base]) by exact L.
      destruct (pop_list _ s' _ _ E TD L' eq_refl) as (T & S & O & J & _). auto.
  - (* ArgTime *)
    destruct o; try (plain E; fail).
    + unfold bind in E. destruct (pop s) as [s0|] eqn:E0; [|discriminate]. cbn beta in E.
      destruct (SetIntArg _ _ _ s0 _) as [s1|] eqn:E1; [|discriminate]. unfold SetIntArg in E1. rewrite millis_ok in E1.
      assert (VT : value_text s = Some (itoa (millis (snd (store (time_d s)))))) by (unfold value_text; rewrite (top_stack _ _ _ L); reflexivity).
      destruct (pop_set_pop s _ s0 s1 s' _ TD L IS VT E0 E1 E) as (J & CH & _); auto.
    + assert (L' : stack (set_dials s (smooth_d s) (exit (Z * Z) dial_set (time_d s))) = [ArgTime; ArgList; EditStyle; Base]) by exact L.
      destruct (pop_list _ s' _ _ E TD L' eq_refl) as (T & S & O & J & _). auto.
  - (* ArgColor *)
    destruct o; try (plain E; fail).
    + unfold bind in E. destruct (default_color _ _ _); [|discriminate]. plain E.
    + unfold bind in E. destruct (SetArg s (blade s) (arg s) _) as [s1|] eqn:E1; [|discriminate].
      destruct (set_then_pop s (color_text (shown s)) s1 s' _ TD L IS) as (J & CH & _); auto.
      unfold value_text. rewrite (top_stack _ _ _ L). reflexivity.
    + destruct (pop_list s s' _ _ E TD L eq_refl) as (T & S & O & J & _). auto.
Qed.
Lemma play_inv os : forall s s', inv s -> Forall args_only os -> play s os = Some s' -> inv s'.
Proof.
  induction os as [|o os IH]; intros s s' I F E; cbn [EditModel.play] in E.
  - injection E as <-. exact I.
  - inversion F; subst. unfold bind in E. destruct (step s o) as [s1|] eqn:E1; [|discriminate].
    destruct (step_inv s o s1 I H1 E1) as [I1 _]. eapply IH; eauto.
Qed.
Lemma start_inv s : stack s = [Base] -> (forall p b, tidy (texts s p b)) -> inv s.
Proof. intros S T. unfold inv. rewrite S. auto. Qed.

(** * Looking and turning changes nothing *)
Definition kept (s s' : ed) : Prop :=
  texts s' = texts s /\ stack s' = stack s /\ cur s' = cur s /\ blade s' = blade s /\ arg s' = arg s /\ off s' = off s /\ list_pos s' = list_pos s.
Lemma quiet_kept s o s' m : stack s = [m; ArgList; EditStyle; Base] -> m = ArgNumber \/ m = ArgSmooth \/ m = ArgTime \/ m = ArgColor ->
  quiet o -> step s o = Some s' -> kept s s'.
Proof.
  intros L M Q E. unfold EditModel.step in E. rewrite L in E.
  destruct M as [-> | [-> | [-> | ->]]]; destruct o; cbn in Q; try contradiction; unfold bind in E;
  repeat match type of E with context [match ?x with Some _ => _ | None => _ end] => destruct x; [|discriminate] end;
  injection E as <-; unfold kept; cbn; auto 10.
Qed.
Lemma quiet_play os : forall s s' m, stack s = [m; ArgList; EditStyle; Base] -> m = ArgNumber \/ m = ArgSmooth \/ m = ArgTime \/ m = ArgColor ->
  Forall quiet os -> play s os = Some s' -> kept s s'.
Proof.
  induction os as [|o os IH]; intros s s' m L M Q E; cbn [EditModel.play] in E.
  - injection E as <-. unfold kept. auto 10.
  - inversion Q; subst. unfold bind in E. destruct (step s o) as [s1|] eqn:E1; [|discriminate].
    pose proof (quiet_kept s o s1 m L M H1 E1) as K.
    assert (L1 : stack s1 = [m; ArgList; EditStyle; Base]) by (destruct K as (_ & K & _); congruence).
    pose proof (IH s1 s' m L1 M H2 E) as K2. unfold kept in *. intuition congruence.
Qed.
Lemma play_app os : forall s os', play s (os ++ os') = bind (play s os) (fun s => play s os').
Proof.
  induction os as [|o os IH]; intros s os'; cbn [app EditModel.play]; [reflexivity|].
  unfold bind in *. destruct (step s o); [apply IH|reflexivity].
Qed.
Lemma sel_open s a s' : stack s = [ArgList; EditStyle; Base] -> step s (Sel a) = Some s' -> exists x m,
  1 <= blade s <= blades /\ nth_error (snd (info table (text s))) (Z.to_nat (list_pos s)) = Some x /\
  (m = ArgNumber \/ m = ArgSmooth \/ m = ArgTime \/ m = ArgColor) /\
  push table blades max_arg (set_arg s (fst x)) m a = Some s' /\
  texts s' = texts s /\ stack s' = m :: stack s /\ cur s' = cur s /\ blade s' = blade s /\ arg s' = fst x /\ off s' = off s.
Proof. intros L E. unfold EditModel.step in E. rewrite L in E. apply list_select_some in E. exact E. Qed.

Lemma cancel_some s s' m : inv s -> stack s = [m; ArgList; EditStyle; Base] -> m = ArgNumber \/ m = ArgSmooth \/ m = ArgTime \/ m = ArgColor ->
  step s Cancel = Some s' ->
  texts s' = texts s /\ stack s' = [ArgList; EditStyle; Base] /\ cur s' = cur s /\ blade s' = blade s /\ arg s' = arg s /\ off s' = off s.
Proof.
  intros I L M E. pose proof I as [TD C]. rewrite L in C.
  assert (CH : choosing s) by (destruct M as [-> | [-> | [-> | ->]]]; exact C). clear C. destruct CH as [(B & O & N) _].
  unfold EditModel.step in E. rewrite L in E.
  assert (exists s0, pop s0 = Some s' /\ texts s0 = texts s /\ stack s0 = stack s /\ cur s0 = cur s /\ blade s0 = blade s /\ arg s0 = arg s /\ off s0 = off s)
    as (s0 & P & T0 & S0 & C0 & B0 & A0 & O0).
  { destruct M as [-> | [-> | [-> | ->]]]; (eexists; split; [exact E|cbn; auto 10]). }
  assert (TD0 : forall p b, tidy (texts s0 p b)) by (rewrite T0; exact TD).
  rewrite L in S0. destruct (pop_list s0 s' _ _ P TD0 S0 eq_refl) as (T & S & O' & _ & K & _).
  unfold same in S. rewrite T0, C0, B0 in *.
  split; [congruence|]. split; [apply K; exact N|]. intuition congruence.
Qed.

Lemma cancel_all s a qs s' : inv s -> stack s = [ArgList; EditStyle; Base] -> Forall quiet qs ->
  play s (Sel a :: qs ++ [Cancel]) = Some s' ->
  texts s' = texts s /\ stack s' = stack s /\ cur s' = cur s /\ blade s' = blade s.
Proof.
  intros I L Q E. cbn [EditModel.play] in E. unfold bind in E. destruct (step s (Sel a)) as [s1|] eqn:E1; [|discriminate].
  destruct (step_inv s (Sel a) s1 I Logic.I E1) as [I1 _].
  apply sel_open in E1; [|exact L]. destruct E1 as (x & m & B & N & M & _ & T & S & C & BL & A & O).
  rewrite L in S. rewrite play_app in E. unfold bind in E. destruct (play s1 qs) as [s2|] eqn:E2; [|discriminate].
  assert (AO : Forall args_only qs) by (eapply Forall_impl; [|exact Q]; intros o; destruct o; cbn; tauto).
  pose proof (play_inv qs s1 s2 I1 AO E2) as I2.
  pose proof (quiet_play qs s1 s2 m S M Q E2) as (T2 & S2 & C2 & B2 & _).
  cbn [EditModel.play] in E. unfold bind in E. destruct (step s2 Cancel) as [s3|] eqn:E3; [|discriminate]. injection E as <-.
  rewrite S in S2.
  destruct (cancel_some s2 s3 m I2 S2 M E3) as (T3 & S3 & C3 & B3 & _).
  split; [congruence|]. split; [congruence|]. split; congruence.
Qed.

(** * Storing *)
Lemma store_back s o s' : inv s -> step s o = Some s' -> (top s = ArgNumber /\ exists a, o = Sel a) \/ (top s = ArgColor /\ o = Save) ->
  changed s s' /\ stack s' = [ArgList; EditStyle; Base] /\ info table (text s') = info table (text s) /\ same s s' /\ off s' = off s.
Proof.
  intros I E H. pose proof I as [TD IS]. pose proof (inv_stacks s I) as L. cbn [In] in L. unfold top in H.
  destruct H as [[TP [a ->]]|[TP ->]];
  destruct L as [L|[L|[L|[L|[L|[L|[L|[]]]]]]]]; symmetry in L; rewrite L in TP, IS; try discriminate TP; unfold EditModel.step, bind in E; rewrite L in E.
  - destruct (SetIntArg _ _ _ _ _) as [s1|] eqn:E1; [|discriminate]. unfold SetIntArg in E1.
    destruct (set_then_pop s (itoa (num_pos s)) s1 s' _ TD L IS) as (_ & CH & K); auto.
    unfold value_text. rewrite (top_stack _ _ _ L). reflexivity.
  - destruct (SetArg s (blade s) (arg s) _) as [s1|] eqn:E1; [|discriminate].
    destruct (set_then_pop s (color_text (shown s)) s1 s' _ TD L IS) as (_ & CH & K); auto.
    unfold value_text. rewrite (top_stack _ _ _ L). reflexivity.
Qed.
Lemma store_two s a s' : inv s -> step s (Sel a) = Some s' -> top s = ArgSmooth \/ top s = ArgTime ->
  changed s s' /\ stack s' = [EditStyle; Base].
Proof.
  intros I E H. pose proof I as [TD IS]. pose proof (inv_stacks s I) as L. cbn [In] in L. unfold top in H.
  destruct L as [L|[L|[L|[L|[L|[L|[L|[]]]]]]]]; symmetry in L; rewrite L in H, IS; destruct H as [H|H]; try discriminate H; unfold EditModel.step, bind in E; rewrite L in E.
  - destruct (pop s) as [s0|] eqn:E0; [|discriminate]. cbn beta in E.
    destruct (SetIntArg _ _ _ s0 _) as [s1|] eqn:E1; [|discriminate]. unfold SetIntArg in E1.
    assert (VT : value_text s = Some (itoa (snd (store (smooth_d s))))) by (unfold value_text; rewrite (top_stack _ _ _ L); reflexivity).
    destruct (pop_set_pop s _ s0 s1 s' _ TD L IS VT E0 E1 E) as (_ & CH & K & _); auto.
  - destruct (pop s) as [s0|] eqn:E0; [|discriminate]. cbn beta in E.
    destruct (SetIntArg _ _ _ s0 _) as [s1|] eqn:E1; [|discriminate]. unfold SetIntArg in E1. rewrite millis_ok in E1.
    assert (VT : value_text s = Some (itoa (millis (snd (store (time_d s)))))) by (unfold value_text; rewrite (top_stack _ _ _ L); reflexivity).
    destruct (pop_set_pop s _ s0 s1 s' _ TD L IS VT E0 E1 E) as (_ & CH & K & _); auto.
Qed.

Lemma turn_play ts : forall s s', stack s = [ArgNumber; ArgList; EditStyle; Base] -> play s (map Turned ts) = Some s' ->
  menu_play (num_max s) (num_pos s) ts = Some (num_pos s') /\ kept s s'.
Proof.
  induction ts as [|t ts IH]; intros s s' L E; cbn [map EditModel.play menu_play] in *.
  - injection E as <-. unfold kept. auto 10.
  - unfold bind at 1 in E. destruct (step s (Turned t)) as [s1|] eqn:E1; [|discriminate].
    unfold EditModel.step, bind in E1. rewrite L in E1.
    destruct (menu_step (num_max s) (num_pos s) t) as [p|]; [|discriminate]. injection E1 as <-.
    destruct (IH (set_pos s (list_pos s) p (num_max s) (style_pos s)) s' L E) as [A B]. split; [exact A|]. unfold kept in *. cbn in *. exact B.
Qed.

(** A number: turned by [turned ts] from the value it had. *)
Lemma number_all s a ts a' s1 s' w v m : inv s -> stack s = [ArgList; EditStyle; Base] ->
  step s (Sel a) = Some s1 -> top s1 = ArgNumber ->
  play s1 (map Turned ts ++ [Sel a']) = Some s' ->
  GetArgument table (text s) (arg s1 + off s) = (true, Some w) -> fst (strtol0 w) = v ->
  m = (if max_arg (text s) (arg s1) <? 0 then 32768 else max_arg (text s) (arg s1)) -> 0 <= v < m -> m <= 65535 ->
  one_argument table (texts s) (texts s') (cur s) (blade s) (arg s1 + off s) (itoa ((v + turned ts) mod m)) /\
  stack s' = stack s.
Proof.
  intros I L E1 TP E G W M V MM.
  destruct (step_inv s (Sel a) s1 I Logic.I E1) as [I1 _].
  apply sel_open in E1; [|exact L]. destruct E1 as (x & mo & B & N & MO & P & T & S & C & BL & A & O).
  rewrite L in S. unfold top in TP. rewrite S in TP. cbn in TP. subst mo.
  assert (NP : num_pos s1 = v /\ num_max s1 = m).
  { unfold push in P. cbn [opened] in P. cbn [blade set_arg set_stack stack] in P.
    unfold GetStyle in P at 1. cbn [texts cur blade set_arg set_stack] in P.
    replace ((1 <=? blade s) && (blade s <=? blades)) with true in P by lia.
    destruct (GetIntArg _ _ _) as [u|] eqn:GI; [|discriminate].
    unfold GetIntArg, EditModel.GetArg, GetStyle in GI. cbn [texts cur blade arg off set_arg set_stack] in GI.
    replace ((1 <=? blade s) && (blade s <=? blades)) with true in GI by lia.
    rewrite <- A in GI. rewrite G in GI. destruct (_ <? 32)%nat; [|discriminate]. injection GI as <-. rewrite W in P.
    injection P as <-. cbn [num_pos num_max arg set_arg set_stack set_pos] in *. rewrite <- M. split; apply Z.mod_small; lia. }
  destruct NP as [NP NM]. rewrite play_app in E. unfold bind in E. destruct (play s1 (map Turned ts)) as [s2|] eqn:E2; [|discriminate].
  assert (AO : Forall args_only (map Turned ts)) by (apply Forall_forall; intros o X; apply in_map_iff in X; destruct X as (t & <- & _); exact Logic.I).
  pose proof (play_inv _ s1 s2 I1 AO E2) as I2.
  destruct (turn_play ts s1 s2 S E2) as [MP (T2 & S2 & C2 & B2 & A2 & O2 & _)].
  rewrite NM, NP, menu_play_ok in MP by lia. injection MP as MP.
  cbn [EditModel.play] in E. unfold bind in E. destruct (step s2 (Sel a')) as [s3|] eqn:E3; [|discriminate]. injection E as <-.
  assert (T2' : top s2 = ArgNumber) by (unfold top; rewrite S2, S; reflexivity).
  destruct (store_back s2 (Sel a') s3 I2 E3) as ((u & VT & ONE & _) & ST & _); [left; eauto|].
  unfold value_text in VT. rewrite T2' in VT. injection VT as <-.
  rewrite <- MP in ONE. rewrite T2, T, C2, C, B2, BL, A2, O2, O in ONE. split; [exact ONE|congruence].
Qed.

(** A color: chosen, stored, opened again. *)
Lemma color_length r g b : ch16 r -> ch16 g -> ch16 b -> (length (color_text (r, g, b)) < 32)%nat.
Proof.
  assert (K : forall x, ch16 x -> (length (itoa x) <= 5)%nat).
  { unfold ch16. intros x X. unfold itoa. replace (x <? 0) with false by lia. unfold digits.
    assert (LD : forall k f n acc, 0 <= n < 10 ^ Z.of_nat (S k) -> (length (digits_go f n acc) <= S k + length acc)%nat).
    { induction k; intros f n acc NB; destruct f; cbn [digits_go]; try lia.
      - cbn in NB. replace (n <? 10) with true by lia. cbn. lia.
      - destruct (n <? 10); [cbn; lia|]. specialize (IHk f (n / 10) ((48 + n mod 10) :: acc)). cbn [length] in IHk.
        rewrite Nat2Z.inj_succ, Z.pow_succ_r in NB by lia.
        assert (0 <= n / 10 < 10 ^ Z.of_nat (S k)) by (split; [apply Z.div_pos; lia|apply Z.div_lt_upper_bound; lia]). lia. }
    specialize (LD 4%nat (S (Z.to_nat (Z.log2 x))) x []). cbn [length] in LD. change (10 ^ Z.of_nat 5) with 100000 in LD. lia. }
  intros R G B. unfold color_text. rewrite !app_length. cbn [length]. pose proof (K r R). pose proof (K g G). pose proof (K b B). lia.
Qed.
Lemma color_all s a r g b a' s1 s' : inv s -> stack s = [ArgList; EditStyle; Base] ->
  step s (Sel a) = Some s1 -> top s1 = ArgColor -> ch16 r -> ch16 g -> ch16 b ->
  play s1 [Paint (r, g, b); Save; Sel a'] = Some s' ->
  top s' = ArgColor /\ arg s' = arg s1 /\ shown s' = (r, g, b).
Proof.
  intros I L E1 TP R G B E.
  destruct (step_inv s (Sel a) s1 I Logic.I E1) as [I1 _].
  pose proof E1 as E1'. unfold EditModel.step in E1'. rewrite L in E1'. unfold list_select, bind in E1'.
  destruct (GetStyle blades s (blade s)) as [t|] eqn:GS; [|discriminate]. apply GetStyle_some in GS. destruct GS as [BB ->].
  destruct (nth_error (snd (info table (text s))) (Z.to_nat (list_pos s))) as [x|] eqn:NX; [|discriminate].
  assert (SX : snd x = true).
  { destruct (snd x); [reflexivity|]. exfalso.
    assert (NC : forall m, m <> ArgColor -> (m = ArgNumber \/ m = ArgSmooth \/ m = ArgTime \/ m = ArgColor) -> push table blades max_arg (set_arg s (fst x)) m a = Some s1 -> False).
    { intros m NM MM P. unfold push in P. destruct (opened_choose _ m a s1 _ P MM (GetStyle_in _ _ BB)) as (_ & S & _).
      unfold top in TP. rewrite S in TP. cbn in TP. congruence. }
    destruct (_ || _) in E1'; [exact (NC ArgSmooth ltac:(discriminate) ltac:(auto) E1')|].
    destruct (_ && _) in E1'; [exact (NC ArgTime ltac:(discriminate) ltac:(auto) E1')|exact (NC ArgNumber ltac:(discriminate) ltac:(auto) E1')]. }
  rewrite SX in E1'. unfold push in E1'.
  destruct (opened_choose _ ArgColor a s1 _ E1' ltac:(auto) (GetStyle_in _ _ BB)) as (T & S & C & BL & A & O & _).
  assert (LP : list_pos s1 = list_pos s).
  { cbn [opened] in E1'. destruct (GetColorArg _ _ _); [|discriminate]. injection E1' as <-. reflexivity. }
  cbn [texts stack cur blade arg off set_arg set_stack] in *. rewrite L in S.
  cbn [EditModel.play] in E. unfold bind at 1 in E. destruct (step s1 (Paint (r, g, b))) as [s2|] eqn:E2; [|discriminate].
  destruct (step_inv s1 (Paint (r, g, b)) s2 I1 Logic.I E2) as [I2 _].
  unfold EditModel.step in E2. rewrite S in E2. injection E2 as <-.
  unfold bind at 1 in E. destruct (step (set_shown s1 (r, g, b)) Save) as [s3|] eqn:E3; [|discriminate].
  assert (T2 : top (set_shown s1 (r, g, b)) = ArgColor) by (unfold top; cbn [stack set_shown]; rewrite S; reflexivity).
  destruct (store_back _ Save s3 I2 E3) as ((v & VT & (_ & _ & GA & _) & _) & ST & IK & SM & OF); [right; auto|].
  unfold value_text in VT. rewrite T2 in VT. injection VT as <-. cbn [shown set_shown] in GA.
  unfold bind in E. destruct (step s3 (Sel a')) as [s4|] eqn:E4; [|discriminate]. injection E as <-.
  unfold same in SM. cbn [texts cur blade arg off list_pos set_shown] in *.
  destruct SM as (SC & SB & SA & _ & _ & SLP & _).
  unfold EditModel.step in E4. rewrite ST in E4. unfold list_select in E4. rewrite GetStyle_in in E4 by (rewrite SB, BL; exact BB).
  cbn [bind] in E4. rewrite IK, SLP, LP, T, C, BL, NX in E4. cbn [bind] in E4. rewrite SX in E4.
  unfold push in E4. cbn [opened] in E4. unfold GetColorArg, EditModel.GetArg in E4.
  rewrite GetStyle_in in E4 by (cbn; rewrite SB, BL; exact BB). cbn [texts stack cur blade arg off set_arg set_stack] in E4.
  rewrite SC, SB, OF, <- A, GA in E4.
  pose proof (color_length r g b R G B) as LEN.
  change (itoa r ++ 44 :: itoa g ++ 44 :: itoa b) with (color_text (r, g, b)) in E4.
  replace (length (color_text (r, g, b)) <? 32)%nat with true in E4 by (symmetry; apply Nat.ltb_lt; exact LEN).
  cbv iota beta in E4. rewrite (parse_color_text r g b R G B) in E4. injection E4 as <-. unfold top. cbn. auto.
Qed.
End Edit.

(** * Copying between styles *)
Section Copy.
Variable table : list (str * style).
Variable garbage : str.
Variable blades : Z.
Variable is_time : Z -> bool.
Variable presets : Z.
Variable max_arg : str -> Z -> Z.
Local Notation step := (EditModel.step table garbage blades is_time presets max_arg).

Lemma colors_ok from to : colors_copied from to (written (CopyColorArguments from to)).
Proof.
  intros TF TT NE NC. destruct (CopyColor_all from to TF TT NE NC) as [_ W]. exact W.
Qed.

Lemma SetStyle_some s b t s' : SetStyle blades s b t = Some s' -> 1 <= b <= blades /\ stack s' = stack s /\ cur s' = cur s /\ sel_blade s' = sel_blade s /\
  texts s' (cur s) b = t /\ only_text (texts s) (texts s') (cur s) b.
Proof.
  unfold SetStyle. destruct (_ && _) eqn:E; [|discriminate]. intros [= <-]. cbn [texts set_texts stack cur sel_blade].
  rewrite !Z.eqb_refl. cbn [andb]. repeat split; auto; try lia.
  intros p' b' D. cbn. replace ((p' =? cur s) && (b' =? b)) with false by lia. reflexivity.
Qed.
Lemma GetStyle_cur s p b t : GetStyle blades (set_cur s p) b = Some t -> t = texts s p b.
Proof. unfold GetStyle. destruct (_ && _); [|discriminate]. intros [= <-]. reflexivity. Qed.

Definition copy_entry (k : pick) : Prop := k = PApplyArgs \/ k = PApplyColors \/ k = PResetArgs \/ k = PResetColors.
Lemma pick_one s k s' l : stack s = EditStyle :: l -> copy_entry k -> step s (Pick k) = Some s' ->
  stack s' = stack s /\
  (sel_preset s = -1 -> k <> PResetArgs -> texts s' = texts s) /\
  (sel_preset s <> -1 \/ k = PResetArgs ->
   only_text (texts s) (texts s') (cur s) (sel_blade s) /\ 1 <= sel_blade s <= blades /\
   let old := texts s (cur s) (sel_blade s) in let new := texts s' (cur s) (sel_blade s) in
   let from := texts s (sel_preset s) (sel_blade s) in
   (k = PApplyArgs -> words new = name_words old ++ arg_words from) /\
   (k = PApplyColors -> colors_copied from old new) /\
   (k = PResetArgs -> words new = name_words old) /\
   (k = PResetColors -> colors_copied reset_text old new)).
Proof.
  intros L CE E. unfold EditModel.step in E. rewrite L in E. unfold picked, bind in E.
  assert (AW : arg_words reset_text = []) by reflexivity.
  destruct CE as [-> | [-> | [-> | ->]]].
  - destruct (Z.eqb_spec (sel_preset s) (-1)) as [M|M].
    { injection E as <-. split; [reflexivity|]. split; [auto|]. intros [H|H]; [contradiction|discriminate]. }
    destruct (GetStyle blades (set_cur s _) _) as [f|] eqn:G1; [|discriminate]. apply GetStyle_cur in G1.
    destruct (GetStyle blades s _) as [t|] eqn:G2; [|discriminate]. apply GetStyle_some in G2.
    apply SetStyle_some in E. destruct E as (B & S & C & _ & T & O). split; [exact S|]. split; [contradiction|]. intros _.
    split; [exact O|]. split; [exact B|]. cbv zeta. split; [|split; [discriminate|split; discriminate]]. intros _.
    rewrite T. destruct G2 as [_ ->]. subst f. exact (proj2 (Copy_all _ _)).
  - destruct (Z.eqb_spec (sel_preset s) (-1)) as [M|M].
    { injection E as <-. split; [reflexivity|]. split; [auto|]. intros [H|H]; [contradiction|discriminate]. }
    destruct (GetStyle blades (set_cur s _) _) as [f|] eqn:G1; [|discriminate]. apply GetStyle_cur in G1.
    destruct (GetStyle blades s _) as [t|] eqn:G2; [|discriminate]. apply GetStyle_some in G2.
    apply SetStyle_some in E. destruct E as (B & S & C & _ & T & O). split; [exact S|]. split; [contradiction|]. intros _.
    split; [exact O|]. split; [exact B|]. cbv zeta. split; [discriminate|]. split; [|split; discriminate]. intros _.
    rewrite T. destruct G2 as [_ ->]. subst f. apply colors_ok.
  - destruct (GetStyle blades s _) as [t|] eqn:G2; [|discriminate]. apply GetStyle_some in G2.
    apply SetStyle_some in E. destruct E as (B & S & C & _ & T & O). split; [exact S|]. split; [intros _ H; congruence|]. intros _.
    split; [exact O|]. split; [exact B|]. cbv zeta. split; [discriminate|]. split; [discriminate|]. split; [|discriminate]. intros _.
    rewrite T. destruct G2 as [_ ->]. destruct (Copy_all reset_text (texts s (cur s) (sel_blade s))) as [_ W]. rewrite W, AW, app_nil_r. reflexivity.
  - destruct (Z.eqb_spec (sel_preset s) (-1)) as [M|M].
    { injection E as <-. split; [reflexivity|]. split; [auto|]. intros [H|H]; [contradiction|discriminate]. }
    destruct (GetStyle blades s _) as [t|] eqn:G2; [|discriminate]. apply GetStyle_some in G2.
    apply SetStyle_some in E. destruct E as (B & S & C & _ & T & O). split; [exact S|]. split; [contradiction|]. intros _.
    split; [exact O|]. split; [exact B|]. cbv zeta. split; [discriminate|]. split; [discriminate|]. split; [discriminate|]. intros _.
    rewrite T. destruct G2 as [_ ->]. apply colors_ok.
Qed.

Lemma all_blades_some from n : forall s s', Z.of_nat n <= blades -> all_blades blades s from n = Some s' ->
  stack s' = stack s /\ cur s' = cur s /\ sel_blade s' = sel_blade s /\
  (forall b, 1 <= b <= Z.of_nat n -> b <> sel_blade s -> texts s' (cur s) b = written (CopyColorArguments from (texts s (cur s) b))) /\
  (forall p b, p <> cur s \/ b = sel_blade s \/ ~ 1 <= b <= Z.of_nat n -> texts s' p b = texts s p b).
Proof.
  induction n; intros s s' N E; cbn [all_blades] in E.
  - injection E as <-. repeat split; auto. lia.
  - unfold bind in E. destruct (all_blades blades s from n) as [s1|] eqn:E1; [|discriminate].
    destruct (IHn s s1 ltac:(lia) E1) as (S1 & C1 & SB1 & A1 & O1). cbn beta zeta in E.
    rewrite SB1 in E. destruct (Z.eqb_spec (Z.of_nat (S n)) (sel_blade s)) as [Q|Q].
    + injection E as <-. repeat split; auto.
      * intros b B D. apply A1; lia.
      * intros p b H. apply O1. lia.
    + destruct (GetStyle blades s1 _) as [t|] eqn:G; [|discriminate]. apply GetStyle_some in G. destruct G as [_ ->].
      apply SetStyle_some in E. destruct E as (B & ST & C & SB & T & O). rewrite C1 in *.
      split; [congruence|]. split; [congruence|]. split; [congruence|]. split.
      * intros b BB D. destruct (Z.eq_dec b (Z.of_nat (S n))) as [->|X].
        -- rewrite T. rewrite O1 by lia. reflexivity.
        -- rewrite O by lia. apply A1; lia.
      * intros p b H. rewrite O by lia. apply O1. lia.
Qed.
Lemma pick_all s s' l : stack s = EditStyle :: l -> 0 <= blades -> step s (Pick PAllBlades) = Some s' ->
  stack s' = stack s /\ 1 <= sel_blade s <= blades /\
  (forall b, 1 <= b <= blades -> b <> sel_blade s ->
     colors_copied (texts s (cur s) (sel_blade s)) (texts s (cur s) b) (texts s' (cur s) b)) /\
  (forall p b, p <> cur s \/ b = sel_blade s \/ ~ 1 <= b <= blades -> texts s' p b = texts s p b).
Proof.
  intros L NB E. unfold EditModel.step in E. rewrite L in E. cbn [picked] in E. unfold bind in E.
  destruct (GetStyle blades s _) as [f|] eqn:G; [|discriminate]. apply GetStyle_some in G. destruct G as [B ->].
  apply all_blades_some in E; [|lia]. destruct E as (S & C & _ & A & O). rewrite Z2Nat.id in * by lia.
  split; [exact S|]. split; [exact B|]. split; [|exact O]. intros b BB D. rewrite (A b BB D). apply colors_ok.
Qed.
Lemma pick_undefined s l k : stack s = EditStyle :: l -> ~ 1 <= sel_blade s <= blades -> k = PAllBlades \/ k = PResetArgs -> step s (Pick k) = None.
Proof.
  intros L B K. unfold EditModel.step. rewrite L. 
  assert (G : GetStyle blades s (sel_blade s) = None).
  { unfold GetStyle. replace ((1 <=? sel_blade s) && (sel_blade s <=? blades)) with false by lia. reflexivity. }
  destruct K as [-> | ->]; cbn [picked]; rewrite G; reflexivity.
Qed.

(** The style menu. *)
Lemma builtin_word : is_word builtin_text.
Proof. split; [discriminate|]. repeat constructor; intros [?|?]; discriminate. Qed.
Lemma builtin_words n b : words (mk_builtin_str n b) = [builtin_text; itoa n; itoa b].
Proof.
  unfold mk_builtin_str. pose proof (words_pieces [itoa n; itoa b] builtin_text builtin_word) as W.
  cbn [flat_map] in W. rewrite app_nil_r in W. apply W. repeat constructor; apply itoa_text.
Qed.
Lemma builtin_args n b : arg_words (mk_builtin_str n b) = [].
Proof. unfold arg_words, id_words. rewrite builtin_words. reflexivity. Qed.
Lemma style_select s a s' l : stack s = StyleList :: EditStyle :: l -> step s (Sel a) = Some s' ->
  only_text (texts s) (texts s') (cur s) (sel_blade s) /\ 1 <= sel_blade s <= blades /\
  words (texts s' (cur s) (sel_blade s)) = name_words (texts s (cur s) (sel_blade s)) /\ stack s' = EditStyle :: l.
Proof.
  intros L E. unfold EditModel.step in E. rewrite L in E. unfold bind in E.
  destruct (GetStyle blades s _) as [t|] eqn:G; [|discriminate]. apply GetStyle_some in G. destruct G as [B ->].
  destruct (SetStyle _ _ _ _) as [s1|] eqn:E1; [|discriminate]. apply SetStyle_some in E1. destruct E1 as (_ & S & C & _ & T & O).
  apply pop_some in E. rewrite S, L in E. cbn [tl] in E. destruct E as (T2 & _ & _ & K).
  rewrite T2, T. split; [exact O|]. split; [exact B|]. split; [|exact K].
  destruct (Copy_all (mk_builtin_str (style_preset blades s) (style_blade blades s)) (texts s (cur s) (sel_blade s))) as [_ W].
  rewrite W, builtin_args, app_nil_r. reflexivity.
Qed.
Lemma builtin_pos t p b rest : words t = builtin_text :: itoa p :: itoa b :: rest -> GetBuiltinPos t = (p, b).
Proof.
  intros W. unfold GetBuiltinPos.
  assert (FirstWord t builtin_text = true) as -> by (apply FirstWord_spec; [apply builtin_word|rewrite W; reflexivity]).
  assert (K : forall n v, 1 <= n -> nth_error (words t) (Z.to_nat n) = Some (itoa v) -> fst (readIntValue (ArgModel.GetArg (SkipWord t) n [])) = v).
  { intros n v N H. pose proof (get_arg_spec (SkipWord t) n []) as G. rewrite argument_SkipWord, H in G by exact N.
    pose proof (itoa_text v) as [_ TI]. destruct (itoa v) as [|c w] eqn:Q; [pose proof (itoa_nonnil v); congruence|].
    cbn [hd] in TI. replace (c =? 126) with false in G by lia. destruct G as [(r & P & R) _]. rewrite P, <- Q.
    rewrite read_int_itoa; [reflexivity|]. destruct R as [-> | (x & y & -> & [-> | ->])]; cbn; auto; lia. }
  f_equal; apply K; try lia; rewrite W; reflexivity.
Qed.
Lemma style_open s s' l p b rest : stack s = EditStyle :: l -> words (texts s (cur s) (blade s)) = builtin_text :: itoa p :: itoa b :: rest ->
  0 <= p -> 0 <= b < blades -> p * blades + b < 65536 ->
  step s (Pick PStyle) = Some s' -> style_blade blades s' = p /\ style_preset blades s' = b.
Proof.
  intros L W P B M E. unfold EditModel.step in E. rewrite L in E. cbn [picked] in E. unfold push in E. cbn [opened] in E.
  destruct (GetStyle _ _ _) as [t|] eqn:G; [|discriminate]. apply GetStyle_some in G. destruct G as [_ ->]. cbn [texts cur blade set_stack] in E.
  rewrite (builtin_pos _ _ _ _ W) in E. injection E as <-. unfold style_blade, style_preset. cbn [style_pos set_pos].
  rewrite (Z.mod_small (p * blades + b)) by nia.
  split; [rewrite Z.div_add_l by lia; rewrite Z.div_small by lia; lia|rewrite Z.add_comm, Z.mod_add by lia; apply Z.mod_small; lia].
Qed.
End Copy.
