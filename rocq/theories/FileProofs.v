From Coq Require Import ZArith List Bool Lia ZifyBool ZifyNat.
From Verif Require Import StrModel FileModel FileSpec.
Import ListNotations.
Open Scope Z_scope.

Ltac dif := repeat match goal with
  | |- context [if ?b then _ else _] => destruct b eqn:?
  | H : context [if ?b then _ else _] |- _ => destruct b eqn:?
  end.

Lemma digits_go_spec fuel : forall n acc, 0 <= n < 2 ^ Z.of_nat fuel -> (0 < fuel)%nat ->
  exists ds, digits_go fuel n acc = ds ++ acc /\ digit_string ds /\ digits_value ds = n /\
    (n < 10 -> length ds = 1%nat).
Proof.
  induction fuel; intros n acc N F; [lia|]. cbn [digits_go].
  pose proof (Z.mod_pos_bound n 10 ltac:(lia)) as M.
  destruct (n <? 10) eqn:E.
  - exists [48 + n mod 10]. split; [reflexivity|].
    split; [split; [discriminate|repeat constructor; lia]|].
    rewrite Z.mod_small by lia. unfold digits_value. cbn [fold_left]. split; [lia|reflexivity].
  - assert (P : (0 < fuel)%nat).
    { destruct fuel; [|lia]. cbn in N. lia. }
    assert (N' : 0 <= n / 10 < 2 ^ Z.of_nat fuel).
    { split; [apply Z.div_pos; lia|]. apply Z.div_lt_upper_bound; [lia|].
      rewrite Nat2Z.inj_succ, Z.pow_succ_r in N by lia. nia. }
    destruct (IHfuel (n / 10) ((48 + n mod 10) :: acc) N' P) as (ds & E1 & [D1 D2] & V & _).
    exists (ds ++ [48 + n mod 10]). rewrite E1, <- app_assoc. split; [reflexivity|].
    split. { split; [destruct ds; discriminate|]. apply Forall_app. split; [auto|repeat constructor; lia]. }
    split; [|lia]. unfold digits_value in *. rewrite fold_left_app, V. cbn [fold_left].
    pose proof (Z.div_mod n 10). lia.
Qed.

Lemma digits_spec n : 0 <= n -> digit_string (digits n) /\ digits_value (digits n) = n /\
  (n < 10 -> length (digits n) = 1%nat).
Proof.
  intros N. unfold digits.
  destruct (digits_go_spec (S (Z.to_nat (Z.log2 n))) n []) as (ds & E & D & V & L).
  - split; [lia|]. rewrite Nat2Z.inj_succ, Z2Nat.id by apply Z.log2_nonneg.
    destruct (Z.eq_dec n 0) as [->|]; [reflexivity|]. apply Z.log2_spec. lia.
  - lia.
  - rewrite E, app_nil_r. auto.
Qed.

Lemma read_digits_spec ds r : Forall (fun c => 48 <= c <= 57) ds -> no_digit r -> forall a,
  read_digits (ds ++ r) a = (fold_left (fun a c => 10 * a + (c - 48)) ds a, r).
Proof.
  intros F R. induction F as [|c ds C F IH]; intros a.
  - cbn [app fold_left]. destruct r as [|c r]; [reflexivity|]. cbn in R. cbn [read_digits].
    unfold is_digit. destruct ((48 <=? c) && (c <=? 57)) eqn:E; [lia|reflexivity].
  - cbn [app read_digits]. unfold is_digit. replace ((48 <=? c) && (c <=? 57)) with true by lia.
    rewrite IH. cbn [fold_left]. f_equal. f_equal. lia.
Qed.

Lemma read_int_itoa v r : no_digit r -> readIntValue (itoa v ++ r) = (v, r).
Proof.
  intros R. unfold itoa, readIntValue. destruct (v <? 0) eqn:E.
  - cbn [app peek tl]. rewrite Z.eqb_refl.
    destruct (digits_spec (- v) ltac:(lia)) as ([_ D] & V & _).
    rewrite (read_digits_spec _ _ D R). fold (digits_value (digits (- v))). rewrite V.
    f_equal. lia.
  - destruct (digits_spec v ltac:(lia)) as ([N D] & V & _).
    destruct (peek (digits v ++ r) =? 45) eqn:P.
    + destruct (digits v) as [|c ds]; [congruence|]. inversion D; subst. cbn in P. lia.
    + rewrite (read_digits_spec _ _ D R). fold (digits_value (digits v)). rewrite V. f_equal. lia.
Qed.

(** Strings *)
Lemma readString_escape v r : 
  readString (escape v ++ LF :: r) = (v, LF :: r).
Proof.
  induction v as [|c v IH]; [reflexivity|]. cbn [escape].
  destruct (c =? LF) eqn:E1; [|destruct (c =? TAB) eqn:E2; [|destruct (c =? BSL) eqn:E3]].
  - apply Z.eqb_eq in E1. subst c. cbn [app readString].
    change (BSL =? LF) with false. change (BSL =? BSL) with true. cbv iota.
    rewrite IH. reflexivity.
  - apply Z.eqb_eq in E2. subst c. cbn [app readString].
    change (BSL =? LF) with false. change (BSL =? BSL) with true. cbv iota.
    rewrite IH. reflexivity.
  - apply Z.eqb_eq in E3. subst c. cbn [app readString].
    change (BSL =? LF) with false. change (BSL =? BSL) with true. cbv iota.
    rewrite IH. reflexivity.
  - cbn [app readString]. rewrite E1, E3, IH. reflexivity.
Qed.

Lemma skipspace_escape v r : skipspace (escape v ++ LF :: r) = escape (drop_spaces v) ++ LF :: r.
Proof.
  induction v as [|c v IH]; [reflexivity|]. cbn [escape drop_spaces].
  destruct (c =? 32) eqn:E.
  - apply Z.eqb_eq in E. subst c. cbn. exact IH.
  - cbn [escape]. destruct (c =? LF) eqn:E1; [reflexivity|]. destruct (c =? TAB) eqn:E2; [reflexivity|].
    destruct (c =? BSL) eqn:E3; [reflexivity|]. cbn [app skipspace]. unfold SP. rewrite E, E2. reflexivity.
Qed.

Lemma read_value v r : readString (skipspace (escape v ++ LF :: r)) = (drop_spaces v, LF :: r).
Proof. rewrite skipspace_escape. apply readString_escape. Qed.

(** Names *)
Definition name_ok (n : list Z) : Prop :=
  n <> [] /\ (length n <= 32)%nat /\ Forall (fun c => name_char (toLower c) = true) n.

Lemma toLower_idem c : toLower (toLower c) = toLower c.
Proof. unfold toLower. dif; lia. Qed.

Lemma read_name_spec n r : Forall (fun c => name_char (toLower c) = true) n ->
  name_char (toLower (peek r)) = false -> forall k, (length n <= k)%nat ->
  read_name k (n ++ r) = (map toLower n, r).
Proof.
  intros F R. induction F as [|c n C F IH]; intros k K.
  - cbn [app map]. destruct k; [reflexivity|]. cbn [read_name]. destruct r as [|d r]; [reflexivity|].
    cbn [peek] in R. rewrite R. reflexivity.
  - destruct k; [cbn in K; lia|]. cbn [app read_name]. rewrite C.
    rewrite IH by (cbn in K; lia). reflexivity.
Qed.

Lemma name_char_nospace c : name_char (toLower c) = true -> c <> SP /\ c <> TAB /\ c <> LF /\ c <> CR /\ c <> EQS /\ c <> HASH /\ c <> -1.
Proof. unfold name_char, toLower, is_digit, SP, TAB, LF, CR, EQS, HASH. intros. dif; lia. Qed.

Lemma skipspace_name n r : name_ok n -> skipspace (n ++ r) = n ++ r.
Proof.
  intros (N & _ & F). destruct n as [|c n]; [congruence|]. inversion F; subst.
  apply name_char_nospace in H1. cbn [app skipspace]. unfold SP, TAB in *.
  destruct ((c =? 32) || (c =? 9)) eqn:E; [lia|reflexivity].
Qed.

Lemma readVariable_name n r : name_ok n -> name_char (toLower (peek r)) = false ->
  readVariable (n ++ r) = (map toLower n, skipspace r).
Proof.
  intros N R. unfold readVariable. rewrite skipspace_name by auto.
  destruct N as (N & L & F). rewrite (read_name_spec n r F R 32 L). reflexivity.
Qed.

(** Floats *)
Lemma read_float_digits ds r : Forall (fun c => 48 <= c <= 57) ds -> forall m p,
  read_float (ds ++ r) m p =
  read_float r (fold_left (fun a c => 10 * a + (c - 48)) ds m)
    (match p with Some k => Some (k + length ds)%nat | None => None end).
Proof.
  intros F. induction F as [|c ds C F IH]; intros m p.
  - cbn [app fold_left length]. destruct p; [rewrite Nat.add_0_r|]; reflexivity.
  - cbn [app read_float]. unfold is_digit. replace ((48 <=? c) && (c <=? 57)) with true by lia.
    rewrite IH. cbn [fold_left length]. replace (10 * m + (c - 48)) with (c - 48 + 10 * m) by lia.
    destruct p; [|reflexivity]. do 2 f_equal. lia.
Qed.

Lemma floor_chain d : 0 <= mant d ->
  let F := floor_times d in
  F 1 = F 100 / 100 /\ F 10 = F 100 / 10 /\ 0 <= F 100.
Proof.
  intros M F. unfold F, floor_times.
  set (q := 10 ^ Z.of_nat (places d)). assert (0 < q) by (apply Z.pow_pos_nonneg; lia).
  repeat split.
  - rewrite Z.div_div by lia. rewrite (Z.mul_comm q 100).
    replace (mant d * 100) with (100 * (mant d * 1)) by lia. rewrite Z.div_mul_cancel_l by lia. reflexivity.
  - rewrite Z.div_div by lia. rewrite (Z.mul_comm q 10).
    replace (mant d * 100) with (10 * (mant d * 10)) by lia. rewrite Z.div_mul_cancel_l by lia. reflexivity.
  - apply Z.div_pos; lia.
Qed.

Lemma read_float_text d r : 0 <= mant d -> no_digit r -> peek r <> 46 ->
  readFloatValue (float_text d ++ r) = (two_decimals d, r).
Proof.
  intros M R P. destruct (floor_chain d M) as (F1 & F10 & F100).
  unfold float_text, two_decimals. fold (floor_times d 100).
  remember (floor_times d 100) as h.
  assert (A1 : 0 <= floor_times d 1) by (rewrite F1; apply Z.div_pos; lia).
  assert (A2 : 0 <= floor_times d 10) by (rewrite F10; apply Z.div_pos; lia).
  rewrite !Z.rem_mod_nonneg by lia. rewrite F10, F1.
  pose proof (Z.mod_pos_bound (h / 10) 10 ltac:(lia)). pose proof (Z.mod_pos_bound h 10 ltac:(lia)).
  unfold itoa. replace (h / 100 <? 0) with false by lia.
  replace ((h / 10) mod 10 <? 0) with false by lia. replace (h mod 10 <? 0) with false by lia.
  destruct (digits_spec (h / 100) ltac:(lia)) as ([N1 D1] & V1 & _).
  destruct (digits_spec ((h / 10) mod 10) ltac:(lia)) as ([N2 D2] & V2 & L2).
  destruct (digits_spec (h mod 10) ltac:(lia)) as ([N3 D3] & V3 & L3).
  specialize (L2 ltac:(lia)). specialize (L3 ltac:(lia)).
  unfold readFloatValue.
  destruct (peek ((digits (h / 100) ++ [46] ++ digits ((h / 10) mod 10) ++ digits (h mod 10)) ++ r) =? 45) eqn:E.
  { destruct (digits (h / 100)) as [|c ds]; [congruence|]. inversion D1; subst. cbn in E. lia. }
  rewrite <- !app_assoc. rewrite read_float_digits by auto.
  cbn [app read_float]. change (is_digit 46) with false. change (46 =? 46) with true. cbv iota.
  rewrite read_float_digits by auto. rewrite read_float_digits by auto.
  unfold digits_value in V1, V2, V3. rewrite V1, L2, L3.
  set (x := fold_left _ (digits ((h / 10) mod 10)) _).
  assert (X : x = 10 * (h / 100) + (h / 10) mod 10).
  { unfold x. destruct (digits ((h / 10) mod 10)) as [|c [|? ?]]; try discriminate.
    cbn [fold_left] in V2 |- *. lia. }
  set (y := fold_left _ (digits (h mod 10)) _).
  assert (Y : y = 10 * x + h mod 10).
  { unfold y. destruct (digits (h mod 10)) as [|c [|? ?]]; try discriminate. cbn [fold_left] in V3 |- *. lia. }
  assert (YH : y = h).
  { rewrite Y, X. pose proof (Z.div_mod (h / 10) 10). pose proof (Z.div_mod h 10).
    pose proof (Z.div_div h 10 10 ltac:(lia) ltac:(lia)) as DD. change (10 * 10) with 100 in DD. lia. }
  rewrite YH. cbn [Nat.add].
  destruct r as [|c r]; [reflexivity|]. cbn in R, P. cbn [read_float].
  unfold is_digit. destruct ((48 <=? c) && (c <=? 57)) eqn:E1; [lia|].
  destruct (c =? 46) eqn:E2; [lia|]. reflexivity.
Qed.

Lemma expect_app s r : expect s (s ++ r) = Some r.
Proof. induction s; cbn; [reflexivity|]. rewrite Z.eqb_refl. exact IHs. Qed.

Lemma skipline_app a r : Forall (fun c => c <> LF) a -> skipline (a ++ LF :: r) = r.
Proof.
  intros F. induction F as [|c a C F IH]; [reflexivity|]. cbn [app skipline].
  destruct (c =? LF) eqn:E; [lia|exact IH].
Qed.
Lemma skipline_end a : Forall (fun c => c <> LF) a -> skipline a = [].
Proof.
  intros F. induction F as [|c a C F IH]; [reflexivity|]. cbn [skipline].
  destruct (c =? LF) eqn:E; [lia|exact IH].
Qed.

Lemma letters_name key :
  Forall (fun c => 97 <= c <= 122 \/ 65 <= c <= 90 \/ 48 <= c <= 57 \/ c = 95 \/ c = 46) key ->
  Forall (fun c => name_char (toLower c) = true) key.
Proof.
  intros F. eapply Forall_impl; [|exact F]. intros c C. cbv beta in C. unfold name_char, is_digit, toLower. dif; lia.
Qed.

Lemma key_value_round_trip key value rest :
  key <> [] -> (length key <= 32)%nat ->
  Forall (fun c => 97 <= c <= 122 \/ 65 <= c <= 90 \/ 48 <= c <= 57 \/ c = 95 \/ c = 46) key ->
  let (k, f) := readVariable (write_key_value key value ++ rest) in
  k = map toLower key /\ peek f = 61 /\
  readString (skipspace (tl f)) = (drop_spaces value, 10 :: rest).
Proof.
  intros N L F. unfold write_key_value. rewrite <- !app_assoc.
  rewrite readVariable_name; [|split; [auto|split; auto using letters_name]|reflexivity].
  split; [reflexivity|]. split; [reflexivity|]. cbn [app skipspace]. change (EQS =? SP) with false.
  change (EQS =? TAB) with false. cbn [orb tl]. apply read_value.
Qed.

Lemma one_line key value :
  Forall (fun c => c <> 10) key ->
  exists body, write_key_value key value = body ++ [10] /\ Forall (fun c => c <> 10) body.
Proof.
  intros K. exists (key ++ [EQS] ++ escape value). split.
  - unfold write_key_value. rewrite <- !app_assoc. reflexivity.
  - apply Forall_app. split; [auto|]. apply Forall_app. split; [repeat constructor; discriminate|].
    clear. induction value as [|c v IH]; [constructor|]. cbn [escape]. apply Forall_app. split; [|exact IH].
    unfold LF, TAB, BSL. dif; repeat constructor; lia.
Qed.

Lemma itoa_chars v : Forall (fun c => c = 45 \/ 48 <= c <= 57) (itoa v).
Proof.
  assert (X : forall n, 0 <= n -> Forall (fun c => c = 45 \/ 48 <= c <= 57) (digits n)).
  { intros n N. destruct (digits_spec n N) as ([_ D] & _). eapply Forall_impl; [|exact D]. cbn. lia. }
  unfold itoa. destruct (v <? 0) eqn:E; [constructor; [auto|]|]; apply X; lia.
Qed.

Lemma key_int_round_trip key v rest :
  key <> [] -> (length key <= 32)%nat ->
  Forall (fun c => 97 <= c <= 122 \/ 65 <= c <= 90 \/ 48 <= c <= 57 \/ c = 95 \/ c = 46) key ->
  let (k, f) := readVariable (write_key_int key v ++ rest) in
  k = map toLower key /\ peek f = 61 /\
  readIntValue (skipspace (tl f)) = (v, 10 :: rest).
Proof.
  intros N L F. unfold write_key_int, write_key_value. rewrite <- !app_assoc.
  rewrite readVariable_name; [|split; [auto|split; auto using letters_name]|reflexivity].
  split; [reflexivity|]. split; [reflexivity|]. cbn [app skipspace]. change (EQS =? SP) with false.
  change (EQS =? TAB) with false. cbn [orb tl].
  pose proof (itoa_chars v) as C.
  assert (E : escape (itoa v) = itoa v).
  { clear -C. induction C as [|c l C _ IH]; [reflexivity|]. cbn [escape]. rewrite IH. unfold LF, TAB, BSL. dif; try reflexivity; lia. }
  rewrite E.
  assert (S0 : skipspace (itoa v ++ LF :: rest) = itoa v ++ LF :: rest).
  { destruct (itoa v) as [|c l]; [reflexivity|]. inversion C; subst. cbn [app skipspace].
    unfold SP, TAB. dif; [lia|reflexivity]. }
  rewrite S0. apply read_int_itoa. cbn. unfold LF. lia.
Qed.
