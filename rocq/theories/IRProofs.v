(** Lemmas about infrared transmission. *)
From Coq Require Import ZArith List Bool Lia ZifyBool ZifyNat.
From Verif Require Import Machine ArithProofs IRModel IRSpec.
Import ListNotations.
Open Scope Z_scope.

Lemma run_state_app {S I O} (step : S -> I -> S * O) a : forall s b, run_state step s (a ++ b) = run_state step (run_state step s a) b.
Proof. induction a as [|i a IH]; intros s b; [reflexivity|]. cbn [app run_state]. apply IH. Qed.
Lemma run_outs_app {S I O} (step : S -> I -> S * O) a : forall s b, run_outs step s (a ++ b) = run_outs step s a ++ run_outs step (run_state step s a) b.
Proof.
  induction a as [|i a IH]; intros s b; [reflexivity|]. cbn [app run_state run_outs]. destruct (step s i) as (s', o) eqn:E. cbn [fst app]. f_equal. apply IH.
Qed.

(** * Transmission errors that a decoder does not notice *)
Section Seen.
  Context {S O : Type}.
  Variable step : S -> pulse -> S * list O.
  Variable tol : Z.
  Definition outs s l := concat (run_outs step s l).
  Definition st s l := run_state step s l.
  Lemma outs_cons s p l : outs s (p :: l) = snd (step s p) ++ outs (fst (step s p)) l.
  Proof. unfold outs. cbn [run_outs]. destruct (step s p). reflexivity. Qed.
  Lemma st_cons s p l : st s (p :: l) = st (fst (step s p)) l.
  Proof. reflexivity. Qed.
  Lemma outs_app s a b : outs s (a ++ b) = outs s a ++ outs (st s a) b.
  Proof. unfold outs, st. rewrite run_outs_app, concat_app. reflexivity. Qed.
  Lemma st_app s a b : st s (a ++ b) = st (st s a) b.
  Proof. apply run_state_app. Qed.

  Inductive good : S -> list pulse -> Prop :=
  | G_nil s : good s []
  | G_cons s h u rest :
      (forall u', Z.abs (u - u') <= tol -> step s (h, u') = step s (h, u)) ->
      good (fst (step s (h, u))) rest ->
      (forall u2 rest2, rest = (h, u2) :: rest2 -> good s ((h, u + u2) :: rest2)) ->
      (forall u2 rest2, rest = (h, u2) :: rest2 ->
         fst (step s (h, u + u2)) = fst (step (fst (step s (h, u))) (h, u2)) /\
         snd (step s (h, u + u2)) = snd (step s (h, u)) ++ snd (step (fst (step s (h, u))) (h, u2))) ->
      good s ((h, u) :: rest).
  Lemma seen_good sent got : seen tol sent got -> forall s, good s sent -> outs s got = outs s sent /\ st s got = st s sent.
  Proof.
    induction 1 as [|h us us' sent got T H IH|h u1 u2 sent got H IH]; intros s G.
    - auto.
    - inversion G as [|? ? ? ? T' G' _ _]; subst. rewrite !outs_cons, !st_cons, T' by assumption. destruct (IH _ G') as (-> & ->). auto.
    - inversion G as [|? ? ? ? _ _ M E]; subst. destruct (E _ _ eq_refl) as (E1 & E2). destruct (IH s (M _ _ eq_refl)) as (-> & ->).
      rewrite !outs_cons, !st_cons, E1, E2, app_assoc. auto.
  Qed.
  Lemma good_tail s p rest : good s (p :: rest) -> good (fst (step s p)) rest.
  Proof. inversion 1; subst; assumption. Qed.
  (** The usual case: no merging possible here. *)
  Lemma G_step s h u rest : (forall u', Z.abs (u - u') <= tol -> step s (h, u') = step s (h, u)) ->
    good (fst (step s (h, u))) rest -> match rest with [] => True | (h2, _) :: _ => h2 <> h end -> good s ((h, u) :: rest).
  Proof. intros A B C. constructor; try assumption; intros u2 rest2 ->; congruence. Qed.
End Seen.

(** * NEC *)
Lemma classify_close c us us' :
  In c [560; 1690; 2250; 4500; 9000] -> us = c -> Z.abs (us - us') <= 149 -> nec_classify us' = nec_classify us.
Proof.
  intros [<- |[<- |[<- |[<- |[<- |[]]]]]] -> H; unfold nec_classify;
  repeat match goal with |- context [?a <? ?b] => destruct (Z.ltb_spec a b); try lia end; reflexivity.
Qed.
Lemma classify_gap us : 10000 <= us -> nec_classify us = ILLEGAL.
Proof. intros H. unfold nec_classify. repeat match goal with |- context [?a <? ?b] => destruct (Z.ltb_spec a b); try lia end; reflexivity. Qed.
Definition nec0 := Nec NBegin 0 0.
Lemma nec_step_class s h us us' : nec_classify us = nec_classify us' -> nec_step s (h, us) = nec_step s (h, us').
Proof. intros E. unfold nec_step. rewrite E. reflexivity. Qed.
Definition topbit (top data : Z) : Z := if Z.land data (2 ^ (top - 1)) =? 0 then 0 else 1.
Lemma topbit_div top data : 1 <= top -> 0 <= data < 2 ^ top -> topbit top data = data / 2 ^ (top - 1).
Proof.
  intros T D. assert (TP : 2 ^ top = 2 * 2 ^ (top - 1)) by (rewrite <- Z.pow_succ_r by lia; f_equal; lia).
  assert (TB : Z.testbit data (top - 1) = Z.odd (data / 2 ^ (top - 1))) by (rewrite <- Z.shiftr_div_pow2 by lia; rewrite <- Z.testbit_odd; reflexivity).
  assert (Q : 0 <= data / 2 ^ (top - 1) < 2) by (split; [apply Z.div_pos; lia|apply Z.div_lt_upper_bound; lia]).
  unfold topbit. destruct (Z.eqb_spec (Z.land data (2 ^ (top - 1))) 0) as [E|E].
  - assert (X : Z.testbit (Z.land data (2 ^ (top - 1))) (top - 1) = false) by (rewrite E; apply Z.bits_0).
    rewrite Z.land_spec, Z.pow2_bits_true, andb_true_r in X by lia. rewrite TB in X. clear - X Q. set (q := data / 2 ^ (top - 1)) in *. clearbody q.
    assert (q = 0 \/ q = 1) as [-> | ->] by lia; [reflexivity|discriminate].
  - assert (X : Z.testbit data (top - 1) = true).
    { destruct (Z.testbit data (top - 1)) eqn:F; [reflexivity|]. exfalso. apply E. apply Z.bits_inj'. intros i I. rewrite Z.land_spec, Z.bits_0, Z.pow2_bits_eqb by lia.
      destruct (Z.eqb_spec (top - 1) i) as [<- |]; [rewrite F; reflexivity|apply andb_false_r]. }
    rewrite TB in X. clear - X Q. set (q := data / 2 ^ (top - 1)) in *. clearbody q.
    assert (q = 0 \/ q = 1) as [-> | ->] by lia; [discriminate|reflexivity].
Qed.
Lemma shift_in top data acc m : 1 <= top -> 0 <= data < 2 ^ top -> 0 <= m -> m + 1 <= top ->
  (2 * acc + topbit top data) * 2 ^ m + (2 * data) mod 2 ^ top / 2 ^ (top - m) = acc * 2 ^ (m + 1) + data / 2 ^ (top - (m + 1)).
Proof.
  intros T D M MT. rewrite topbit_div by assumption. set (b := data / 2 ^ (top - 1)).
  assert (TP : 2 ^ top = 2 * 2 ^ (top - 1)) by (rewrite <- Z.pow_succ_r by lia; f_equal; lia).
  rewrite Z.pow_add_r, Z.pow_1_r by lia.
  assert (E : (2 * data) mod 2 ^ top = 2 * data - b * 2 ^ top).
  { rewrite TP. rewrite Z.mul_mod_distr_l by (try apply Z.pow_nonzero; lia). rewrite Z.mod_eq by (apply Z.pow_nonzero; lia). fold b. ring. }
  rewrite E. replace (2 ^ top) with (2 ^ m * 2 ^ (top - m)) by (rewrite <- Z.pow_add_r by lia; f_equal; lia).
  replace (2 * data - b * (2 ^ m * 2 ^ (top - m))) with (2 * data + (- b * 2 ^ m) * 2 ^ (top - m)) by ring.
  rewrite Z.div_add by (apply Z.pow_nonzero; lia).
  replace (top - (m + 1)) with (top - m - 1) by ring.
  replace (2 ^ (top - m)) with (2 * 2 ^ (top - m - 1)) by (rewrite <- Z.pow_succ_r by lia; f_equal; lia).
  rewrite Z.div_mul_cancel_l by (try apply Z.pow_nonzero; lia). ring.
Qed.
Lemma lor_bit a b : 0 <= a -> 0 <= b <= 1 -> Z.lor (a * 2) b = 2 * a + b.
Proof. intros A B. assert (b = 0 \/ b = 1) as [-> | ->] by lia; [rewrite Z.lor_0_r; ring|]. rewrite Z.mul_comm. destruct a; [reflexivity|reflexivity|lia]. Qed.
Lemma nec_bit_eq acc bits b : 0 <= bits < 32 -> 0 <= acc < 2 ^ bits -> 0 <= b <= 1 ->
  nec_bit (Nec NBits acc bits) b = if bits + 1 <? 32 then (Nec NBits (2 * acc + b) (bits + 1), []) else (nec0, [Nec32 (2 * acc + b)]).
Proof.
  intros B A B01. assert (S32 : 2 * 2 ^ bits <= 2 ^ 32) by (rewrite <- Z.pow_succ_r by lia; apply Z.pow_le_mono_r; lia).
  unfold nec_bit. cbn [n_data n_bits]. unfold u8, u32. rewrite (Z.mod_small (bits + 1)) by lia. rewrite Z.shiftl_mul_pow2 by lia. rewrite Z.pow_1_r, Z.mod_small by lia.
  rewrite lor_bit by lia. destruct (bits + 1 <? 32) eqn:F; [reflexivity|]. unfold nec_fail. replace (bits + 1 =? 16) with false by lia. reflexivity.
Qed.
Lemma nec_bits_good n top data s rest bits acc :
  (1 <= top)%Z -> 0 <= data < 2 ^ top -> s = Nec NBits acc bits -> 0 <= bits -> bits + Z.of_nat n <= 32 -> 0 <= acc < 2 ^ bits ->
  Z.of_nat n <= top ->
  let final := acc * 2 ^ Z.of_nat n + data / 2 ^ (top - Z.of_nat n) in
  (n = 0%nat \/ bits + Z.of_nat n < 32 ->
    outs nec_step s (nec_bits top n data ++ rest) = outs nec_step (Nec NBits final (bits + Z.of_nat n)) rest /\
    (good nec_step 149 (Nec NBits final (bits + Z.of_nat n)) rest -> match rest with (false, _) :: _ => False | _ => True end -> good nec_step 149 s (nec_bits top n data ++ rest)) /\
    st nec_step s (nec_bits top n data ++ rest) = st nec_step (Nec NBits final (bits + Z.of_nat n)) rest) /\
  (n <> 0%nat -> bits + Z.of_nat n = 32 ->
    outs nec_step s (nec_bits top n data ++ rest) = Nec32 final :: outs nec_step nec0 rest /\
    (good nec_step 149 nec0 rest -> match rest with (false, _) :: _ => False | _ => True end -> good nec_step 149 s (nec_bits top n data ++ rest)) /\
    st nec_step s (nec_bits top n data ++ rest) = st nec_step nec0 rest).
Proof.
  revert data s bits acc. induction n as [|n IH]; intros data s bits acc T D -> B1 B2 A N final.
  { unfold final. cbn [nec_bits app]. change (Z.of_nat 0) with 0. rewrite Z.pow_0_r, Z.mul_1_r, Z.add_0_r, Z.sub_0_r, Z.div_small, Z.add_0_r by lia.
    split; [auto|congruence]. }
  set (b := topbit top data).
  set (data' := (2 * data) mod 2 ^ top). set (acc' := 2 * acc + b).
  assert (B01 : 0 <= b <= 1) by (unfold b, topbit; destruct (_ =? 0); lia).
  assert (A' : 0 <= acc' < 2 ^ (bits + 1)) by (clear - A B01 B1; unfold acc'; rewrite Z.add_1_r, Z.pow_succ_r by lia; lia).
  assert (D' : 0 <= data' < 2 ^ top) by (apply Z.mod_pos_bound; apply Z.pow_pos_nonneg; lia).
  assert (FE : acc' * 2 ^ Z.of_nat n + data' / 2 ^ (top - Z.of_nat n) = final).
  { unfold final. replace (Z.of_nat (S n)) with (Z.of_nat n + 1) by lia. apply shift_in; lia. }
  assert (NB : nec_bit (Nec NBits acc bits) b = if bits + 1 <? 32 then (Nec NBits acc' (bits + 1), []) else (nec0, [Nec32 acc'])) by (apply nec_bit_eq; lia).
  clearbody final.
  set (us := if Z.land data (2 ^ (top - 1)) =? 0 then 560 else 1690).
  assert (ST1 : nec_step (Nec NBits acc bits) (true, 560) = (Nec NBits acc bits, [])) by reflexivity.
  assert (ST2 : nec_step (Nec NBits acc bits) (false, us) = nec_bit (Nec NBits acc bits) b) by (unfold us, b, topbit; destruct (_ =? 0); reflexivity).
  change (nec_bits top (S n) data ++ rest) with ((true, 560) :: (false, us) :: nec_bits top n data' ++ rest).
  assert (SO : forall s2 o l, nec_bit (Nec NBits acc bits) b = (s2, o) ->
     outs nec_step (Nec NBits acc bits) ((true, 560) :: (false, us) :: l) = o ++ outs nec_step s2 l /\
     st nec_step (Nec NBits acc bits) ((true, 560) :: (false, us) :: l) = st nec_step s2 l /\
     (good nec_step 149 s2 l -> match l with (false, _) :: _ => False | _ => True end -> good nec_step 149 (Nec NBits acc bits) ((true, 560) :: (false, us) :: l))).
  { intros s2 o l E. rewrite !outs_cons, !st_cons, ST1. cbn [fst snd app]. rewrite ST2, E. cbn [fst snd]. split; [reflexivity|]. split; [reflexivity|].
    intros G H. apply G_step; [|rewrite ST1; cbn [fst]|discriminate].
    - intros u' U. apply nec_step_class. apply (classify_close 560); [left; reflexivity|reflexivity|lia].
    - apply G_step; [|rewrite ST2, E; exact G|].
      + intros u' U. apply nec_step_class. unfold us in *. destruct (_ =? 0).
        * apply (classify_close 560); [left; reflexivity|reflexivity|lia].
        * apply (classify_close 1690); [right; left; reflexivity|reflexivity|lia].
      + destruct l as [|(h2, u2) l]; [exact I|]. destruct h2; [discriminate|contradiction]. }
  assert (HD : forall m d r, match r with (false, _) :: _ => False | _ => True end -> match nec_bits top m d ++ r with (false, _) :: _ => False | _ => True end).
  { intros m d r R. destruct m; [exact R|exact I]. }
  destruct (bits + 1 <? 32) eqn:F.
  - destruct (SO _ _ (nec_bits top n data' ++ rest) NB) as (S1 & S2 & S3). rewrite S1, S2.
    specialize (IH data' _ (bits + 1) acc' T D' eq_refl ltac:(lia) ltac:(lia) A' ltac:(lia)). cbv zeta in IH. rewrite FE in IH.
    replace (bits + 1 + Z.of_nat n) with (bits + Z.of_nat (S n)) in IH by lia. destruct IH as (I1 & I2).
    split; [intros K|intros K1 K2].
    + destruct I1 as (J1 & J2 & J3); [lia|]. rewrite J1, J3. split; [reflexivity|]. split; [|reflexivity]. intros G H. apply S3; [apply J2; assumption|apply HD, H].
    + destruct I2 as (J1 & J2 & J3); [lia|lia|]. rewrite J1, J3. split; [reflexivity|]. split; [|reflexivity]. intros G H. apply S3; [apply J2; assumption|apply HD, H].
  - assert (n = 0%nat) as -> by lia. destruct (SO _ _ (nec_bits top 0 data' ++ rest) NB) as (S1 & S2 & S3). cbn [nec_bits app] in *. rewrite S1, S2.
    split; [lia|]. intros _ _. rewrite <- FE. change (Z.of_nat 0) with 0. rewrite Z.pow_0_r, Z.mul_1_r, Z.sub_0_r, Z.div_small, Z.add_0_r by lia.
    split; [reflexivity|]. split; [|reflexivity]. intros G H. apply S3; assumption.
Qed.
Lemma nec_gap s g : 10000 <= g -> nec_step s (false, g) = nec_fail (n_data s) (n_bits s) [].
Proof. intros G. unfold nec_step. rewrite classify_gap by lia. destruct (n_state s); reflexivity. Qed.
Definition nec_pulses (m : nec_msg) : list pulse :=
  match m with Code32 d => Encode32 d | Code16 d => Encode16 d | Again => EncodeRepeat | Silence => [] end.
(** A message and a pause, from the start state: the outputs, the state, and no trouble. *)
Lemma nec_one m g rest : nec_msg_ok (m, g) ->
  outs nec_step nec0 (nec_pulses m ++ (false, g) :: rest) = nec_expect (m, g) ++ outs nec_step nec0 rest /\
  st nec_step nec0 (nec_pulses m ++ (false, g) :: rest) = st nec_step nec0 rest /\
  ((forall s, good nec_step 149 s ((false, g) :: rest)) -> good nec_step 149 nec0 (nec_pulses m ++ (false, g) :: rest)).
Proof.
  intros (G & D). cbn [fst snd] in *.
  assert (C9000 : forall s u', Z.abs (9000 - u') <= 149 -> nec_step s (true, u') = nec_step s (true, 9000)).
  { intros s u' U. apply nec_step_class. apply (classify_close 9000); [cbn; tauto|reflexivity|lia]. }
  assert (C4500 : forall s u', Z.abs (4500 - u') <= 149 -> nec_step s (false, u') = nec_step s (false, 4500)).
  { intros s u' U. apply nec_step_class. apply (classify_close 4500); [cbn; tauto|reflexivity|lia]. }
  assert (C560 : forall s u', Z.abs (560 - u') <= 149 -> nec_step s (true, u') = nec_step s (true, 560)).
  { intros s u' U. apply nec_step_class. apply (classify_close 560); [cbn; tauto|reflexivity|lia]. }
  assert (C2250 : forall s u', Z.abs (2250 - u') <= 149 -> nec_step s (false, u') = nec_step s (false, 2250)).
  { intros s u' U. apply nec_step_class. apply (classify_close 2250); [cbn; tauto|reflexivity|lia]. }
  destruct m as [d|d| |]; cbn [nec_pulses nec_expect fst].
  - unfold Encode32. cbn [app]. rewrite <- app_assoc. cbn [app].
    destruct (nec_bits_good 32 32 d (Nec NBits 0 0) ((true, 560) :: (false, g) :: rest) 0 0) as (_ & H); try lia; [reflexivity|].
    destruct H as (H1 & H2 & H3); [discriminate|lia|]. change (Z.of_nat 32) with 32 in *. rewrite Z.mul_0_l, Z.sub_diag, Z.pow_0_r, Z.div_1_r, Z.add_0_l in H1.
    change (0 * 2 ^ 32 + d / 2 ^ (32 - 32)) with (d / 1) in *.
    assert (E1 : nec_step nec0 (true, 9000) = (Nec NAwait 0 0, [])) by reflexivity.
    assert (E2 : nec_step (Nec NAwait 0 0) (false, 4500) = (Nec NBits 0 0, [])) by reflexivity.
    assert (E3 : nec_step nec0 (true, 560) = (nec0, [])) by reflexivity.
    assert (E4 : nec_step nec0 (false, g) = (nec0, [])) by (rewrite nec_gap by lia; reflexivity).
    rewrite !(outs_cons nec_step nec0 (true, 9000)), !(st_cons nec_step nec0 (true, 9000)), E1. cbn [fst snd app].
    rewrite !(outs_cons nec_step _ (false, 4500)), !(st_cons nec_step _ (false, 4500)), E2. cbn [fst snd app].
    split; [|split].
    + eapply eq_trans; [exact H1|]. rewrite !outs_cons, E3. cbn [fst snd app]. rewrite E4. reflexivity.
    + eapply eq_trans; [exact H3|]. rewrite !st_cons, E3. cbn [fst]. rewrite E4. reflexivity.
    + intros GR. apply G_step; [intros; apply C9000; assumption|rewrite E1; cbn [fst]|discriminate].
      apply G_step; [intros; apply C4500; assumption|rewrite E2; cbn [fst]|discriminate].
      apply H2; [|exact I]. apply G_step; [intros; apply C560; assumption|rewrite E3; apply GR|discriminate].
  - unfold Encode16. cbn [app]. rewrite <- app_assoc. cbn [app].
    destruct (nec_bits_good 16 16 d (Nec NBits 0 0) ((true, 560) :: (false, g) :: rest) 0 0) as (H & _); try lia; [reflexivity|].
    destruct H as (H1 & H2 & H3); [right; cbn; lia|]. change (Z.of_nat 16) with 16 in *.
    replace (0 * 2 ^ 16 + d / 2 ^ (16 - 16)) with d in * by (rewrite Z.sub_diag, Z.pow_0_r, Z.div_1_r; ring).
    change (0 + 16) with 16 in *.
    assert (E1 : nec_step nec0 (true, 9000) = (Nec NAwait 0 0, [])) by reflexivity.
    assert (E2 : nec_step (Nec NAwait 0 0) (false, 4500) = (Nec NBits 0 0, [])) by reflexivity.
    assert (E3 : nec_step (Nec NBits d 16) (true, 560) = (Nec NBits d 16, [])) by reflexivity.
    assert (E4 : nec_step (Nec NBits d 16) (false, g) = (nec0, [Nec16 d])) by (rewrite nec_gap by lia; reflexivity).
    rewrite !(outs_cons nec_step nec0 (true, 9000)), !(st_cons nec_step nec0 (true, 9000)), E1. cbn [fst snd app].
    rewrite !(outs_cons nec_step _ (false, 4500)), !(st_cons nec_step _ (false, 4500)), E2. cbn [fst snd app].
    split; [|split].
    + eapply eq_trans; [exact H1|]. rewrite !outs_cons, E3. cbn [fst snd app]. rewrite E4. reflexivity.
    + eapply eq_trans; [exact H3|]. rewrite !st_cons, E3. cbn [fst]. rewrite E4. reflexivity.
    + intros GR. apply G_step; [intros; apply C9000; assumption|rewrite E1; cbn [fst]|discriminate].
      apply G_step; [intros; apply C4500; assumption|rewrite E2; cbn [fst]|discriminate].
      apply H2; [|exact I]. apply G_step; [intros; apply C560; assumption|rewrite E3; apply GR|discriminate].
  - unfold EncodeRepeat. cbn [app].
    assert (E1 : nec_step nec0 (true, 9000) = (Nec NAwait 0 0, [])) by reflexivity.
    assert (E2 : nec_step (Nec NAwait 0 0) (false, 2250) = (Nec NRepeat 0 0, [])) by reflexivity.
    assert (E3 : nec_step (Nec NRepeat 0 0) (true, 560) = (nec0, [NecRepeat])) by reflexivity.
    assert (E4 : nec_step nec0 (false, g) = (nec0, [])) by (rewrite nec_gap by lia; reflexivity).
    split; [|split].
    + rewrite !outs_cons, E1. cbn [fst snd app]. rewrite E2. cbn [fst snd app]. rewrite E3. cbn [fst snd app]. rewrite E4. reflexivity.
    + rewrite !st_cons, E1. cbn [fst snd app]. rewrite E2. cbn [fst snd app]. rewrite E3. cbn [fst snd app]. rewrite E4. reflexivity.
    + intros GR. apply G_step; [intros; apply C9000; assumption|rewrite E1; cbn [fst]|discriminate].
      apply G_step; [intros; apply C2250; assumption|rewrite E2; cbn [fst]|discriminate].
      apply G_step; [intros; apply C560; assumption|rewrite E3; apply GR|discriminate].
  - assert (E4 : nec_step nec0 (false, g) = (nec0, [])) by (rewrite nec_gap by lia; reflexivity).
    cbn [app]. rewrite outs_cons, st_cons, E4. cbn [fst snd app]. split; [reflexivity|]. split; [reflexivity|]. intros GR. apply GR.
Qed.
Lemma nec_all ms : Forall nec_msg_ok ms ->
  outs nec_step nec0 (concat (map nec_send ms)) = concat (map nec_expect ms) /\
  st nec_step nec0 (concat (map nec_send ms)) = nec0 /\
  good nec_step 149 nec0 (concat (map nec_send ms)) /\
  (forall s g, 10149 <= g -> good nec_step 149 s ((false, g) :: concat (map nec_send ms))).
Proof.
  induction 1 as [|(m, g) ms OK _ (I1 & I2 & I3 & I4)].
  - cbn. split; [reflexivity|]. split; [reflexivity|]. split; [constructor|]. intros s g G. apply G_step; [|constructor|exact I].
    intros u' U. rewrite !nec_gap by lia. reflexivity.
  - assert (SE : concat (map nec_send ((m, g) :: ms)) = nec_pulses m ++ (false, g) :: concat (map nec_send ms)).
    { cbn [map concat]. unfold nec_send at 1. cbn [fst snd]. fold (nec_pulses m). rewrite <- app_assoc. reflexivity. }
    rewrite SE. clear SE.
    destruct (nec_one m g (concat (map nec_send ms)) OK) as (J1 & J2 & J3). destruct OK as (G0 & _). cbn [snd] in G0.
    assert (GG : good nec_step 149 nec0 (nec_pulses m ++ (false, g) :: concat (map nec_send ms))) by (apply J3; intros s; apply I4; exact G0).
    split; [rewrite J1, I1; reflexivity|]. split; [rewrite J2; exact I2|]. split; [exact GG|].
    intros s g1 G1. constructor.
    + intros u' U. rewrite !nec_gap by lia. reflexivity.
    + rewrite nec_gap by lia. exact GG.
    + intros u2 rest2 E. destruct m as [d|d| |]; cbn in E; try discriminate. inversion E; subst. apply I4. lia.
    + intros u2 rest2 E. destruct m as [d|d| |]; cbn in E; try discriminate. inversion E; subst. rewrite !nec_gap by lia. cbn. rewrite app_nil_r. auto.
Qed.
(** * Nothing else is reported *)
Lemma value_snoc bs b : value (bs ++ [b]) = 2 * value bs + (if b then 1 else 0).
Proof. unfold value. rewrite fold_left_app. reflexivity. Qed.
Lemma value_bound bs : 0 <= value bs < 2 ^ Z.of_nat (length bs).
Proof.
  rewrite <- (rev_involutive bs). induction (rev bs) as [|b l IH]; [cbn; lia|]. cbn [rev]. rewrite value_snoc, app_length. cbn [length].
  replace (Z.of_nat (length (rev l) + 1)) with (Z.succ (Z.of_nat (length (rev l)))) by lia. rewrite Z.pow_succ_r by lia. destruct b; lia.
Qed.
Lemma frame_snoc bs b : nec_frame (bs ++ [b]) = nec_frame bs ++ [(true, 560); (false, if b then 1690 else 560)].
Proof. unfold nec_frame. rewrite map_app, concat_app. cbn [map concat]. rewrite app_nil_r, app_assoc. reflexivity. Qed.
(** Pulses so far, newest last, in state [s]. *)
Definition heard (h : list pulse) (s : nec) : Prop :=
  match n_state s with
  | NBegin => n_data s = 0 /\ n_bits s = 0
  | NAwait => n_data s = 0 /\ n_bits s = 0 /\ exists pre us, h = pre ++ [(true, us)] /\ nec_classify us = MARK1
  | NRepeat => n_data s = 0 /\ n_bits s = 0 /\ exists pre us us', h = pre ++ [(true, us); (false, us')] /\ nec_classify us = MARK1 /\ nec_classify us' = MARK3
  | NBits => exists pre fr tr bs, h = pre ++ fr ++ tr /\ looks_like fr (nec_frame bs) /\ n_data s = value bs /\ n_bits s = Z.of_nat (length bs) /\ n_bits s < 32 /\
      (tr = [] \/ exists us, tr = [(true, us)] /\ nec_classify us = SHORT)
  end.
Lemma last_level h pre fr bs : h = pre ++ fr -> looks_like fr (nec_frame bs) -> exists pre' us, h = pre' ++ [(false, us)].
Proof.
  intros -> L. assert (E : exists a us, nec_frame bs = a ++ [(false, us)]).
  { destruct bs as [|b bs] using rev_ind; [exists [(true, 9000)], 4500; reflexivity|]. rewrite frame_snoc. eexists (nec_frame bs ++ [(true, 560)]), _. rewrite <- app_assoc. reflexivity. }
  destruct E as (a & us & E). unfold looks_like in L. rewrite E in L. apply Forall2_app_inv_r in L as (f1 & f2 & L1 & L2 & ->).
  inversion L2 as [|(h', u') ? ? ? (A & _) L3]; subst. inversion L3; subst. cbn in A. subst. exists (pre ++ f1), u'. rewrite <- app_assoc. reflexivity.
Qed.
Definition alternates_end (h : list pulse) (p : pulse) : Prop := forall pre q, h = pre ++ [q] -> fst q <> fst p.
Definition justified (h : list pulse) (o : list nec_out) : Prop :=
  (forall d, In (Nec32 d) o -> exists pre fr bs, h = pre ++ fr /\ looks_like fr (nec_frame bs) /\ length bs = 32%nat /\ d = value bs) /\
  (forall d, In (Nec16 d) o -> exists pre fr bs tr, h = pre ++ fr ++ tr /\ looks_like fr (nec_frame bs) /\ length bs = 16%nat /\ d = value bs /\ (1 <= length tr <= 2)%nat) /\
  (In NecRepeat o -> exists pre fr, h = pre ++ fr /\ looks_like fr EncodeRepeat).
Lemma heard_step h s p : heard h s -> alternates_end h p ->
  heard (h ++ [p]) (fst (nec_step s p)) /\ justified (h ++ [p]) (snd (nec_step s p)).
Proof.
  intros H AE. destruct s as [q data bits]. destruct p as (hi, us). unfold heard in H. cbn [n_state n_data n_bits] in *.
  assert (NONE : justified (h ++ [(hi, us)]) []) by (unfold justified; cbn; tauto).
  assert (FAIL0 : nec_fail 0 0 [] = (nec0, [])) by reflexivity.
  assert (B0 : forall h, heard h nec0) by (intros; cbn; auto).
  destruct q; unfold nec_step; cbn [n_state n_data n_bits].
  - destruct H as (-> & ->). rewrite FAIL0. destruct (nec_classify us) eqn:C; try (split; [apply B0|exact NONE]).
    destruct hi; [|split; [apply B0|exact NONE]]. cbn [fst snd]. split; [|exact NONE]. cbn. split; [reflexivity|]. split; [reflexivity|]. eauto.
  - destruct H as (-> & -> & pre & u & -> & U). rewrite FAIL0. destruct hi; [split; [apply B0|exact NONE]|].
    destruct (nec_classify us) eqn:C; try (split; [apply B0|exact NONE]); cbn [fst snd].
    + split; [|exact NONE]. cbn. exists pre, [(true, u); (false, us)], [], []. rewrite <- app_assoc. split; [reflexivity|]. split; [|cbn; intuition lia].
      constructor; [cbn; auto|]. constructor; [cbn; auto|constructor].
    + split; [|exact NONE]. cbn. split; [reflexivity|]. split; [reflexivity|]. exists pre, u, us. rewrite <- app_assoc. auto.
  - destruct H as (-> & -> & pre & u & u' & -> & U & U'). rewrite FAIL0.
    destruct (nec_classify us) eqn:C; try (split; [apply B0|exact NONE]).
    destruct hi; [|split; [apply B0|exact NONE]]. change (nec_fail 0 0 [NecRepeat]) with (nec0, [NecRepeat]). cbn [fst snd]. split; [apply B0|].
    split; [intros d [X|[]]; discriminate|]. split; [intros d [X|[]]; discriminate|]. intros _. exists pre, [(true, u); (false, u'); (true, us)].
    rewrite <- app_assoc. split; [reflexivity|]. repeat (constructor; [cbn; auto|]). constructor.
  - destruct H as (pre & fr & tr & bs & -> & L & D & B & B32 & TR).
    assert (FAILB : forall tr', (1 <= length tr' <= 2)%nat -> (pre ++ fr ++ tr) ++ [(hi, us)] = pre ++ fr ++ tr' ->
      heard ((pre ++ fr ++ tr) ++ [(hi, us)]) (fst (nec_fail data bits [])) /\ justified ((pre ++ fr ++ tr) ++ [(hi, us)]) (snd (nec_fail data bits []))).
    { intros tr' T E. unfold nec_fail. cbn [fst snd app]. split; [apply B0|]. destruct (Z.eqb_spec bits 16) as [B16|]; [|exact NONE].
      split; [intros d [X|[]]; discriminate|]. split; [|intros [X|[]]; discriminate]. intros d [X|[]]. inversion X; subst d.
      exists pre, fr, bs, tr'. split; [exact E|]. split; [exact L|]. split; [lia|]. auto. }
    assert (FAILB' := FAILB (tr ++ [(hi, us)])). assert (TL : (1 <= length (tr ++ [(hi, us)]) <= 2)%nat) by (rewrite app_length; cbn; destruct TR as [-> |(? & -> & _)]; cbn; lia).
    specialize (FAILB' TL ltac:(rewrite <- !app_assoc; reflexivity)). clear FAILB TL.
    destruct hi.
    + destruct (nec_classify us) eqn:C; try exact FAILB'. cbn [fst snd]. split; [|exact NONE]. cbn.
      destruct TR as [-> |(u & -> & _)].
      * exists pre, fr, [(true, us)], bs. rewrite app_nil_r, <- app_assoc. split; [reflexivity|]. split; [exact L|]. split; [exact D|]. split; [exact B|]. split; [exact B32|]. right. eauto.
      * exfalso. apply (AE (pre ++ fr) (true, u)); [rewrite app_assoc; reflexivity|reflexivity].
    + assert (BIT : forall b : bool, nec_classify us = (if b then LONG else SHORT) -> 
        let r := nec_bit (Nec NBits data bits) (if b then 1 else 0) in
        heard ((pre ++ fr ++ tr) ++ [(false, us)]) (fst r) /\ justified ((pre ++ fr ++ tr) ++ [(false, us)]) (snd r)).
      { intros b C. cbv zeta. pose proof (value_bound bs) as VB. rewrite nec_bit_eq by (rewrite ?B, ?D; try (split; lia); try (destruct b; lia)).
        destruct TR as [-> |(u & -> & CU)].
        - exfalso. rewrite app_nil_r in AE. destruct (last_level (pre ++ fr) pre fr bs eq_refl L) as (p' & u & E). rewrite E in AE. apply (AE p' (false, u) eq_refl eq_refl).
        - assert (L' : looks_like (fr ++ [(true, u); (false, us)]) (nec_frame (bs ++ [b]))).
          { rewrite frame_snoc. apply Forall2_app; [exact L|]. constructor; [cbn; rewrite CU; auto|]. constructor; [cbn; rewrite C; destruct b; auto|constructor]. }
          assert (EQ : (pre ++ fr ++ [(true, u)]) ++ [(false, us)] = pre ++ (fr ++ [(true, u); (false, us)])) by (rewrite <- !app_assoc; reflexivity).
          assert (V : 2 * data + (if b then 1 else 0) = value (bs ++ [b])) by (rewrite value_snoc, D; reflexivity).
          destruct (bits + 1 <? 32) eqn:F; cbn [fst snd].
          + split; [|exact NONE]. cbn. exists pre, (fr ++ [(true, u); (false, us)]), [], (bs ++ [b]). rewrite app_nil_r. split; [exact EQ|]. split; [exact L'|].
            split; [exact V|]. split; [rewrite app_length; cbn; lia|]. split; [lia|auto].
          + split; [apply B0|]. split; [|split; [intros d [X|[]]; discriminate|intros [X|[]]; discriminate]]. intros d [X|[]]. inversion X; subst d.
            exists pre, (fr ++ [(true, u); (false, us)]), (bs ++ [b]). split; [exact EQ|]. split; [exact L'|]. split; [rewrite app_length; cbn; lia|exact V]. }
      destruct (nec_classify us) eqn:C; try exact FAILB'.
      * exact (BIT false eq_refl).
      * exact (BIT true eq_refl).
Qed.
Lemma nec_heard hs : forall lev, alternates lev hs -> heard hs (st nec_step nec0 hs).
Proof.
  induction hs as [|p hs IH] using rev_ind; intros lev A; [cbn; auto|].
  assert (A1 : alternates lev hs /\ alternates_end hs p).
  { clear IH. revert lev A. induction hs as [|(x, u) hs IH]; intros lev A; [cbn; split; [exact I|]; intros pre q E; destruct pre; discriminate|].
    cbn in A |- *. destruct A as (-> & A). destruct (IH _ A) as (B & C). split; [auto|]. intros pre q E. destruct pre as [|y pre].
    - cbn in E. inversion E; subst. destruct p as (xp, up). cbn in A |- *. destruct A as (-> & _). destruct lev; discriminate.
    - cbn in E. inversion E; subst. apply (C pre q eq_refl). }
  rewrite st_app. destruct A1 as (A1 & A2). apply (heard_step hs _ p (IH _ A1) A2).
Qed.

(** * RC6 *)
Lemma rc6_k s h us k : Z.abs (us - 444 * k) <= 150 -> 1 <= k -> rc6_step s (h, us) = rc6_loop 4 s h k.
Proof.
  intros U K. unfold rc6_step. replace ((us + 222) / 444) with k by (Z.div_mod_to_equations; lia).
  replace ((us mod 444 >? 150) && (us mod 444 <? 444 - 150)) with false by (Z.div_mod_to_equations; lia). reflexivity.
Qed.
Lemma rc6_gap s : exists o, forall k, 8 <= k -> rc6_loop 4 s false k = (rc6_zero, o).
Proof.
  destruct s as [data pos t].
  exists (if (Z.even pos || (pos =? 0) || (pos =? 6) || (pos =? 16) || (pos =? 18)) || Bool.eqb (Z.odd data) false then [] else if u8 (pos + 1) >=? 52 then snd (rc6_loop 4 (Rc6 data pos t) false 1) else []).
  intros k K.
  destruct (Z.eqb_spec pos 0) as [P0|P0]; [cbn [rc6_loop]; replace (k <=? 0) with false by lia; replace (pos =? 0) with true by lia; replace (k =? 6) with false by lia; cbn; rewrite orb_true_r; reflexivity|].
  destruct (Z.eqb_spec pos 6) as [P6|P6]; [cbn [rc6_loop]; replace (k <=? 0) with false by lia; replace (pos =? 0) with false by lia; replace (pos =? 6) with true by lia; replace (k =? 2) with false by lia; cbn; rewrite !orb_true_r; reflexivity|].
  destruct (Z.eqb_spec pos 16) as [P16|P16]; [cbn [rc6_loop]; replace (k <=? 0) with false by lia; replace (pos =? 0) with false by lia; replace (pos =? 6) with false by lia; replace (pos =? 16) with true by lia; replace (k =? 2) with false by lia; cbn; rewrite !orb_true_r; reflexivity|].
  destruct (Z.eqb_spec pos 18) as [P18|P18].
  { rewrite !orb_true_r. subst pos. cbn [rc6_loop]. replace (k <=? 0) with false by lia. cbn [Z.eqb Pos.eqb]. replace (k <? 2) with false by lia. cbn [orb].
    destruct (Bool.eqb false t); [reflexivity|]. replace (k - 2 <=? 0) with false by lia. replace (k - 2 =? 1) with false by lia. reflexivity. }
  rewrite !orb_false_r. cbn [rc6_loop]. replace (k <=? 0) with false by lia. replace (pos =? 0) with false by lia. replace (pos =? 6) with false by lia. replace (pos =? 16) with false by lia. replace (pos =? 18) with false by lia.
  destruct (Z.even pos) eqn:EV; cbn [orb]; [replace (k =? 1) with false by lia; reflexivity|].
  destruct (Bool.eqb (Z.odd data) false); [reflexivity|]. change (1 <=? 0) with false. cbv iota.
  destruct (u8 (pos + 1) >=? 52) eqn:P52; [cbn [snd]; reflexivity|].
  replace (k - 1 <=? 0) with false by lia.
  destruct (u8 (pos + 1) =? 0); [replace (k - 1 =? 6) with false by lia; reflexivity|].
  destruct (u8 (pos + 1) =? 6); [replace (k - 1 =? 2) with false by lia; reflexivity|].
  destruct (u8 (pos + 1) =? 16); [replace (k - 1 =? 2) with false by lia; reflexivity|].
  destruct (u8 (pos + 1) =? 18) eqn:E18.
  { replace (k - 1 <? 2) with false by lia. cbn [orb]. destruct (Bool.eqb false t); [reflexivity|]. replace (k - 1 - 2 <=? 0) with false by lia. cbn [Z.eqb Pos.eqb].
    change (Z.even 20) with true. cbv iota. replace (k - 1 - 2 =? 1) with false by lia. reflexivity. }
  assert (E2 : Z.even (u8 (pos + 1)) = true).
  { unfold u8. rewrite Z.even_spec. rewrite <- Z.negb_odd in EV. apply negb_false_iff in EV. apply Z.odd_spec in EV as (q & ->).
    exists ((q + 1) mod 128). change (2 ^ 8) with (2 * 128). replace (2 * q + 1 + 1) with (2 * (q + 1)) by ring. apply Z.mul_mod_distr_l; lia. }
  rewrite E2. replace (k - 1 =? 1) with false by lia. reflexivity.
Qed.
Definition b2z (b : bool) : Z := if b then 1 else 0.
Lemma rc6_first data p t b us : Z.even p = true -> 8 <= p <= 50 -> p <> 16 -> p <> 18 -> 0 <= data < 2 ^ 31 -> Z.abs (us - 444) <= 150 ->
  rc6_step (Rc6 data p t) (b, us) = (Rc6 (2 * data + b2z b) (p + 1) t, []).
Proof.
  intros EV P P16 P18 D U. rewrite (rc6_k _ _ us 1) by lia. cbn [rc6_loop]. change (1 <=? 0) with false. cbv iota.
  replace (p =? 0) with false by lia. replace (p =? 6) with false by lia. replace (p =? 16) with false by lia. replace (p =? 18) with false by lia.
  rewrite EV. cbn [Z.eqb Pos.eqb negb]. unfold u8, u32. rewrite (Z.mod_small (p + 1)) by lia. rewrite Z.shiftl_mul_pow2, Z.pow_1_r by lia. rewrite Z.mod_small by lia.
  fold (b2z b). rewrite lor_bit by (destruct b; cbn; lia). reflexivity.
Qed.
(** The second half of a bit, alone or as the beginning of a longer pulse. *)
Lemma rc6_second d p t b k : Z.even p = true -> 8 <= p <= 48 -> p <> 16 -> Z.odd d = b -> 0 <= k ->
  rc6_loop 4 (Rc6 d (p + 1) t) (negb b) (1 + k) = if k =? 0 then (Rc6 d (p + 2) t, []) else rc6_loop 4 (Rc6 d (p + 2) t) (negb b) k.
Proof.
  intros EV P P16 O K. set (r := rc6_loop 4 (Rc6 d (p + 2) t) (negb b) k).
  assert (O1 : Z.even (p + 1) = false) by (rewrite Z.even_add, EV; reflexivity). assert (E2 : Z.even (p + 2) = true) by (rewrite Z.even_add, EV; reflexivity).
  cbn [rc6_loop]. replace (1 + k <=? 0) with false by lia.
  replace (p + 1 =? 0) with false by lia.
  assert (O6 : p + 1 <> 6) by lia. assert (O16 : p + 1 <> 16) by (intros X; rewrite X in O1; discriminate). assert (O18 : p + 1 <> 18) by (intros X; rewrite X in O1; discriminate).
  replace (p + 1 =? 6) with false by lia. replace (p + 1 =? 16) with false by lia. replace (p + 1 =? 18) with false by lia. rewrite O1, O.
  replace (Bool.eqb b (negb b)) with false by (destruct b; reflexivity).
  unfold u8. rewrite Z.mod_small by lia. replace (p + 1 + 1) with (p + 2) by ring. replace (p + 2 >=? 52) with false by lia. replace (1 + k - 1) with k by ring.
  destruct (Z.eqb_spec k 0) as [-> |K0]; [reflexivity|]. unfold r. cbn [rc6_loop]. replace (k <=? 0) with false by lia.
  replace (p + 2 =? 0) with false by lia. replace (p + 2 =? 6) with false by lia. destruct (p + 2 =? 16); [reflexivity|]. replace (p + 2 =? 18) with false by lia. rewrite E2. reflexivity.
Qed.
Definition tame (h : bool) (rest : list pulse) : Prop :=
  match rest with
  | [] => True
  | (h2, u) :: rest2 => h2 = h -> (exists k, 1 <= k /\ Z.abs (u - 444 * k) <= 1) /\ match rest2 with (h3, _) :: _ => h3 <> h | [] => True end
  end.
Lemma rc6_bit_good data p t b rest : Z.even p = true -> 8 <= p <= 48 -> p <> 16 -> p <> 18 -> 0 <= data < 2 ^ 31 -> tame (negb b) rest ->
  let s := Rc6 data p t in let s2 := Rc6 (2 * data + b2z b) (p + 2) t in
  outs rc6_step s (EncodeBit b ++ rest) = outs rc6_step s2 rest /\ st rc6_step s (EncodeBit b ++ rest) = st rc6_step s2 rest /\
  (good rc6_step 149 s2 rest -> good rc6_step 149 s (EncodeBit b ++ rest)).
Proof.
  intros EV P P16 P18 D T s s2. unfold EncodeBit. cbn [app].
  set (d' := 2 * data + b2z b) in *. set (s1 := Rc6 d' (p + 1) t).
  assert (OD : Z.odd d' = b) by (unfold d'; rewrite Z.odd_add, Z.odd_mul; destruct b; reflexivity).
  assert (E1 : forall us, Z.abs (us - 444) <= 150 -> rc6_step s (b, us) = (s1, [])) by (intros us U; apply rc6_first; try assumption; lia).
  assert (E2 : forall us, Z.abs (us - 444) <= 150 -> rc6_step s1 (negb b, us) = (s2, [])).
  { intros us U. rewrite (rc6_k _ _ us 1) by lia. exact (rc6_second d' p t b 0 EV P P16 OD ltac:(lia)). }
  assert (E3 : forall us k, Z.abs (us - 444 * (1 + k)) <= 150 -> 1 <= k -> rc6_step s1 (negb b, us) = rc6_loop 4 s2 (negb b) k).
  { intros us k U K. rewrite (rc6_k _ _ us (1 + k)) by lia. unfold s1. rewrite (rc6_second d' p t b k EV P P16 OD) by lia. replace (k =? 0) with false by lia. reflexivity. }
  split; [rewrite !outs_cons, E1 by lia; cbn [fst snd app]; rewrite E2 by lia; reflexivity|].
  split; [rewrite !st_cons, E1 by lia; cbn [fst snd app]; rewrite E2 by lia; reflexivity|].
  intros G. apply G_step.
  - intros u' U. rewrite !E1 by lia. reflexivity.
  - rewrite E1 by lia. cbn [fst]. constructor.
    + intros u' U. rewrite !E2 by lia. reflexivity.
    + rewrite E2 by lia. exact G.
    + intros u2 rest2 ->. unfold tame in T. destruct (T eq_refl) as ((k & K & UK) & H3). pose proof (good_tail _ _ _ _ _ G) as G2.
      assert (EQ : forall u', Z.abs (444 + u2 - u') <= 149 -> rc6_step s1 (negb b, u') = rc6_step s2 (negb b, u2)).
      { intros u' U. rewrite (E3 u' k) by lia. rewrite (rc6_k _ _ u2 k) by lia. reflexivity. }
      apply G_step.
      * intros u' U. rewrite !EQ by lia. reflexivity.
      * rewrite EQ by lia. exact G2.
      * destruct rest2 as [|(h3, u3) rest2]; [exact I|exact H3].
    + intros u2 rest2 ->. unfold tame in T. destruct (T eq_refl) as ((k & K & UK) & H3). rewrite (E3 (444 + u2) k) by lia. rewrite (E2 444) by lia. cbn [fst snd app].
      rewrite (rc6_k _ _ u2 k) by lia. auto.
  - destruct b; discriminate.
Qed.
(** Several bits. *)
Definition shift_bits (data : Z) (bs : list bool) : Z := fold_left (fun a b => 2 * a + b2z b) bs data.
Lemma tame_bits h bs rest : bs <> [] -> tame h (concat (map EncodeBit bs) ++ rest).
Proof. intros N. destruct bs as [|b bs]; [congruence|]. unfold tame; cbn [map concat EncodeBit app]. intros <-. split; [exists 1; lia|destruct b; discriminate]. Qed.
Lemma rc6_bits_good bs : forall data p t rest, Z.even p = true -> 8 <= p -> (p + 2 * Z.of_nat (length bs) <= 16 \/ 20 <= p /\ p + 2 * Z.of_nat (length bs) <= 50) ->
  0 <= data -> (data + 1) * 2 ^ Z.of_nat (length bs) <= 2 ^ 31 -> (forall h, tame h rest) ->
  let s := Rc6 data p t in let s2 := Rc6 (shift_bits data bs) (p + 2 * Z.of_nat (length bs)) t in
  outs rc6_step s (concat (map EncodeBit bs) ++ rest) = outs rc6_step s2 rest /\ st rc6_step s (concat (map EncodeBit bs) ++ rest) = st rc6_step s2 rest /\
  (good rc6_step 149 s2 rest -> good rc6_step 149 s (concat (map EncodeBit bs) ++ rest)).
Proof.
  induction bs as [|b bs IH]; intros data p t rest EV P8 P D0 D T s s2.
  - unfold s2. cbn [length Z.of_nat]. rewrite Z.mul_0_r, Z.add_0_r. cbn. auto.
  - assert (LE : Z.of_nat (length (b :: bs)) = Z.of_nat (length bs) + 1) by (cbn [length]; lia). rewrite LE in *.
    rewrite Z.pow_add_r, Z.pow_1_r in D by lia. assert (PW : 1 <= 2 ^ Z.of_nat (length bs)) by (clear; pose proof (Z.pow_pos_nonneg 2 (Z.of_nat (length bs))); lia).
    assert (D31 : data < 2 ^ 31) by nia.
    cbn [map concat]. rewrite <- app_assoc.
    assert (TT : tame (negb b) (concat (map EncodeBit bs) ++ rest)) by (destruct bs; [apply T|apply tame_bits; discriminate]).
    destruct (rc6_bit_good data p t b _ EV ltac:(lia) ltac:(lia) ltac:(lia) ltac:(lia) TT) as (A & B & C). fold s in A, B, C. rewrite A, B. clear A B.
    set (d' := 2 * data + b2z b) in *. assert (0 <= d' /\ d' + 1 <= 2 * (data + 1)) by (unfold d', b2z; destruct b; lia).
    destruct (IH d' (p + 2) t rest) as (I1 & I2 & I3).
    + rewrite Z.even_add, EV. reflexivity.
    + lia.
    + lia.
    + lia.
    + nia.
    + exact T.
    + cbv zeta in *. replace (p + 2 + 2 * Z.of_nat (length bs)) with (p + 2 * (Z.of_nat (length bs) + 1)) in * by ring.
      change (shift_bits d' bs) with (shift_bits data (b :: bs)) in *. unfold s2; rewrite LE; rewrite I1, I2. split; [reflexivity|]. split; [reflexivity|]. intros G. apply C. apply I3. exact G.
Qed.
Definition report (d : Z) : list (Z * Z) :=
  if negb (u8 (Z.shiftr d 19) =? 0) && (Z.land (Z.shiftr d 16) 7 =? 0) then [(u8 (Z.shiftr d 8), u8 d)] else [].
Lemma rc6_last d t b k : Z.odd d = b -> 1 <= k -> rc6_loop 4 (Rc6 d 51 t) (negb b) k = (rc6_zero, report d).
Proof. intros O K. cbn [rc6_loop]. replace (k <=? 0) with false by lia. cbn [Z.eqb Pos.eqb Z.even]. rewrite O. replace (Bool.eqb b (negb b)) with false by (destruct b; reflexivity). reflexivity. Qed.
Lemma rc6_zero_low us k : Z.abs (us - 444 * k) <= 150 -> 8 <= k -> rc6_step rc6_zero (false, us) = (rc6_zero, []).
Proof. intros U K. rewrite (rc6_k _ _ us k) by lia. cbn [rc6_loop]. unfold rc6_zero. cbn. rewrite orb_true_r. replace (k <=? 0) with false by lia. reflexivity. Qed.
Definition calm (rest : list pulse) : Prop := forall s k, 8 <= k -> good rc6_step 149 s ((false, 444 * k) :: rest).
Lemma rc6_last_good data t b k rest : 0 <= data < 2 ^ 31 -> 8 <= k ->
  let s := Rc6 data 50 t in let l := EncodeBit b ++ (false, 444 * k) :: rest in
  outs rc6_step s l = report (2 * data + b2z b) ++ outs rc6_step rc6_zero rest /\ st rc6_step s l = st rc6_step rc6_zero rest /\
  (calm rest -> good rc6_step 149 s l).
Proof.
  intros D K s l. unfold l, EncodeBit. cbn [app]. clear l.
  set (d' := 2 * data + b2z b) in *. set (s1 := Rc6 d' 51 t).
  assert (OD : Z.odd d' = b) by (unfold d'; rewrite Z.odd_add, Z.odd_mul; destruct b; reflexivity).
  assert (E1 : forall us, Z.abs (us - 444) <= 150 -> rc6_step s (b, us) = (s1, [])) by (intros us U; unfold s; rewrite rc6_first; try reflexivity; lia).
  assert (E2 : forall us k, Z.abs (us - 444 * k) <= 150 -> 1 <= k -> rc6_step s1 (negb b, us) = (rc6_zero, report d')).
  { intros us k' U K'. rewrite (rc6_k _ _ us k') by lia. apply rc6_last; assumption. }
  assert (E3 := rc6_zero_low (444 * k) k ltac:(lia) K). remember (444 * k) as g eqn:Hg.
  split; [rewrite !outs_cons, E1 by lia; cbn [fst snd app]; rewrite (E2 444 1) by lia; cbn [fst snd]; rewrite E3; reflexivity|].
  split; [rewrite !st_cons, E1 by lia; cbn [fst snd app]; rewrite (E2 444 1) by lia; cbn [fst snd]; rewrite E3; reflexivity|].
  intros C. apply G_step.
  - intros u' U. rewrite !E1 by lia. reflexivity.
  - rewrite E1 by lia. cbn [fst]. constructor.
    + intros u' U. rewrite (E2 u' 1), (E2 444 1) by lia. reflexivity.
    + rewrite (E2 444 1) by lia. rewrite Hg. apply C. lia.
    + intros u2 rest2 E. injection E as Eb Eu Er. rewrite <- Eb, <- Eu, <- Er. replace (444 + g) with (444 * (1 + k)) by lia. apply C. lia.
    + intros u2 rest2 E. injection E as Eb Eu Er. rewrite <- Eu. rewrite (E2 _ (1 + k)), (E2 444 1) by lia. cbn [fst snd].
      rewrite <- Eb. rewrite E3. cbn. rewrite app_nil_r. auto.
  - destruct b; discriminate.
Qed.
(** The double-length toggle bit. *)
Lemma rc6_slow_good d t0 tg rest : tame (negb tg) rest -> match rest with [] => True | (h, u) :: _ => h = negb tg -> u = 444 end ->
  let s := Rc6 d 16 t0 in let s2 := Rc6 d 20 tg in
  outs rc6_step s (EncodeSlowBit tg ++ rest) = outs rc6_step s2 rest /\ st rc6_step s (EncodeSlowBit tg ++ rest) = st rc6_step s2 rest /\
  (good rc6_step 149 s2 rest -> good rc6_step 149 s (EncodeSlowBit tg ++ rest)).
Proof.
  intros T T1 s s2. unfold EncodeSlowBit. cbn [app]. set (s1 := Rc6 d 18 tg).
  assert (E1 : forall us, Z.abs (us - 889) <= 149 -> rc6_step s (tg, us) = (s1, [])) by (intros us U; rewrite (rc6_k _ _ us 2) by lia; reflexivity).
  assert (L18 : forall k, 2 <= k -> rc6_loop 4 s1 (negb tg) k = rc6_loop 3 s2 (negb tg) (k - 2)).
  { intros k K. unfold s1. cbn [rc6_loop]. replace (k <=? 0) with false by lia. cbn [Z.eqb Pos.eqb]. replace (k <? 2) with false by lia. cbn [orb].
    replace (Bool.eqb (negb tg) tg) with false by (destruct tg; reflexivity). reflexivity. }
  assert (E2 : forall us, Z.abs (us - 889) <= 149 -> rc6_step s1 (negb tg, us) = (s2, [])).
  { intros us U. rewrite (rc6_k _ _ us 2) by lia. rewrite L18 by lia. reflexivity. }
  assert (E3 : forall us, Z.abs (us - 1333) <= 149 -> rc6_step s1 (negb tg, us) = rc6_loop 4 s2 (negb tg) 1).
  { intros us U. rewrite (rc6_k _ _ us 3) by lia. rewrite L18 by lia. reflexivity. }
  split; [rewrite !outs_cons, E1 by lia; cbn [fst snd app]; rewrite E2 by lia; reflexivity|].
  split; [rewrite !st_cons, E1 by lia; cbn [fst snd app]; rewrite E2 by lia; reflexivity|].
  intros G. apply G_step.
  - intros u' U. rewrite !E1 by lia. reflexivity.
  - rewrite E1 by lia. cbn [fst]. constructor.
    + intros u' U. rewrite !E2 by lia. reflexivity.
    + rewrite E2 by lia. exact G.
    + intros u2 rest2 ->. unfold tame in T. destruct (T eq_refl) as (_ & H3). specialize (T1 eq_refl). pose proof (good_tail _ _ _ _ _ G) as G2.
      assert (EQ' : forall u', Z.abs (u' - 1333) <= 149 -> rc6_step s1 (negb tg, u') = rc6_step s2 (negb tg, u2)).
      { intros u' U. rewrite (rc6_k _ _ u2 1) by lia. rewrite (rc6_k _ _ u' 3) by lia. rewrite L18 by lia. reflexivity. }
      apply G_step.
      * intros u' U. rewrite !EQ' by lia. reflexivity.
      * rewrite EQ' by lia. exact G2.
      * destruct rest2 as [|(h3, u3) rest2]; [exact I|exact H3].
    + intros u2 rest2 ->. specialize (T1 eq_refl). rewrite (E3 (889 + u2)) by lia. rewrite (E2 889) by lia. cbn [fst snd app].
      rewrite (rc6_k _ _ u2 1) by lia. auto.
  - destruct tg; discriminate.
Qed.
(** A byte as bits. *)
Fixpoint byte_bits (n : nat) (x : Z) : list bool :=
  match n with O => [] | S n => (Z.land x 128 =? 128) :: byte_bits n (u8 (Z.shiftl x 1)) end.
Lemma rc6_bits_map n : forall x, rc6_bits n x = concat (map EncodeBit (byte_bits n x)).
Proof. induction n as [|n IH]; intros x; [reflexivity|]. cbn [rc6_bits byte_bits map concat]. rewrite IH. reflexivity. Qed.
Lemma byte_bits_length n : forall x, length (byte_bits n x) = n.
Proof. induction n as [|n IH]; intros x; cbn [byte_bits length]; [reflexivity|]. rewrite IH. reflexivity. Qed.
Lemma land128 x : 0 <= x < 256 -> b2z (Z.land x 128 =? 128) = topbit 8 x.
Proof.
  intros X. unfold topbit, b2z. change (2 ^ (8 - 1)) with 128.
  assert (L : Z.land x 128 = 0 \/ Z.land x 128 = 128).
  { destruct (Z.testbit x 7) eqn:B; [right|left]; apply Z.bits_inj'; intros n N; rewrite Z.land_spec; change 128 with (2 ^ 7); rewrite ?Z.bits_0, Z.pow2_bits_eqb by lia;
    destruct (Z.eqb_spec 7 n) as [<- |]; rewrite ?B, ?andb_false_r; reflexivity. }
  destruct L as [-> | ->]; reflexivity.
Qed.
Lemma byte_bits_value n : forall x data, 0 <= x < 256 -> (n <= 8)%nat ->
  shift_bits data (byte_bits n x) = data * 2 ^ Z.of_nat n + x / 2 ^ (8 - Z.of_nat n).
Proof.
  induction n as [|n IH]; intros x data X N.
  - cbn [byte_bits shift_bits fold_left]. change (Z.of_nat 0) with 0. rewrite Z.pow_0_r, Z.mul_1_r, Z.div_small by (change (2 ^ (8 - 0)) with 256; lia). ring.
  - cbn [byte_bits]. change (shift_bits data (?b :: ?l)) with (shift_bits (2 * data + b2z b) l). rewrite IH.
    + rewrite land128 by assumption. unfold u8. rewrite Z.shiftl_mul_pow2, Z.pow_1_r, Z.mul_comm with (n := x) by lia.
      rewrite shift_in by (change (2 ^ 8) with 256; lia). replace (Z.of_nat (S n)) with (Z.of_nat n + 1) by lia. reflexivity.
    + unfold u8. apply Z.mod_pos_bound. lia.
    + lia.
Qed.
Lemma shift_bits_app data a b : shift_bits data (a ++ b) = shift_bits (shift_bits data a) b.
Proof. unfold shift_bits. apply fold_left_app. Qed.
Lemma shift_bits_bound bs : forall data, 0 <= data -> 0 <= shift_bits data bs < (data + 1) * 2 ^ Z.of_nat (length bs).
Proof.
  induction bs as [|b bs IH]; intros data D; [cbn; lia|]. change (shift_bits data (b :: bs)) with (shift_bits (2 * data + b2z b) bs).
  specialize (IH (2 * data + b2z b)). cbn [length]. replace (Z.of_nat (S (length bs))) with (Z.succ (Z.of_nat (length bs))) by lia. rewrite Z.pow_succ_r by lia.
  assert (0 <= b2z b <= 1) by (destruct b; cbn; lia). assert (0 < 2 ^ Z.of_nat (length bs)) by (apply Z.pow_pos_nonneg; lia). nia.
Qed.
Lemma report_ok c i : 0 <= c < 256 -> 0 <= i < 256 -> report (8 * 65536 + c * 256 + i) = [(c, i)].
Proof.
  intros C I. unfold report, u8. rewrite !Z.shiftr_div_pow2 by lia. change (2 ^ 19) with 524288. change (2 ^ 16) with 65536. change (2 ^ 8) with 256.
  replace ((8 * 65536 + c * 256 + i) / 524288) with 1 by (Z.div_mod_to_equations; lia).
  replace ((8 * 65536 + c * 256 + i) / 65536) with 8 by (Z.div_mod_to_equations; lia).
  replace ((8 * 65536 + c * 256 + i) / 256) with (2048 + c) by (Z.div_mod_to_equations; lia).
  replace ((2048 + c) mod 256) with c by (Z.div_mod_to_equations; lia). replace ((8 * 65536 + c * 256 + i) mod 256) with i by (Z.div_mod_to_equations; lia). reflexivity.
Qed.
Lemma rc6_one t c i k rest : 0 <= c < 256 -> 0 <= i < 256 -> 8 <= k ->
  let l := EncodeRC6mode0 t c i ++ (false, 444 * k) :: rest in
  outs rc6_step rc6_zero l = (c, i) :: outs rc6_step rc6_zero rest /\ st rc6_step rc6_zero l = st rc6_step rc6_zero rest /\
  (calm rest -> good rc6_step 149 rc6_zero l).
Proof.
  intros C I K l.
  assert (L16 : length (byte_bits 8 c ++ byte_bits 8 i) = 16%nat) by (rewrite app_length, !byte_bits_length; reflexivity).
  destruct (exists_last (l := byte_bits 8 c ++ byte_bits 8 i)) as (bs & b & EB); [intros E; rewrite E in L16; discriminate|].
  assert (L15 : length bs = 15%nat) by (rewrite EB, app_length in L16; cbn in L16; lia).
  assert (EL : l = (true, 2664) :: (false, 888) :: concat (map EncodeBit [true; false; false; false]) ++ EncodeSlowBit t ++ concat (map EncodeBit bs) ++ EncodeBit b ++ (false, 444 * k) :: rest).
  { unfold l, EncodeRC6mode0, Rc6EncodeByte. rewrite !rc6_bits_map.
    replace (concat (map EncodeBit bs) ++ EncodeBit b ++ (false, 444 * k) :: rest) with (concat (map EncodeBit (bs ++ [b])) ++ (false, 444 * k) :: rest)
      by (rewrite map_app, concat_app, <- app_assoc; cbn [map concat]; rewrite app_nil_r; reflexivity).
    rewrite <- EB, map_app, concat_app. change (444 * 6) with 2664. change (444 * 2) with 888. cbn [map concat]. rewrite app_nil_r. repeat rewrite <- app_assoc. reflexivity. }
  rewrite EL. clear EL l.
  set (D := shift_bits 8 bs).
  assert (DB : 0 <= D < 2 ^ 31) by (pose proof (shift_bits_bound bs 8 ltac:(lia)) as B; rewrite L15 in B; unfold D; change (Z.of_nat 15) with 15 in B; lia).
  assert (FV : 2 * D + b2z b = 8 * 65536 + c * 256 + i).
  { change (2 * D + b2z b) with (shift_bits D [b]). unfold D. rewrite <- shift_bits_app, <- EB, shift_bits_app, !byte_bits_value by (try lia; exact C || exact I).
    change (8 - Z.of_nat 8) with 0. change (2 ^ Z.of_nat 8) with 256. rewrite Z.pow_0_r, !Z.div_1_r. ring. }
  destruct (rc6_last_good D t b k rest DB K) as (A1 & A2 & A3). cbv zeta in *. rewrite FV, report_ok in A1 by assumption.
  set (l1 := EncodeBit b ++ (false, 444 * k) :: rest) in *.
  assert (T1 : forall h, tame h l1).
  { intros h. unfold l1, tame. cbn [EncodeBit app]. intros <-. split; [exists 1; lia|]. destruct b; discriminate. }
  destruct (rc6_bits_good bs 8 20 t l1) as (B1 & B2 & B3); [reflexivity|lia|rewrite L15; cbn; lia|lia|rewrite L15; cbn; lia|exact T1|].
  cbv zeta in *. rewrite L15 in *. change (20 + 2 * Z.of_nat 15) with 50 in *. fold D in B1, B2, B3.
  set (l2 := concat (map EncodeBit bs) ++ l1) in *.
  assert (T2 : forall h, tame h l2) by (intros h; unfold l2; apply tame_bits; destruct bs; [discriminate L15|discriminate]).
  assert (T2' : match l2 with [] => True | (h, u) :: _ => h = negb t -> u = 444 end) by (unfold l2; destruct bs as [|b0 bs]; [discriminate L15|]; intros _; reflexivity).
  destruct (rc6_slow_good 8 false t l2 (T2 _) T2') as (C1 & C2 & C3). cbv zeta in *.
  set (l3 := EncodeSlowBit t ++ l2) in *.
  assert (T3 : forall h, tame h l3).
  { intros h. unfold l3, tame, EncodeSlowBit. cbn [app]. intros <-. split; [exists 2; lia|destruct t; discriminate]. }
  destruct (rc6_bits_good [true; false; false; false] 0 8 false l3) as (D1 & D2 & D3); [reflexivity|lia|cbn; lia|lia|cbn; lia|exact T3|].
  cbv zeta in *. change (8 + 2 * Z.of_nat (length [true; false; false; false])) with 16 in *. change (shift_bits 0 [true; false; false; false]) with 8 in *.
  set (l4 := concat (map EncodeBit [true; false; false; false]) ++ l3) in *.
  assert (E1 : forall us, Z.abs (us - 2664) <= 150 -> rc6_step rc6_zero (true, us) = (Rc6 0 6 false, [])) by (intros us U; rewrite (rc6_k _ _ us 6) by lia; reflexivity).
  assert (E2 : forall us, Z.abs (us - 888) <= 150 -> rc6_step (Rc6 0 6 false) (false, us) = (Rc6 0 8 false, [])) by (intros us U; rewrite (rc6_k _ _ us 2) by lia; reflexivity).
  split; [rewrite !outs_cons, E1 by lia; cbn [fst snd app]; rewrite E2 by lia; cbn [fst snd app]; rewrite D1, C1, B1, A1; reflexivity|].
  split; [rewrite !st_cons, E1 by lia; cbn [fst snd app]; rewrite E2 by lia; cbn [fst snd app]; rewrite D2, C2, B2, A2; reflexivity|].
  intros CA. apply G_step; [intros u' U; rewrite !E1 by lia; reflexivity|rewrite E1 by lia; cbn [fst]|discriminate].
  apply G_step; [intros u' U; rewrite !E2 by lia; reflexivity|rewrite E2 by lia; cbn [fst]; apply D3, C3, B3, A3, CA|discriminate].
Qed.
Lemma rc6_gap_step s : exists o, forall us k, Z.abs (us - 444 * k) <= 150 -> 8 <= k -> rc6_step s (false, us) = (rc6_zero, o).
Proof. destruct (rc6_gap s) as (o & O). exists o. intros us k U K. rewrite (rc6_k _ _ us k) by lia. apply O, K. Qed.
Lemma rc6_all ms : Forall rc6_msg_ok ms ->
  outs rc6_step rc6_zero (concat (map rc6_send ms)) = concat (map rc6_expect ms) /\
  st rc6_step rc6_zero (concat (map rc6_send ms)) = rc6_zero /\
  good rc6_step 149 rc6_zero (concat (map rc6_send ms)) /\ calm (concat (map rc6_send ms)).
Proof.
  induction 1 as [|(m, k) ms OK _ (I1 & I2 & I3 & I4)].
  - cbn. split; [reflexivity|]. split; [reflexivity|]. split; [constructor|]. intros s k K. destruct (rc6_gap_step s) as (o & O).
    apply G_step; [|constructor|exact I]. intros u' U. rewrite (O u' k), (O (444 * k) k) by lia. reflexivity.
  - destruct OK as (K & M). cbn [fst snd] in *.
    set (rest := concat (map rc6_send ms)) in *.
    assert (SE : concat (map rc6_send ((m, k) :: ms)) = match m with Rc6Code t c i => EncodeRC6mode0 t c i | Rc6Silence => [] end ++ (false, 444 * k) :: rest).
    { cbn [map concat]. unfold rc6_send at 1. cbn [fst snd]. rewrite <- app_assoc. reflexivity. }
    assert (H : outs rc6_step rc6_zero (concat (map rc6_send ((m, k) :: ms))) = concat (map rc6_expect ((m, k) :: ms)) /\
      st rc6_step rc6_zero (concat (map rc6_send ((m, k) :: ms))) = rc6_zero /\ good rc6_step 149 rc6_zero (concat (map rc6_send ((m, k) :: ms)))).
    { rewrite SE. destruct m as [t c i|].
      - destruct (rc6_one t c i k rest (proj1 M) (proj2 M) K) as (J1 & J2 & J3). cbv zeta in *. rewrite J1, J2, I1. split; [reflexivity|]. split; [exact I2|]. apply J3, I4.
      - cbn [app]. rewrite outs_cons, st_cons, (rc6_zero_low _ k) by lia. cbn [fst snd app]. rewrite I1. split; [reflexivity|]. split; [exact I2|]. apply I4, K. }
    destruct H as (H1 & H2 & H3). split; [exact H1|]. split; [exact H2|]. split; [exact H3|].
    intros s k1 K1. destruct (rc6_gap_step s) as (o & O). assert (O1 := O (444 * k1) k1 ltac:(lia) K1). constructor.
    + intros u' U. rewrite O1. apply (O u' k1); lia.
    + rewrite O1. exact H3.
    + rewrite SE. destruct m as [t c i|]; [intros u2 rest2 E; discriminate|]. cbn [app]. remember (444 * k) as g eqn:Hg. intros u2 rest2 E. inversion E; subst u2 rest2.
      replace (444 * k1 + g) with (444 * (k1 + k)) by lia. apply I4. lia.
    + rewrite SE. destruct m as [t c i|]; [intros u2 rest2 E; discriminate|]. cbn [app]. remember (444 * k) as g eqn:Hg. intros u2 rest2 E. inversion E; subst u2 rest2.
      rewrite O1. rewrite (O (444 * k1 + g) (k1 + k)) by lia. cbn [fst snd]. rewrite (rc6_zero_low g k) by lia. cbn. rewrite app_nil_r. auto.
Qed.

(** * Blaster *)
Definition shift32 (data : Z) (bs : list bool) : Z := fold_left (fun a b => (2 * a + b2z b) mod 2 ^ 32) bs data.
Definition bit_len (b : bool) : ilen := if b then LONG else SHORT.
(** Pulses that the decoder takes for the bits [bs]. *)
Definition as_bits (bs : list bool) (l : list pulse) : Prop := Forall2 (fun b p => blaster_classify (snd p) = bit_len b) bs l.
Lemma blaster_bit data num b p : 0 <= data -> blaster_classify (snd p) = bit_len b ->
  let d' := (2 * data + b2z b) mod 2 ^ 32 in let n' := u8 (num + 1) in
  blaster_step (Blaster data num true) p =
  if n' =? 16 then (Blaster d' n' (d' =? 170), [])
  else if n' =? 40 then (Blaster d' n' false, [Shot (u8 (Z.shiftr d' 16)) (u8 (Z.shiftr d' 8)) (u8 d') (u8 d' =? shot_parity (u8 (Z.shiftr d' 16)) (u8 (Z.shiftr d' 8)))])
  else (Blaster d' n' true, []).
Proof.
  intros D C d' n'. destruct p as (h, us). cbn [snd] in C. unfold blaster_step. cbn [b_bits_state b_data b_num]. rewrite C.
  assert (E : (match bit_len b with LONG => Z.lor (u32 (Z.shiftl data 1)) 1 | _ => u32 (Z.shiftl data 1) end) = d').
  { unfold d', u32. rewrite Z.shiftl_mul_pow2, Z.pow_1_r, (Z.mul_comm data 2) by lia. destruct b; cbn [bit_len b2z]; [|rewrite Z.add_0_r; reflexivity].
    change (2 ^ 32) with (2 * 2 ^ 31). rewrite Z.mul_mod_distr_l by lia. rewrite Z.mul_comm, lor_bit by (try lia; apply Z.mod_pos_bound; lia).
    rewrite Z.add_mod by lia. rewrite Z.mul_mod_distr_l by lia. rewrite (Z.mod_small 1) by lia.
    symmetry. apply Z.mod_small. pose proof (Z.mod_pos_bound data (2 ^ 31) ltac:(lia)). lia. }
  destruct b; cbn [bit_len] in *; rewrite E; reflexivity.
Qed.
Lemma shift32_nonneg bs : forall data, 0 <= data -> 0 <= shift32 data bs.
Proof. induction bs as [|b bs IH]; intros data D; [exact D|]. cbn. apply IH. apply Z.mod_pos_bound. lia. Qed.
Lemma blaster_bits_run bs l : as_bits bs l -> forall data num, 0 <= data -> 0 <= num -> (num + Z.of_nat (length bs) < 16 \/ 16 <= num /\ num + Z.of_nat (length bs) < 40) ->
  outs blaster_step (Blaster data num true) l = [] /\ st blaster_step (Blaster data num true) l = Blaster (shift32 data bs) (num + Z.of_nat (length bs)) true.
Proof.
  induction 1 as [|b p bs l C _ IH]; intros data num D N0 N.
  - cbn. rewrite Z.add_0_r. auto.
  - cbn [length] in N. rewrite outs_cons, st_cons, (blaster_bit data num b p D C). cbv zeta. unfold u8. rewrite Z.mod_small by lia.
    replace (num + 1 =? 16) with false by lia. replace (num + 1 =? 40) with false by lia. cbn [fst snd app].
    destruct (IH ((2 * data + b2z b) mod 2 ^ 32) (num + 1)) as (A & B); [apply Z.mod_pos_bound; lia|lia|lia|]. rewrite A, B. split; [reflexivity|].
    cbn [length]. replace (num + 1 + Z.of_nat (length bs)) with (num + Z.of_nat (S (length bs))) by lia. reflexivity.
Qed.
Lemma idle_step s p : b_bits_state s = false -> blaster_classify (snd p) <> MARK1 \/ fst p = false -> blaster_step s p = (Blaster 0 0 false, []).
Proof.
  intros S C. destruct p as (h, us). unfold blaster_step. rewrite S. cbn [fst snd] in C. destruct C as [C| ->]; [|reflexivity].
  destruct h; [|reflexivity]. destruct (blaster_classify us); try reflexivity. congruence.
Qed.
Lemma idle_run l : forall s, b_bits_state s = false -> Forall (fun p => blaster_classify (snd p) <> MARK1 \/ fst p = false) l ->
  outs blaster_step s l = [] /\ b_bits_state (st blaster_step s l) = false.
Proof.
  induction l as [|p l IH]; intros s S F; [auto|]. inversion F; subst. rewrite outs_cons, st_cons, idle_step by assumption. cbn [fst snd app]. apply IH; [reflexivity|assumption].
Qed.
Lemma pause_run p : pause p -> forall s, outs blaster_step s p = [] /\ b_bits_state (st blaster_step s p) = false.
Proof.
  intros (N & F) s. destruct p as [|(h, us) p]; [congruence|]. inversion F as [|? ? (Hh & U) F']; subst. cbn [fst snd] in *. subst h.
  assert (C : blaster_classify us = ILLEGAL) by (unfold blaster_classify; repeat match goal with |- context [?a <? ?b] => destruct (Z.ltb_spec a b); try lia end; reflexivity).
  assert (E : snd (blaster_step s (false, us)) = [] /\ b_bits_state (fst (blaster_step s (false, us))) = false).
  { unfold blaster_step. rewrite C. destruct (b_bits_state s); cbn; auto. }
  rewrite outs_cons, st_cons. destruct E as (-> & E). cbn [app]. apply idle_run; [exact E|]. eapply Forall_impl; [|exact F']. intros q (Q & _). right. exact Q.
Qed.
Lemma near_byte n i x got : 0 <= x < 256 -> near 99 (blaster_bits n i x) got -> as_bits (byte_bits n x) got.
Proof.
  revert i x got. induction n as [|n IH]; intros i x got X H; cbn [blaster_bits byte_bits] in *.
  - inversion H; subst. constructor.
  - inversion H as [|p q ? got' (A & B) H']; subst. cbn [fst snd] in *. constructor.
    + pose proof (land128 x X) as L. unfold topbit, b2z in L. change (2 ^ (8 - 1)) with 128 in L.
      destruct (Z.land x 128 =? 128); destruct (Z.land x 128 =? 0); try discriminate L; cbn [bit_len]; unfold blaster_classify;
      repeat match goal with |- context [?a <? ?b] => destruct (Z.ltb_spec a b); try lia end; reflexivity.
    + apply (IH (i + 1) _ got'); [unfold u8; apply Z.mod_pos_bound; lia|exact H'].
Qed.
Lemma shift32_mod bs : forall data, shift32 data bs mod 2 ^ 32 = shift_bits data bs mod 2 ^ 32.
Proof.
  assert (G : forall bs x y, x mod 2 ^ 32 = y mod 2 ^ 32 -> shift_bits x bs mod 2 ^ 32 = shift_bits y bs mod 2 ^ 32).
  { induction bs0 as [|b bs0 IH]; intros x y E; [exact E|]. apply (IH (2 * x + b2z b) (2 * y + b2z b)). rewrite Z.add_mod, Z.mul_mod, E, <- Z.mul_mod, <- Z.add_mod by lia. reflexivity. }
  induction bs as [|b bs IH]; intros data; [reflexivity|]. change (shift32 data (b :: bs)) with (shift32 ((2 * data + b2z b) mod 2 ^ 32) bs). rewrite IH.
  change (shift_bits data (b :: bs)) with (shift_bits (2 * data + b2z b) bs). apply G. apply Z.mod_mod. lia.
Qed.
Lemma as_bits_app_inv a b l : as_bits (a ++ b) l -> exists l1 l2, l = l1 ++ l2 /\ as_bits a l1 /\ as_bits b l2.
Proof. intros H. apply Forall2_app_inv_l in H as (l1 & l2 & A & B & ->). eauto. Qed.
Lemma shift32_last bs b data : shift32 data (bs ++ [b]) = (2 * shift32 data bs + b2z b) mod 2 ^ 32.
Proof. unfold shift32. rewrite fold_left_app. reflexivity. Qed.
Lemma shift32_val bs data : bs <> [] -> shift32 data bs = shift_bits data bs mod 2 ^ 32.
Proof.
  intros N. rewrite <- shift32_mod. destruct (exists_last N) as (l & b & ->). rewrite shift32_last. symmetry. apply Z.mod_mod. lia.
Qed.
Lemma snoc_split {A} (l : list A) n : length l = S n -> exists l' x, l = l' ++ [x] /\ length l' = n.
Proof. intros L. destruct (exists_last (l := l)) as (l' & x & ->); [intros ->; discriminate|]. exists l', x. rewrite app_length in L. cbn in L. split; [reflexivity|lia]. Qed.
Lemma check_parity t d : is_byte t -> is_byte d -> shot_parity t d = check_byte t d.
Proof.
  unfold is_byte, shot_parity, check_byte, u8. intros T D. destruct (Z.eqb_spec (t + d) 0) as [E|E]; [rewrite E; reflexivity|].
  rewrite Z.quot_div_nonneg by lia. change (2 ^ 8) with 256. f_equal. ring.
Qed.
Lemma byte_class bs l : as_bits bs l -> Forall (fun p => blaster_classify (snd p) <> MARK1 \/ fst p = false) l.
Proof. induction 1 as [|b p bs l C _ IH]; constructor; [left; rewrite C; destruct b; discriminate|exact IH]. Qed.
Lemma frame_run f got s : frame_ok f -> near 99 (frame_pulses f) got -> b_bits_state s = false ->
  outs blaster_step s got = frame_report f /\ (exists d n x, st blaster_step s got = Blaster d n x).
Proof.
  intros (Bh & Bl & Bt & Bd & Bc) N S. split; [|destruct (st blaster_step s got); eauto].
  change (frame_pulses f) with ((true, 1700) :: (EncodeByte (f_hi f) ++ EncodeByte (f_lo f) ++ EncodeByte (f_team f) ++ EncodeByte (f_damage f) ++ EncodeByte (f_check f))) in N.
  remember (EncodeByte (f_hi f) ++ EncodeByte (f_lo f) ++ EncodeByte (f_team f) ++ EncodeByte (f_damage f) ++ EncodeByte (f_check f)) as body eqn:BE.
  inversion N as [|p q ? got' (A & B) N']; subst p got. clear N. cbn [fst snd] in *. destruct q as (qh, qu). cbn [fst snd] in *. subst qh. rewrite BE in N'.
  clear BE. unfold near in N'. rewrite !app_assoc in N'. apply Forall2_app_inv_l in N' as (g1 & gc & N1 & Nc & ->). apply Forall2_app_inv_l in N1 as (g2 & gd & N2 & Nd & ->).
  apply Forall2_app_inv_l in N2 as (g3 & gt & N3 & Nt & ->). cbn [app] in N3. apply Forall2_app_inv_l in N3 as (gh & gl & Nh & Nl & ->).
  apply near_byte in Nh; [|exact Bh]. apply near_byte in Nl; [|exact Bl]. apply near_byte in Nt; [|exact Bt]. apply near_byte in Nd; [|exact Bd]. apply near_byte in Nc; [|exact Bc].
  assert (M : blaster_step s (true, qu) = (Blaster 0 0 true, [])).
  { unfold blaster_step. rewrite S. replace (blaster_classify qu) with MARK1; [reflexivity|].
    unfold blaster_classify; repeat match goal with |- context [?a <? ?b] => destruct (Z.ltb_spec a b); try lia end; reflexivity. }
  rewrite outs_cons, M. cbn [fst snd app].
  set (b16 := byte_bits 8 (f_hi f) ++ byte_bits 8 (f_lo f)). set (b24 := byte_bits 8 (f_team f) ++ byte_bits 8 (f_damage f) ++ byte_bits 8 (f_check f)).
  assert (A16 : as_bits b16 (gh ++ gl)) by (apply Forall2_app; assumption).
  assert (A24 : as_bits b24 (gt ++ gd ++ gc)) by (apply Forall2_app; [assumption|apply Forall2_app; assumption]).
  replace (((gh ++ gl) ++ gt) ++ gd) with ((gh ++ gl) ++ gt ++ gd) by (rewrite !app_assoc; reflexivity). rewrite <- app_assoc. rewrite <- (app_assoc gt).
  assert (L16 : length b16 = 16%nat) by (unfold b16; rewrite app_length, !byte_bits_length; reflexivity).
  assert (L24 : length b24 = 24%nat) by (unfold b24; rewrite !app_length, !byte_bits_length; reflexivity).
  assert (V16 : shift_bits 0 b16 = f_hi f * 256 + f_lo f).
  { unfold b16. rewrite shift_bits_app, !byte_bits_value by (assumption || lia). change (8 - Z.of_nat 8) with 0. change (2 ^ Z.of_nat 8) with 256. rewrite Z.pow_0_r, !Z.div_1_r. ring. }
  assert (V24 : forall d, shift_bits d b24 = d * 16777216 + f_team f * 65536 + f_damage f * 256 + f_check f).
  { intros d. unfold b24. rewrite !shift_bits_app, !byte_bits_value by (assumption || lia). change (8 - Z.of_nat 8) with 0. change (2 ^ Z.of_nat 8) with 256. rewrite Z.pow_0_r, !Z.div_1_r. ring. }
  clearbody b16 b24. unfold is_byte in *.
  destruct (snoc_split b16 15 L16) as (x16 & y16 & -> & X16). apply as_bits_app_inv in A16 as (l15 & l1 & E16 & A15 & A1). rewrite E16. clear E16.
  inversion A1 as [|? p16 ? ? C16 A1']; subst. inversion A1'; subst. clear A1 A1'.
  destruct (blaster_bits_run x16 l15 A15 0 0) as (R1 & R2); [lia|lia|rewrite X16; cbn; lia|].
  rewrite <- app_assoc, outs_app, R1, R2, X16. cbn [app]. rewrite outs_cons. rewrite (blaster_bit _ _ y16 p16 (shift32_nonneg x16 0 ltac:(lia)) C16). cbv zeta.
  rewrite <- shift32_last. change (u8 (0 + Z.of_nat 15 + 1)) with 16. rewrite Z.eqb_refl. cbn [fst snd app].
  assert (W16 : shift32 0 (x16 ++ [y16]) = f_hi f * 256 + f_lo f).
  { rewrite shift32_val by (destruct x16; discriminate). rewrite V16. apply Z.mod_small. lia. }
  rewrite W16. unfold frame_report.
  destruct ((f_hi f * 256 + f_lo f) =? 170) eqn:SY.
  - replace ((f_hi f =? 0) && (f_lo f =? 170)) with true by lia.
    destruct (snoc_split b24 23 L24) as (x24 & y24 & -> & X24). apply as_bits_app_inv in A24 as (l23 & l1 & E24 & A23 & A1). rewrite E24. clear E24.
    inversion A1 as [|? p24 ? ? C24 A1']; subst. inversion A1'; subst. clear A1 A1'.
    destruct (blaster_bits_run x24 l23 A23 170 16) as (Q1 & Q2); [lia|lia|rewrite X24; cbn; lia|].
    replace (f_hi f * 256 + f_lo f) with 170 by lia. rewrite outs_app, Q1, Q2, X24. cbn [app]. rewrite outs_cons, (blaster_bit _ _ y24 p24 (shift32_nonneg x24 170 ltac:(lia)) C24). cbv zeta.
    rewrite <- shift32_last. change (u8 (16 + Z.of_nat 23 + 1)) with 40. cbn [Z.eqb Pos.eqb fst snd app].
    set (D := shift32 170 (x24 ++ [y24])).
    assert (DV : D = (170 * 16777216 + f_team f * 65536 + f_damage f * 256 + f_check f)).
    { unfold D. rewrite shift32_val by (destruct x24; discriminate). rewrite V24. apply Z.mod_small. lia. }
    assert (T : u8 (Z.shiftr D 16) = f_team f) by (unfold u8; rewrite Z.shiftr_div_pow2 by lia; rewrite DV; change (2 ^ 16) with 65536; change (2 ^ 8) with 256; Z.div_mod_to_equations; lia).
    assert (Dm : u8 (Z.shiftr D 8) = f_damage f) by (unfold u8; rewrite Z.shiftr_div_pow2 by lia; rewrite DV; change (2 ^ 8) with 256; Z.div_mod_to_equations; lia).
    assert (Ck : u8 D = f_check f) by (unfold u8; rewrite DV; change (2 ^ 8) with 256; Z.div_mod_to_equations; lia).
    rewrite T, Dm, Ck, check_parity by assumption. reflexivity.
  - replace ((f_hi f =? 0) && (f_lo f =? 170)) with false by lia. apply idle_run; [reflexivity|]. apply (byte_class _ _ A24).
Qed.
Lemma frames_run fs got : frames_heard fs got -> forall s, b_bits_state s = false -> outs blaster_step s got = concat (map frame_report fs).
Proof.
  induction 1 as [|f fs got p rest OK N P H IH]; intros s S; [reflexivity|]. cbn [map concat]. rewrite outs_app. destruct (frame_run f got s OK N S) as (-> & _). f_equal.
  rewrite outs_app. destruct (pause_run p P (st blaster_step s got)) as (-> & Q). cbn [app]. apply IH, Q.
Qed.

(** * Receiver *)
Lemma land15 x : Z.land x 15 = x mod 16.
Proof. change 15 with (Z.ones 4). rewrite Z.land_ones by lia. reflexivity. Qed.
Lemma set_nth_length {A} n (x : A) l : (n < length l)%nat -> length (set_nth n x l) = length l.
Proof. intros L. unfold set_nth. rewrite app_length, firstn_length. cbn [length]. rewrite skipn_length. lia. Qed.
Lemma set_nth_same {A} n (x d : A) l : (n < length l)%nat -> nth n (set_nth n x l) d = x.
Proof. intros L. unfold set_nth. rewrite app_nth2 by (rewrite firstn_length; lia). rewrite firstn_length. replace (n - Nat.min n (length l))%nat with 0%nat by lia. reflexivity. Qed.
Lemma set_nth_other {A} n m (x d : A) l : (n < length l)%nat -> n <> m -> nth m (set_nth n x l) d = nth m l d.
Proof.
  intros L N. unfold set_nth. destruct (Nat.lt_ge_cases m n).
  - rewrite app_nth1 by (rewrite firstn_length; lia). rewrite <- (firstn_skipn n l) at 2. rewrite app_nth1 by (rewrite firstn_length; lia). reflexivity.
  - rewrite app_nth2 by (rewrite firstn_length; lia). rewrite firstn_length. replace (m - Nat.min n (length l))%nat with (S (m - n - 1)) by lia. cbn [nth].
    rewrite <- (firstn_skipn (S n) l) at 2. rewrite app_nth2 by (rewrite firstn_length; lia). rewrite firstn_length. f_equal. lia.
Qed.
Definition ring (r : receiver) (gen got : list pulse) : Prop :=
  let G := Z.of_nat (length gen) in let T := Z.of_nat (length got) in let X := (false, 0) :: gen in
  head r = G mod 256 /\ tail r = T mod 256 /\ T <= G <= T + 15 /\ length (buffer r) = 16%nat /\
  (forall i, T <= Z.of_nat i <= G -> nth (Z.to_nat (Z.of_nat i mod 16)) (buffer r) (false, 0) = nth i X (false, 0)) /\
  got = firstn (length got) X /\
  match pc r with
  | RxIdle => True
  | RxHigh h => T < G /\ h = fst (nth (length got) X (false, 0))
  | RxBoth h d => T < G /\ (h, d) = nth (length got) X (false, 0)
  end.
Lemma mod256_16 x : (x mod 256) mod 16 = x mod 16.
Proof. Z.div_mod_to_equations. lia. Qed.
Lemma ring_generate r gen got state now : ring r gen got ->
  Z.of_nat (length gen) + 1 <= Z.of_nat (length got) + 15 ->
  ring (generate r state now) (gen ++ [(negb (current_state r), u32 (now - current_micros r))]) got.
Proof.
  intros (H & T & B & L & R & D & P) O. set (e := (negb (current_state r), u32 (now - current_micros r))).
  unfold ring. rewrite app_length. cbn [length]. set (G := Z.of_nat (length gen)) in *. set (TT := Z.of_nat (length got)) in *.
  replace (Z.of_nat (length gen + 1)) with (G + 1) by lia. unfold generate. cbn [head tail buffer pc]. fold e.
  assert (SL : Z.land (head r + 1) 15 = (G + 1) mod 16) by (rewrite land15, H, <- (mod256_16 (G + 1)); clear; Z.div_mod_to_equations; lia).
  assert (SB : 0 <= (G + 1) mod 16 < 16) by (apply Z.mod_pos_bound; lia).
  rewrite SL. split; [unfold u8; rewrite H; clear; change (2 ^ 8) with 256; Z.div_mod_to_equations; lia|].
  split; [exact T|]. split; [lia|]. split; [rewrite set_nth_length by lia; exact L|].
  assert (XN : forall i, (i <= length gen)%nat -> nth i ((false, 0) :: gen ++ [e]) (false, 0) = nth i ((false, 0) :: gen) (false, 0)).
  { intros i I. destruct i as [|i]; [reflexivity|]. cbn [nth]. apply app_nth1. lia. }
  split; [|split].
  - intros i I. destruct (Nat.eq_dec i (length gen + 1)) as [-> |N].
    + replace (Z.of_nat (length gen + 1)) with (G + 1) by lia. rewrite set_nth_same by lia. replace (length gen + 1)%nat with (S (length gen)) by lia. cbn [nth]. rewrite app_nth2, Nat.sub_diag by lia. reflexivity.
    + rewrite set_nth_other; [|lia|].
      * rewrite XN by lia. apply R. lia.
      * intros E. apply Z2Nat.inj in E; [|lia|apply Z.mod_pos_bound; lia]. revert E. assert (TT <= Z.of_nat i <= G) by lia. clear - H0 O. intros E. Z.div_mod_to_equations. lia.
  - rewrite D at 1. change ((false, 0) :: gen ++ [e]) with (((false, 0) :: gen) ++ [e]). rewrite firstn_app. cbn [length]. replace (length got - S (length gen))%nat with 0%nat by lia. cbn [firstn]. rewrite app_nil_r. reflexivity.
  - destruct (pc r) as [|h|h d]; [exact I| |]; destruct P as (P1 & P2); (split; [lia|]); rewrite XN by lia; exact P2.
Qed.
Lemma ring_step r gen got o : ring r gen got ->
  Z.of_nat (length (gen ++ recorded r o)) <= Z.of_nat (length (got ++ snd (rx_step r o))) + 15 ->
  ring (fst (rx_step r o)) (gen ++ recorded r o) (got ++ snd (rx_step r o)).
Proof.
  intros R O. destruct o as [state now|state now|]; cbn [recorded rx_step fst snd] in *.
  - rewrite app_nil_r in *. destruct (Bool.eqb state (current_state r)); [rewrite app_nil_r; exact R|]. rewrite app_length in O. cbn [length] in O. apply ring_generate; [exact R|lia].
  - rewrite app_nil_r in *. unfold u32 in *. destruct (pc r) eqn:PC; try (rewrite app_nil_r; exact R).
    destruct ((now - current_micros r) mod 2 ^ 32 >? 20000); [|rewrite app_nil_r; exact R]. rewrite app_length in O. cbn [length] in O. apply (ring_generate r gen got state now); [exact R|lia].
  - rewrite app_nil_r in *. clear O. destruct R as (H & T & B & L & R & D & P).
    assert (SL : Z.land (tail r) 15 = Z.of_nat (length got) mod 16) by (rewrite land15, T; apply mod256_16).
    destruct (pc r) as [|h|h d] eqn:PC.
    + destruct (Z.eqb_spec (tail r) (head r)) as [E|E]; cbn [fst snd]; rewrite app_nil_r.
      * unfold ring. rewrite PC. auto 10.
      * unfold ring. cbn [head tail buffer pc]. assert (TG : Z.of_nat (length got) < Z.of_nat (length gen)).
        { destruct (Z.eq_dec (Z.of_nat (length got)) (Z.of_nat (length gen))) as [Q|Q]; [|lia]. rewrite Q in T. congruence. }
        split; [exact H|]. split; [exact T|]. split; [exact B|]. split; [exact L|]. split; [exact R|]. split; [exact D|]. split; [exact TG|].
        rewrite SL. f_equal. apply R. lia.
    + destruct P as (TG & P). cbn [fst snd]. rewrite app_nil_r. unfold ring. cbn [head tail buffer pc].
      split; [exact H|]. split; [exact T|]. split; [exact B|]. split; [exact L|]. split; [exact R|]. split; [exact D|]. split; [exact TG|].
      rewrite SL, R by lia. subst h. destruct (nth (length got) ((false, 0) :: gen) (false, 0)); reflexivity.
    + destruct P as (TG & P). cbn [fst snd]. unfold ring. cbn [head tail buffer pc]. rewrite app_length. cbn [length].
      replace (Z.of_nat (length got + 1)) with (Z.of_nat (length got) + 1) by lia.
      split; [exact H|]. split; [unfold u8; rewrite T; change (2 ^ 8) with 256; clear; Z.div_mod_to_equations; lia|]. split; [lia|]. split; [exact L|].
      split; [intros i I; apply R; lia|]. split; [|exact I].
      rewrite P. rewrite D at 1. set (X := (false, 0) :: gen) in *. assert (LX : (length got < length X)%nat) by (unfold X; cbn [length]; lia). clearbody X. clear - LX.
      generalize dependent (length got). intros n. revert X. induction n as [|n IH]; intros X LX; destruct X as [|x X]; cbn [length] in LX; try lia; [reflexivity|].
      cbn [firstn nth app Nat.add]. f_equal. apply IH. lia.
Qed.
Lemma ring0 : ring rx0 [] [].
Proof.
  unfold ring. cbn [length]. change (Z.of_nat 0) with 0. split; [reflexivity|]. split; [reflexivity|]. split; [lia|]. split; [reflexivity|]. split; [|split; [reflexivity|exact I]].
  intros i I. assert (i = 0%nat) as -> by lia. reflexivity.
Qed.
Lemma ring_run ops : forall r gen got, ring r gen got ->
  (forall n, Z.of_nat (length (gen ++ all_recorded r (firstn n ops))) <= Z.of_nat (length (got ++ all_delivered r (firstn n ops))) + 15) ->
  exists r', ring r' (gen ++ all_recorded r ops) (got ++ all_delivered r ops) /\ r' = run_state rx_step r ops.
Proof.
  induction ops as [|o ops IH]; intros r gen got R O.
  - cbn. rewrite !app_nil_r. eauto.
  - cbn [all_recorded all_delivered run_state]. rewrite !app_assoc. apply IH.
    + apply ring_step; [exact R|]. specialize (O 1%nat). cbn [firstn all_recorded all_delivered] in O. rewrite !app_nil_r in O. exact O.
    + intros n. specialize (O (S n)). cbn [firstn all_recorded all_delivered] in O. rewrite <- !app_assoc. exact O.
Qed.
(** * Transmitter *)
Lemma chunks_ok fuel : forall n high, 0 <= n <= Z.of_nat fuel ->
  periods (chunks fuel n high) = n /\ Forall (fun c => 0 <= fst c <= 255 /\ snd c = if high then 1 else 0) (chunks fuel n high).
Proof.
  induction fuel as [|fuel IH]; intros n high N; [cbn; split; [lia|constructor]|]. cbn [chunks]. destruct (Z.eqb_spec n 0) as [-> |N0]; [cbn; split; [reflexivity|constructor]|].
  destruct (IH (n - Z.min n 256) high ltac:(lia)) as (A & B). unfold periods in *. cbn [fold_right fst]. rewrite A. unfold u8. rewrite Z.mod_small by (change (2 ^ 8) with 256; lia).
  split; [lia|]. constructor; [cbn [fst snd]; split; [lia|reflexivity]|exact B].
Qed.
