(** Proofs about effects and blade sets. *)
From Coq Require Import ZArith List Bool Lia ZifyBool ZifyNat.
From Verif Require Import Machine EffectModel EffectSpec.
Import ListNotations.
Open Scope Z_scope.

(** * Blade sets *)
Lemma bs_has_testbit a b : 0 <= b -> bs_has a b = Z.testbit a b.
Proof.
  intros B. unfold bs_has. destruct (Z.testbit a b) eqn:E.
  - assert (Z.land a (Z.shiftl 1 b) <> 0); [|lia]. intros Z0. assert (T : Z.testbit (Z.land a (Z.shiftl 1 b)) b = true).
    { rewrite Z.land_spec, E, Z.shiftl_spec by lia. rewrite Z.sub_diag. reflexivity. } rewrite Z0, Z.bits_0 in T. discriminate.
  - assert (Z.land a (Z.shiftl 1 b) = 0); [|lia]. apply Z.bits_inj'. intros n N. rewrite Z.land_spec, Z.bits_0, Z.shiftl_spec by lia.
    destruct (Z.eq_dec n b) as [-> |NE]; [rewrite E; reflexivity|]. change 1 with (2 ^ 0). rewrite Z.pow2_bits_eqb by lia.
    replace (0 =? n - b) with false by lia. apply andb_false_r.
Qed.
Lemma testbit_small w a b : 0 <= a < 2 ^ w -> w <= b -> Z.testbit a b = false.
Proof.
  intros A B. destruct (Z.ltb_spec w 0) as [L|L]; [rewrite Z.pow_neg_r in A by lia; lia|].
  rewrite <- (Z.mod_small a (2 ^ w)) by lia. apply Z.mod_pow2_bits_high. lia.
Qed.
Lemma not_bit w a b : 0 <= w -> Z.testbit (bs_not w a) b = (0 <=? b) && (b <? w) && negb (Z.testbit a b).
Proof.
  intros W. unfold bs_not. destruct (Z.ltb_spec b 0).
  - rewrite Z.testbit_neg_r by lia. replace (0 <=? b) with false by lia. reflexivity.
  - replace (0 <=? b) with true by lia. destruct (Z.ltb_spec b w).
    + rewrite Z.mod_pow2_bits_low by lia. rewrite Z.lnot_spec by lia. reflexivity.
    + rewrite Z.mod_pow2_bits_high by lia. reflexivity.
Qed.
Lemma from_bit w a b : 0 <= w -> 0 <= a < w -> Z.testbit (bs_from w a) b = (b =? a).
Proof.
  intros W A. unfold bs_from. rewrite Z.shiftl_1_l, Z.mod_small.
  - destruct (Z.ltb_spec b 0); [rewrite Z.testbit_neg_r by lia; lia|]. rewrite Z.pow2_bits_eqb by lia. lia.
  - split; [lia|]. apply Z.pow_lt_mono_r; lia.
Qed.
Lemma all_bit w b : 0 <= w -> Z.testbit (bs_all w) b = (0 <=? b) && (b <? w).
Proof. intros W. unfold bs_all. rewrite not_bit by exact W. unfold bs_empty. rewrite Z.bits_0. apply andb_true_r. Qed.
Lemma bits_zero a : 0 <= a -> (forall b, Z.testbit a b = false) <-> a = 0.
Proof.
  intros A. split; [|intros -> b; apply Z.bits_0]. intros H. apply Z.bits_inj'. intros n N. rewrite H, Z.bits_0. reflexivity.
Qed.
Lemma has_bit w a : 0 <= a < 2 ^ w -> bs_off a = false -> exists b, Z.testbit a b = true.
Proof.
  intros A E. exists (Z.log2 a). apply Z.bit_log2. unfold bs_off in E. lia.
Qed.
Lemma set_range w a : 0 <= w -> (forall b, w <= b -> Z.testbit a b = false) -> 0 <= a -> a < 2 ^ w.
Proof.
  intros W H A. destruct (Z.eq_dec a 0) as [-> |]; [apply Z.pow_pos_nonneg; lia|].
  apply Z.log2_lt_pow2; [lia|]. destruct (Z.ltb_spec (Z.log2 a) w) as [L|L]; [exact L|].
  pose proof (H (Z.log2 a) L) as F. rewrite Z.bit_log2 in F by lia. discriminate.
Qed.
Lemma and_range w a b : 0 <= w -> 0 <= a < 2 ^ w -> 0 <= bs_and a b < 2 ^ w.
Proof.
  intros W A. unfold bs_and. assert (0 <= Z.land a b) by (apply Z.land_nonneg; lia). split; [assumption|].
  apply set_range; [lia| |assumption]. intros c C. rewrite Z.land_spec, (testbit_small w a) by lia. reflexivity.
Qed.
Lemma or_range w a b : 0 <= w -> 0 <= a < 2 ^ w -> 0 <= b < 2 ^ w -> 0 <= bs_or a b < 2 ^ w.
Proof.
  intros W A B. unfold bs_or. assert (0 <= Z.lor a b) by (apply Z.lor_nonneg; lia). split; [assumption|].
  apply set_range; [lia| |assumption]. intros c C. rewrite Z.lor_spec, (testbit_small w a), (testbit_small w b) by lia. reflexivity.
Qed.
Lemma not_range w a : 0 <= w -> 0 <= bs_not w a < 2 ^ w.
Proof. intros W. apply Z.mod_pos_bound. apply Z.pow_pos_nonneg; lia. Qed.

(** * Switching *)
Section Switch.
  Variable w : Z. Hypothesis W : 0 <= w.
  Variable want : effect_type. Variable stab : bool. Variable blade : Z.
  Notation serve := (serve w want stab blade).
  Lemma push_on s now t l len wav : on_ (push_effect s now t l len wav) = on_ s.
  Proof. unfold push_effect. destruct (stored_type t (lockup_ s)); reflexivity. Qed.
  Lemma do_off_ok s now o l len wav : on_ (fst (do_off s now o l len wav)) = on_ s /\ snd (do_off s now o l len wav) = announce_off o l len wav.
  Proof. destruct o; cbn [do_off do_effect fst snd announce_off]; rewrite ?push_on; auto. Qed.
  Lemma do_on_ok s now l len wav : on_ (fst (do_on s now l len wav)) = on_ s /\ snd (do_on s now l len wav) = [NOn l; NEffect EIgnition l len wav].
  Proof. cbn [do_on do_effect fst snd]. rewrite push_on. auto. Qed.

  Definition step_ok (on : Z -> Prop) (q : request) (ns : list notice) : Prop :=
    match q with
    | TurnOnAll len wav => exists l, ns = [NOn l; NEffect EIgnition l len wav] /\ (forall b, 0 <= b < w -> named l b)
    | TurnOffAll o len wav => exists l, ns = announce_off o l len wav /\ (forall b, 0 <= b < w -> named l b)
    | TurnOn l len wav => (ns = [] /\ forall b, named l b -> on b) \/
        (exists l', ns = [NOn l'; NEffect EIgnition l' len wav] /\ fixed l' = fixed l /\ (exists b, named l' b) /\ forall b, named l' b <-> named l b /\ ~ on b)
    | TurnOff o l len wav => (ns = [] /\ forall b, named l b -> ~ on b) \/
        (exists l', ns = announce_off o l' len wav /\ fixed l' = fixed l /\ (exists b, named l' b) /\ forall b, named l' b <-> named l b /\ on b)
    | _ => True end.
  Lemma named_range l b : loc_ok w l -> named l b -> 0 <= b < w.
  Proof.
    intros L N. unfold named in N. destruct (Z.ltb_spec b 0); [rewrite Z.testbit_neg_r in N by lia; discriminate|].
    destruct (Z.ltb_spec b w); [lia|]. rewrite (testbit_small w) in N by (unfold loc_ok in L; lia). discriminate.
  Qed.
  Lemma off_bits a : 0 <= a < 2 ^ w -> bs_off a = true -> forall b, Z.testbit a b = false.
  Proof. intros A E b. unfold bs_off in E. replace a with 0 by lia. apply Z.bits_0. Qed.
  Lemma switch_step s last on t q s1 l1 ns :
    req_ok w (t, q) -> 0 <= on_ s < 2 ^ w -> (forall b, 0 <= b < w -> on b <-> Z.testbit (on_ s) b = true) ->
    serve (s, last) (t, q) = ((s1, l1), ns) ->
    step_ok on q ns /\ 0 <= on_ s1 < 2 ^ w /\ (forall b, 0 <= b < w -> on_after on [(t, q)] b <-> Z.testbit (on_ s1) b = true).
  Proof.
    intros R O H E. unfold req_ok in R. cbn [snd] in R. unfold EffectModel.serve in E.
    destruct q as [ty l len wav|k bs|len wav|l len wav|o len wav|o l len wav| | |].
    - unfold do_effect in E. inversion E; subst. cbn [step_ok on_after]. rewrite push_on. auto.
    - inversion E; subst. cbn. auto.
    - pose proof (do_on_ok (set_on s (bs_all w)) (t mod 2 ^ 32) (Loc 0 (bs_all w)) len wav) as (A & B).
      destruct (do_on _ _ _ _ _) as (s2, n2). cbn [fst snd] in A, B. inversion E; subst. cbn [step_ok on_after set_on on_] in *. rewrite A.
      split. { exists (Loc 0 (bs_all w)). split; [reflexivity|]. intros b Bb. unfold named. cbn [blades]. rewrite all_bit; lia. }
      split; [apply not_range, W|]. intros b Bb. rewrite all_bit by lia. split; [lia|auto].
    - set (l' := Loc (fixed l) (bs_and (blades l) (bs_not w (on_ s)))) in *. cbv zeta in E.
      assert (L' : 0 <= blades l' < 2 ^ w) by (apply and_range; assumption).
      assert (NB : forall b, named l' b <-> named l b /\ ~ on b).
      { intros b. unfold named. cbn [l' blades]. unfold bs_and. rewrite Z.land_spec, not_bit by exact W. split.
        - intros T. apply andb_prop in T as (T1 & T2). split; [exact T1|]. apply andb_prop in T2 as (T2 & T3). intros C.
          apply H in C; [|lia]. rewrite C in T3. discriminate.
        - intros (T & N). pose proof (named_range l b R T) as BR. rewrite T. replace (0 <=? b) with true by lia. replace (b <? w) with true by lia.
          destruct (Z.testbit (on_ s) b) eqn:TB; [apply H in TB; [contradiction|lia]|reflexivity]. }
      destruct (bs_off (blades l')) eqn:OFF.
      + inversion E; subst. pose proof (off_bits _ L' OFF) as OB. cbn [step_ok on_after].
        assert (Q : forall b, named l b -> on b).
        { intros b N. pose proof (named_range l b R N). apply H; [assumption|]. destruct (Z.testbit (on_ s1) b) eqn:TB; [reflexivity|]. exfalso.
          assert (X : named l' b) by (apply NB; split; [exact N|]; intros C; apply H in C; [congruence|assumption]). unfold named in X. rewrite OB in X. discriminate. }
        split; [left; auto|]. split; [exact O|]. intros b Bb. rewrite <- H by exact Bb. split; [intros [N|N]; auto|auto].
      + pose proof (do_on_ok (set_on s (bs_or (on_ s) (blades l'))) (t mod 2 ^ 32) l' len wav) as (A & B).
        destruct (do_on _ _ _ _ _) as (s2, n2). cbn [fst snd] in A, B. inversion E; subst. cbn [step_ok on_after]. rewrite A. cbn [set_on on_].
        split. { right. exists l'. split; [reflexivity|]. split; [reflexivity|]. split; [exact (has_bit w _ L' OFF)|exact NB]. }
        split; [apply or_range; assumption|]. intros b Bb. unfold bs_or. rewrite Z.lor_spec, orb_true_iff, <- H by exact Bb.
        change (Z.testbit (blades l') b = true) with (named l' b). rewrite NB. 
        split; [intros [N|N]; [|auto]|intros [N|(N & _)]; auto]. destruct (Z.testbit (on_ s) b) eqn:TB; [left; apply H; assumption|].
        right. split; [exact N|]. intros C. apply H in C; congruence.
    - pose proof (do_off_ok (set_motion (set_on s bs_empty) (millis t)) (t mod 2 ^ 32) o (Loc 0 (bs_all w)) len wav) as (A & B).
      destruct (do_off _ _ _ _ _ _) as (s2, n2). cbn [fst snd] in A, B. inversion E; subst. cbn [step_ok on_after]. rewrite A. cbn [set_on set_motion on_].
      split. { exists (Loc 0 (bs_all w)). split; [reflexivity|]. intros b Bb. unfold named. cbn [blades]. rewrite all_bit; lia. }
      split; [unfold bs_empty; split; [lia|apply Z.pow_pos_nonneg; lia]|]. intros b Bb. unfold bs_empty. rewrite Z.bits_0. split; [tauto|discriminate].
    - set (l' := Loc (fixed l) (bs_and (blades l) (on_ s))) in *. cbv zeta in E.
      assert (L' : 0 <= blades l' < 2 ^ w) by (apply and_range; assumption).
      assert (NB : forall b, named l' b <-> named l b /\ on b).
      { intros b. unfold named. cbn [l' blades]. unfold bs_and. rewrite Z.land_spec, andb_true_iff. split.
        - intros (T1 & T2). split; [exact T1|]. apply H; [apply (named_range l b R T1)|exact T2].
        - intros (T & N). split; [exact T|]. apply H; [apply (named_range l b R T)|exact N]. }
      destruct (bs_off (blades l')) eqn:OFF.
      + inversion E; subst. pose proof (off_bits _ L' OFF) as OB. cbn [step_ok on_after].
        assert (Q : forall b, named l b -> ~ on b).
        { intros b N C. assert (X : named l' b) by (apply NB; auto). unfold named in X. rewrite OB in X. discriminate. }
        split; [left; auto|]. split; [exact O|]. intros b Bb. rewrite <- H by exact Bb. split; [intros (N & _); auto|]. intros N. split; [exact N|]. intros C. exact (Q b C N).
      + pose proof (do_off_ok (set_motion (set_on s (bs_and (on_ s) (bs_not w (blades l')))) (millis t)) (t mod 2 ^ 32) o l' len wav) as (A & B).
        destruct (do_off _ _ _ _ _ _) as (s2, n2). cbn [fst snd] in A, B. inversion E; subst. cbn [step_ok on_after]. rewrite A. cbn [set_on set_motion on_].
        split. { right. exists l'. split; [reflexivity|]. split; [reflexivity|]. split; [exact (has_bit w _ L' OFF)|exact NB]. }
        split; [apply and_range; assumption|]. intros b Bb. unfold bs_and. rewrite Z.land_spec, andb_true_iff, <- H by exact Bb. rewrite not_bit by exact W.
        replace (0 <=? b) with true by lia. replace (b <? w) with true by lia. cbn [andb].
        split; intros (N & C); split; try exact N.
        * destruct (Z.testbit (blades l') b) eqn:TB; [|reflexivity]. exfalso. apply C. apply (proj1 (NB b) TB).
        * intros D. assert (X : named l' b) by (apply NB; auto). unfold named in X. rewrite X in C. discriminate.
    - inversion E; subst. cbn. auto.
    - unfold get_effects in E. inversion E; subst. cbn [step_ok on_after on_]. auto.
    - unfold detect, get_effects in E. destruct (find_effect _ _ _ _) as [e|]; [destruct (start_micros e =? last)|]; inversion E; subst; cbn [step_ok on_after on_]; auto.
  Qed.
  Lemma on_after_cons on r reqs : on_after on (r :: reqs) = on_after (on_after on [r]) reqs.
  Proof. destruct r as (t, q). destruct q; reflexivity. Qed.
  Lemma switch_all reqs : forall s last on,
    Forall (req_ok w) reqs -> 0 <= on_ s < 2 ^ w ->
    (forall b, 0 <= b < w -> on b <-> Z.testbit (on_ s) b = true) ->
    switch_ok w on reqs (run_outs serve (s, last) reqs) /\
    forall b, 0 <= b < w -> (on_after on reqs b <-> Z.testbit (on_ (fst (run_state serve (s, last) reqs))) b = true).
  Proof.
    induction reqs as [|(t, q) reqs IH]; intros s last on R O H; [split; [exact I|exact H]|].
    inversion R as [|? ? R1 R2]; subst. cbn [run_outs run_state]. destruct (serve (s, last) (t, q)) as ((s1, l1), ns) eqn:E.
    destruct (switch_step _ _ _ _ _ _ _ _ R1 O H E) as (A & O1 & H1).
    destruct (IH s1 l1 (on_after on [(t, q)]) R2 O1 H1) as (B & C). rewrite on_after_cons. cbn [fst]. split; [|exact C].
    exact (conj A B).
  Qed.
End Switch.

(** * The effect list *)
Lemma set_nth_length l i e : length (set_nth l i e) = length l.
Proof. revert i; induction l as [|x l IH]; intros [|i]; cbn; auto. Qed.
Lemma set_nth_split l i e : (i < length l)%nat -> set_nth l i e = firstn i l ++ e :: skipn (S i) l.
Proof. revert i; induction l as [|x l IH]; intros [|i] H; cbn in *; try lia; [reflexivity|]. f_equal. apply IH. lia. Qed.
Lemma shift_down_spec n : forall l, (n < length l)%nat ->
  shift_down l n = firstn 1 l ++ firstn n l ++ skipn (S n) l.
Proof.
  induction n as [|n IH]; intros l H; [cbn [shift_down firstn app]; symmetry; apply (firstn_skipn 1)|].
  cbn [shift_down]. rewrite IH by (rewrite set_nth_length; lia). rewrite set_nth_split by lia.
  assert (F : forall k, (k <= S n)%nat -> firstn k (firstn (S n) l ++ nth n l dummy :: skipn (S (S n)) l) = firstn k l).
  { intros k K. rewrite firstn_app, firstn_length, firstn_firstn. replace (k - Nat.min (S n) (length l))%nat with 0%nat by lia.
    cbn [firstn]. rewrite app_nil_r. f_equal. lia. }
  rewrite !F by lia. f_equal.
  rewrite skipn_app, firstn_length. replace (S n - Nat.min (S n) (length l))%nat with 0%nat by lia.
  rewrite (skipn_all2 (firstn (S n) l)) by (rewrite firstn_length; lia). cbn [app]. rewrite skipn_O.
  assert (S1 : firstn (S n) l = firstn n l ++ [nth n l dummy]).
  { clear -H. revert n H. induction l as [|x l IH]; intros [|n] H; cbn in *; try lia; [reflexivity|]. f_equal. apply IH. lia. }
  rewrite S1, <- app_assoc. reflexivity.
Qed.
Lemma pushed arr n e : (n < length arr)%nat -> firstn (S n) (set_nth (shift_down arr n) 0 e) = e :: firstn n arr.
Proof.
  intros H. rewrite shift_down_spec by exact H. destruct arr as [|x arr]; [cbn in H; lia|].
  cbn [firstn app set_nth]. f_equal. rewrite firstn_app, firstn_length. rewrite firstn_firstn.
  replace (n - Nat.min n (length (x :: arr)))%nat with 0%nat by lia. cbn [firstn]. rewrite app_nil_r. f_equal. lia.
Qed.
Lemma shift_down_length n : forall l, length (shift_down l n) = length l.
Proof. induction n; intros l; cbn [shift_down]; [reflexivity|]. rewrite IHn. apply set_nth_length. Qed.

Definition sorted_from (t : Z) (log : list event) : Prop :=
  (forall e, In e log -> ev_time e <= t) /\ 
  forall i j d, (i <= j < length log)%nat -> ev_time (nth j log d) <= ev_time (nth i log d).
Lemma sorted_cons t t' log e : t <= t' -> ev_time e = t' -> sorted_from t log -> sorted_from t' (e :: log).
Proof.
  intros T E (A & B). split.
  - intros e' [<- |IN]; [lia|]. specialize (A e' IN). lia.
  - intros [|i] [|j] d L; cbn [nth length] in *; try lia; [|apply B; lia].
    assert (IN : In (nth j log d) log) by (apply nth_In; lia). specialize (A _ IN). lia.
Qed.
Lemma firstn_S_nth {A} (d : A) l n : (n < length l)%nat -> firstn (S n) l = firstn n l ++ [nth n l d].
Proof. revert n. induction l as [|x l IH]; intros [|n] H; cbn in *; try lia; [reflexivity|]. f_equal. apply IH. lia. Qed.

(** What the list holds: the first [k] of the log; the others of the first ten were older
    than 7 s when last asked at [asked]. *)
Definition held (s : saber) (log : list event) (asked now : Z) : Prop :=
  let k := num_effects_ s in
  length (effects_ s) = NELEM /\ (k <= length log)%nat /\ (k <= 10)%nat /\
  firstn k (effects_ s) = map show (firstn k log) /\
  sorted_from now log /\ (forall e, In e log -> 0 <= ev_time e) /\
  Forall (fun e => asked - ev_time e > 7000000) (skipn k (firstn 10 log)) /\
  Forall (fun e => asked - ev_time e <= 7000000) (firstn k log).

Lemma held_later s log asked now now' : now <= now' -> held s log asked now -> held s log asked now'.
Proof.
  intros L (A & B & C & D & (E1 & E2) & F). split; [exact A|]. split; [exact B|]. split; [exact C|]. split; [exact D|].
  split; [|exact F]. split; [|exact E2]. intros e IN. specialize (E1 e IN). lia.
Qed.
Lemma firstn_incl {A} (l : list A) m n x : (m <= n)%nat -> In x (firstn m l) -> In x (firstn n l).
Proof.
  intros L. rewrite <- (firstn_skipn m (firstn n l)), firstn_firstn. replace (Nat.min m n) with m by lia. intros IN. apply in_or_app. auto.
Qed.
Lemma firstn_le_eq {A} (a b : list A) m n : (m <= n)%nat -> firstn n a = firstn n b -> firstn m a = firstn m b.
Proof.
  intros L H. replace m with (Nat.min m n) by lia. rewrite <- !firstn_firstn, H. reflexivity.
Qed.
Lemma held_push s log asked now e k' on lk lkb mo : k' = Nat.min (num_effects_ s + 1) 10 ->
  asked <= ev_time e -> now <= ev_time e -> 0 <= ev_time e ->
  held s log asked now ->
  held (Saber (set_nth (shift_down (effects_ s) (Nat.min (num_effects_ s) (NELEM - 1))) 0 (show e)) k' on lk lkb mo) (e :: log) asked (ev_time e).
Proof.
  intros K' A1 N1 T1 (A & B & C & D & E & F & G & H). unfold held. cbn [effects_ num_effects_]. set (k := num_effects_ s) in *. subst k'.
  unfold NELEM in *. change (10 - 1)%nat with 9%nat in *.
  split; [rewrite set_nth_length, shift_down_length; exact A|]. cbn [length]. split; [lia|]. split; [lia|].
  assert (KM : Nat.min (k + 1) 10 = S (Nat.min k 9)) by lia. rewrite KM.
  split. { rewrite pushed by lia. cbn [firstn map]. f_equal. rewrite <- !firstn_map in *.
    apply (firstn_le_eq _ _ _ k); [lia|exact D]. }
  split; [apply (sorted_cons now); auto|]. split. { intros e' [<- |IN]; [lia|auto]. }
  change (firstn 10 (e :: log)) with (e :: firstn 9 log). change (skipn (S (Nat.min k 9)) (e :: firstn 9 log)) with (skipn (Nat.min k 9) (firstn 9 log)).
  rewrite Forall_forall in G, H. split; rewrite Forall_forall.
  - intros x IN. apply G. destruct (Nat.leb_spec k 9).
    + replace (Nat.min k 9) with k in IN by lia. rewrite skipn_firstn_comm in *. apply (firstn_incl _ (9 - k)); [lia|exact IN].
    + replace (Nat.min k 9) with 9%nat in IN by lia. rewrite skipn_all2 in IN by (rewrite firstn_length; lia). destruct IN.
  - cbn [firstn]. intros x [<- |IN]; [lia|]. apply H. apply (firstn_incl _ (Nat.min k 9)); [lia|exact IN].
Qed.
Lemma held_clear s log asked now asked' now' e on lk lkb mo :
  asked' <= ev_time e -> 0 <= ev_time e -> now' = ev_time e ->
  held s log asked now ->
  held (Saber (set_nth (shift_down (effects_ s) (Nat.min 0 (NELEM - 1))) 0 (show e)) 1 on lk lkb mo) [e] asked' now'.
Proof.
  intros A1 T1 -> (A & _). unfold held. cbn [effects_ num_effects_].
  split; [rewrite set_nth_length, shift_down_length; exact A|]. cbn [length]. split; [lia|]. split; [lia|].
  split. { change (Nat.min 0 (NELEM - 1)) with 0%nat. rewrite pushed by (rewrite A; unfold NELEM; lia). reflexivity. }
  split. { apply (sorted_cons (ev_time e)); [lia|reflexivity|]. split; [intros ? []|]. intros i j d L. cbn in L. lia. }
  split. { intros e' [<- |[]]. lia. }
  cbn. split; constructor; [lia|constructor].
Qed.

Lemma note_effect_stored k t log ty l len wav :
  note k t log (NEffect ty l len wav) =
  match stored_type ty k with
  | Some ty' => Event t ty' l len wav :: match ty with ENewFont => [] | _ => log end
  | None => log
  end.
Proof. destruct ty; destruct k; reflexivity. Qed.
Lemma push_held s log asked now t ty l len wav :
  asked <= t -> now <= t -> 0 <= t -> held s log asked now ->
  held (push_effect s (t mod 2 ^ 32) ty l len wav) (note (lockup_ s) t log (NEffect ty l len wav)) asked t /\
  lockup_ (push_effect s (t mod 2 ^ 32) ty l len wav) = lockup_ s.
Proof.
  intros A N T H. rewrite note_effect_stored. unfold push_effect. destruct (stored_type ty (lockup_ s)) as [ty'|]; [|split; [apply (held_later _ _ _ now); auto|reflexivity]].
  split; [|reflexivity]. set (e := Event t ty' l len wav). change (Effect ty' (t mod 2 ^ 32) l len wav) with (show e).
  assert (P : held (Saber (set_nth (shift_down (effects_ s) (Nat.min (num_effects_ s) (NELEM - 1))) 0 (show e)) (Nat.min (num_effects_ s + 1) NELEM) (on_ s) (lockup_ s) (lockup_blades_ s) (last_motion_ s)) (e :: log) asked t).
  { apply (held_push s log asked now e); auto. }
  destruct ty; try exact P. apply (held_clear s log asked now); auto.
Qed.
Lemma held_ext s s' log asked now : effects_ s' = effects_ s -> num_effects_ s' = num_effects_ s -> held s log asked now -> held s' log asked now.
Proof. intros E N. unfold held. rewrite E, N. auto. Qed.

Lemma expire_spec arr log t k : (k <= length log)%nat -> (k <= length arr)%nat ->
  firstn k arr = map show (firstn k log) ->
  (forall i j d, (i <= j < length log)%nat -> ev_time (nth j log d) <= ev_time (nth i log d)) ->
  (forall e, In e (firstn k log) -> 0 <= t - ev_time e < 2 ^ 32) ->
  let n := expire arr (t mod 2 ^ 32) k in
  (n <= k)%nat /\ firstn n log = filter (fun e => t - ev_time e <=? 7000000) (firstn k log) /\
  Forall (fun e => t - ev_time e > 7000000) (skipn n (firstn k log)).
Proof.
  induction k as [|k IH]; intros L1 L2 E SO R n; [cbn; auto|]. unfold n. cbn [expire].
  set (d := Event 0 (EOther 0) (Loc 0 0) 0 0).
  assert (X : nth k arr dummy = show (nth k log d)).
  { rewrite (firstn_S_nth dummy) in E by lia. rewrite (firstn_S_nth d) in E by lia. rewrite map_app in E. apply app_inj_tail in E. apply E. }
  assert (E' : firstn k arr = map show (firstn k log)).
  { rewrite <- firstn_map in E |- *. apply (firstn_le_eq _ _ k (S k)); [lia|exact E]. }
  assert (IN : In (nth k log d) (firstn (S k) log)) by (rewrite (firstn_S_nth d) by lia; apply in_or_app; right; left; reflexivity).
  pose proof (R _ IN) as RR. rewrite X. cbn [show start_micros].
  replace ((t mod 2 ^ 32 - ev_time (nth k log d) mod 2 ^ 32) mod 2 ^ 32) with (t - ev_time (nth k log d))
    by (rewrite <- Zminus_mod, Z.mod_small by lia; reflexivity).
  destruct (Z.gtb_spec (t - ev_time (nth k log d)) 7000000) as [G|G].
  - destruct IH as (I1 & I2 & I3); [lia|lia|exact E'|exact SO| |].
    { intros e Ie. apply R. apply (firstn_incl _ k); [lia|exact Ie]. }
    split; [lia|]. rewrite I2. rewrite (firstn_S_nth d log) by lia. rewrite filter_app. cbn [filter].
    replace (t - ev_time (nth k log d) <=? 7000000) with false by lia. rewrite app_nil_r. split; [reflexivity|].
    rewrite skipn_app, Forall_app. split; [exact I3|].
    rewrite firstn_length. replace (expire arr (t mod 2 ^ 32) k - Nat.min k (length log))%nat with 0%nat by lia. constructor; [lia|constructor].
  - split; [lia|]. split; [|rewrite skipn_all2 by (rewrite firstn_length; lia); constructor].
    assert (Y : Forall (fun e => (t - ev_time e <=? 7000000) = true) (firstn (S k) log)).
    { rewrite Forall_forall. intros e Ie. apply (In_nth _ _ d) in Ie as (i & Li & <-). rewrite firstn_length in Li.
      assert (Q : nth i (firstn (S k) log) d = nth i log d).
      { rewrite <- (firstn_skipn (S k) log) at 2. rewrite app_nth1; [reflexivity|rewrite firstn_length; lia]. }
      rewrite Q. assert (i <= k < length log)%nat by lia. specialize (SO i k d H). lia. }
    clear -Y. induction Y as [|x l P _ IH]; [reflexivity|]. cbn [filter]. rewrite P. f_equal. exact IH.
Qed.
Lemma recent_held s log asked now t :
  held s log asked now -> now <= t -> asked <= t -> t - asked < 2 ^ 32 - 7000000 ->
  let '(s', l) := get_effects s (t mod 2 ^ 32) in
  l = map show (recent t log) /\ held s' log t t /\ lockup_ s' = lockup_ s.
Proof.
  intros (A & B & C & D & E & F & G & H) N1 N2 N3. unfold get_effects.
  destruct (expire_spec (effects_ s) log t (num_effects_ s)) as (I1 & I2 & I3); [exact B|rewrite A; exact C|exact D|apply E| |].
  { intros e IN. rewrite Forall_forall in H. specialize (H e IN). destruct E as (E1 & _).
    assert (IN' : In e log) by (rewrite <- (firstn_skipn (num_effects_ s) log); apply in_or_app; auto). specialize (E1 e IN'). lia. }
  set (n := expire (effects_ s) (t mod 2 ^ 32) (num_effects_ s)) in *.
  assert (T10 : firstn 10 log = firstn (num_effects_ s) log ++ skipn (num_effects_ s) (firstn 10 log)).
  { rewrite <- (firstn_skipn (num_effects_ s) (firstn 10 log)) at 1. rewrite firstn_firstn. f_equal. f_equal. lia. }
  assert (R : recent t log = firstn n log).
  { unfold recent. rewrite T10, filter_app, <- I2. 
    assert (Z0 : filter (fun e => t - ev_time e <=? 7000000) (skipn (num_effects_ s) (firstn 10 log)) = []).
    { clear -G N2. induction G as [|x l P _ IH]; [reflexivity|]. cbn [filter]. replace (t - ev_time x <=? 7000000) with false by lia. exact IH. }
    rewrite Z0. apply app_nil_r. }
  assert (DN : firstn n (effects_ s) = map show (firstn n log)).
  { rewrite <- firstn_map in *. apply (firstn_le_eq _ _ n (num_effects_ s)); [lia|exact D]. }
  split; [rewrite R; exact DN|]. split; [|reflexivity]. unfold held. cbn [effects_ num_effects_].
  split; [exact A|]. split; [lia|]. split; [lia|]. split; [exact DN|].
  split. { destruct E as (E1 & E2). split; [|exact E2]. intros e IN. specialize (E1 e IN). lia. }
  split; [exact F|]. split.
  - rewrite T10, skipn_app, Forall_app. split; [exact I3|]. rewrite firstn_length.
    replace (n - Nat.min (num_effects_ s) (length log))%nat with 0%nat by lia. cbn [skipn]. rewrite Forall_forall in *. intros e IN. specialize (G e IN). lia.
  - rewrite I2. rewrite Forall_forall. intros e IN. apply filter_In in IN as (_ & IN). lia.
Qed.

Section Runs.
  Variable w : Z. Variable want : effect_type. Variable stab : bool. Variable blade : Z. Hypothesis B0 : 0 <= blade.
  Notation serve := (serve w want stab blade).
  Definition m_of (e : event) : bool :=
    Z.testbit (blades (ev_loc e)) blade && (effect_type_eqb want (ev_type e) || (stab && effect_type_eqb (ev_type e) EStab)).
  Lemma find_show l : find_effect want stab blade (map show l) = option_map show (find m_of l).
  Proof.
    unfold find_effect. induction l as [|e l IH]; [reflexivity|]. cbn [map find]. cbn [show loc type]. rewrite bs_has_testbit by exact B0.
    unfold m_of at 1. destruct (_ && _); [reflexivity|exact IH].
  Qed.
  Definition detect_step (log : list event) (last t : Z) (last1 : Z) (ns : list notice) : Prop :=
    match find m_of (recent t log) with
    | None => last1 = last /\ ns = [NDetected None]
    | Some e => if ev_time e mod 2 ^ 32 =? last then last1 = last /\ ns = [NDetected None]
                else last1 = ev_time e mod 2 ^ 32 /\ ns = [NDetected (Some (show e))]
    end.
  Lemma serve_held s last log asked now t q s1 last1 ns :
    held s log asked now -> now <= t -> asked <= t -> 0 <= t ->
    (asks q = true -> t - asked < 2 ^ 32 - 7000000) ->
    serve (s, last) (t, q) = ((s1, last1), ns) ->
    held s1 (fold_left (note (lockup_ s) t) ns log) (if asks q then t else asked) t /\
    lockup_ s1 = new_lockup (lockup_ s) q /\
    (q = GetEffects -> ns = [NEffects (map show (recent t log))]) /\
    (q = Detect -> detect_step log last t last1 ns) /\ (q <> Detect -> last1 = last).
  Proof.
    intros H N A T Q E. unfold EffectModel.serve in E.
    assert (PUSH : forall s' ty l len wav, effects_ s' = effects_ s -> num_effects_ s' = num_effects_ s -> lockup_ s' = lockup_ s ->
      held (push_effect s' (t mod 2 ^ 32) ty l len wav) (note (lockup_ s) t log (NEffect ty l len wav)) asked t /\
      lockup_ (push_effect s' (t mod 2 ^ 32) ty l len wav) = lockup_ s).
    { intros s' ty l len wav E1 E2 E3. rewrite <- E3. apply (push_held s' log asked now); auto. apply (held_ext s); auto. }
    assert (LATER : forall s', effects_ s' = effects_ s -> num_effects_ s' = num_effects_ s -> held s' log asked t).
    { intros s' E1 E2. apply (held_ext s); auto. apply (held_later _ _ _ now); auto. }
    assert (OFF : forall s' o l len wav, effects_ s' = effects_ s -> num_effects_ s' = num_effects_ s -> lockup_ s' = lockup_ s ->
      held (fst (do_off s' (t mod 2 ^ 32) o l len wav)) (fold_left (note (lockup_ s) t) (snd (do_off s' (t mod 2 ^ 32) o l len wav)) log) asked t /\
      lockup_ (fst (do_off s' (t mod 2 ^ 32) o l len wav)) = lockup_ s).
    { intros s' o l len wav E1 E2 E3. destruct o; cbn [do_off do_effect fst snd fold_left note]; (apply PUSH; assumption) || (split; [apply LATER; assumption|exact E3]). }
    destruct q as [ty l len wav|k bs|len wav|l len wav|o len wav|o l len wav| | |]; cbn [asks new_lockup] in *.
    - unfold do_effect in E. inversion E; subst. cbn [fold_left]. destruct (PUSH s ty l len wav) as (P1 & P2); auto.
      split; [exact P1|]. split; [exact P2|]. split; [discriminate|]. split; [discriminate|reflexivity].
    - inversion E; subst. cbn [fold_left]. split; [apply LATER; reflexivity|]. split; [reflexivity|]. split; [discriminate|]. split; [discriminate|reflexivity].
    - unfold do_on, do_effect in E. inversion E; subst. cbn [fold_left]. 
      destruct (PUSH (set_on s (bs_all w)) EIgnition (Loc 0 (bs_all w)) len wav) as (P1 & P2); auto.
      split; [exact P1|]. split; [exact P2|]. split; [discriminate|]. split; [discriminate|reflexivity].
    - destruct (bs_off _).
      + inversion E; subst. cbn [fold_left]. split; [apply LATER; reflexivity|]. split; [reflexivity|]. split; [discriminate|]. split; [discriminate|reflexivity].
      + unfold do_on, do_effect in E. inversion E; subst. cbn [fold_left].
        match goal with |- held (push_effect ?s' _ ?ty ?l' _ _) _ _ _ /\ _ => destruct (PUSH s' ty l' len wav) as (P1 & P2); auto end.
        split; [exact P1|]. split; [exact P2|]. split; [discriminate|]. split; [discriminate|reflexivity].
    - destruct (OFF (set_motion (set_on s bs_empty) (millis t)) o (Loc 0 (bs_all w)) len wav) as (P1 & P2); auto.
      destruct (do_off _ _ _ _ _ _) as (s2, n2). cbn [fst snd] in *. inversion E; subst.
      split; [exact P1|]. split; [exact P2|]. split; [discriminate|]. split; [discriminate|reflexivity].
    - destruct (bs_off _).
      + inversion E; subst. cbn [fold_left]. split; [apply LATER; reflexivity|]. split; [reflexivity|]. split; [discriminate|]. split; [discriminate|reflexivity].
      + set (s' := set_motion _ _) in E. set (l' := Loc _ _) in E. destruct (OFF s' o l' len wav) as (P1 & P2); auto.
        destruct (do_off _ _ _ _ _ _) as (s2, n2). cbn [fst snd] in *. inversion E; subst.
        split; [exact P1|]. split; [exact P2|]. split; [discriminate|]. split; [discriminate|reflexivity].
    - inversion E; subst. cbn [fold_left]. split; [apply LATER; reflexivity|]. split; [reflexivity|]. split; [discriminate|]. split; [discriminate|reflexivity].
    - pose proof (recent_held s log asked now t H N A (Q eq_refl)) as R. destruct (get_effects s (t mod 2 ^ 32)) as (s2, l2). destruct R as (R1 & R2 & R3).
      inversion E; subst. cbn [fold_left note]. split; [exact R2|]. split; [exact R3|]. split; [reflexivity|]. split; [discriminate|reflexivity].
    - pose proof (recent_held s log asked now t H N A (Q eq_refl)) as R. unfold detect in E. destruct (get_effects s (t mod 2 ^ 32)) as (s2, l2). destruct R as (R1 & R2 & R3).
      rewrite R1, find_show in E. unfold detect_step. destruct (find m_of (recent t log)) as [e|]; cbn [option_map] in E.
      + cbn [show start_micros] in E. destruct (ev_time e mod 2 ^ 32 =? last); inversion E; subst; cbn [fold_left note];
        (split; [exact R2|]; split; [exact R3|]; split; [discriminate|]; split; [auto|congruence]).
      + inversion E; subst; cbn [fold_left note]. split; [exact R2|]. split; [exact R3|]. split; [discriminate|]. split; [auto|congruence].
  Qed.
  Lemma remembered_all reqs : forall s last log asked now, held s log asked now -> asked <= now -> 0 <= now -> clock_ok now reqs -> asked_often asked reqs ->
    remembered_ok (lockup_ s) log reqs (run_outs serve (s, last) reqs).
  Proof.
    induction reqs as [|(t, q) reqs IH]; intros s last log asked now H A T C O; [exact I|].
    cbn [clock_ok asked_often] in C, O. destruct C as (C1 & C2). destruct O as (O1 & O2).
    cbn [run_outs]. destruct (serve (s, last) (t, q)) as ((s1, last1), ns) eqn:E. cbn [remembered_ok].
    destruct (serve_held s last log asked now t q s1 last1 ns H) as (R1 & R2 & R3 & R4 & R5); try assumption; try lia.
    split; [exact R3|]. rewrite <- R2. apply (IH _ _ _ _ t R1); try assumption; destruct (asks q); lia.
  Qed.

  (** Detection: [last] is the stamp of the event seen last. *)
  Definition stamp (e : event) : Z := ev_time e mod 2 ^ 32.
  Lemma note_nil k t log n : note k t log n = note k t [] n ++ match n with NEffect ENewFont _ _ _ => [] | _ => log end.
  Proof. destruct n as [| |ty l len wav| |]; try reflexivity. destruct ty; destruct k; reflexivity. Qed.
  Lemma note_in k t n log e : In e (note k t log n) -> In e (note k t [] n) \/ In e log.
  Proof. rewrite note_nil. intros IN. apply in_app_or in IN as [IN|IN]; [auto|]. right. destruct n as [| |ty l len wav| |]; auto. destruct ty; auto; destruct IN. Qed.
  Lemma notes_in k t ns : forall log e, In e (fold_left (note k t) ns log) -> In e (concat (map (fun n => note k t [] n) ns)) \/ In e log.
  Proof.
    induction ns as [|n ns IH]; intros log e IN; [auto|]. cbn [fold_left] in IN. apply IH in IN as [IN|IN]; cbn [map concat].
    - left. apply in_or_app. auto.
    - apply note_in in IN as [IN|IN]; [left; apply in_or_app; auto|auto].
  Qed.
  Lemma find_in {A} (f : A -> bool) l x : find f l = Some x -> In x l /\ f x = true.
  Proof. apply find_some. Qed.
  Lemma detected_all reqs : forall s last log asked now seen past,
    held s log asked now -> asked <= now -> 0 <= now -> clock_ok now reqs -> asked_often asked reqs ->
    (forall e, In e log -> m_of e = true -> In e past) ->
    NoDup (map stamp (past ++ all_events m_of (lockup_ s) reqs (run_outs serve (s, last) reqs))) ->
    match seen with
    | Some t => exists e, In e past /\ ev_time e = t /\ last = stamp e
    | None => ~ In last (map stamp (past ++ all_events m_of (lockup_ s) reqs (run_outs serve (s, last) reqs)))
    end ->
    detected_ok m_of (lockup_ s) log seen reqs (run_outs serve (s, last) reqs).
  Proof.
    induction reqs as [|(t, q) reqs IH]; intros s last log asked now seen past H A T C O P ND SE; [exact I|].
    cbn [clock_ok asked_often] in C, O. destruct C as (C1 & C2). destruct O as (O1 & O2).
    cbn [run_outs] in *. destruct (serve (s, last) (t, q)) as ((s1, last1), ns) eqn:E. cbn [detected_ok all_events] in *.
    destruct (serve_held s last log asked now t q s1 last1 ns H) as (R1 & R2 & R3 & R4 & R5); try assumption; try lia.
    rewrite <- R2 in ND, SE.
    set (now_events := filter m_of (concat (map (fun n => note (lockup_ s) t [] n) ns))) in *.
    rewrite app_assoc in ND, SE.
    assert (NEXT : forall seen1, match seen1 with
       | Some t => exists e, In e (past ++ now_events) /\ ev_time e = t /\ last1 = stamp e
       | None => ~ In last1 (map stamp ((past ++ now_events) ++ all_events m_of (lockup_ s1) reqs (run_outs serve (s1, last1) reqs))) end ->
       detected_ok m_of (lockup_ s1) (fold_left (note (lockup_ s) t) ns log) seen1 reqs (run_outs serve (s1, last1) reqs)).
    { intros seen1 S1. eapply (IH s1 last1 _ _ t seen1 (past ++ now_events) R1); try assumption; try (destruct (asks q); lia).
      intros e IN M. apply in_or_app. apply notes_in in IN as [IN|IN]; [right; apply filter_In; auto|left; apply P; assumption]. }
    destruct q; try (assert (EL : last1 = last) by (apply R5; discriminate); subst last1; rewrite <- R2; apply NEXT; destruct seen as [t'|];
      [destruct SE as (e & S1 & S2 & S3); exists e; split; [apply in_or_app; auto|auto]|exact SE]).
    specialize (R4 eq_refl). unfold detect_step in R4. unfold newest. cbn [new_lockup] in R2.
    destruct (find m_of (recent t log)) as [e|] eqn:FE.
    - apply find_in in FE as (IN & M). assert (INP : In e past).
      { apply P; [|exact M]. unfold recent in IN. apply filter_In in IN as (IN & _). rewrite <- (firstn_skipn 10 log). apply in_or_app. auto. }
      destruct seen as [t'|].
      + destruct SE as (e' & S1 & S2 & S3). subst t' last. destruct (Z.eqb_spec (ev_time e') (ev_time e)) as [EQ|NE].
        * replace (ev_time e mod 2 ^ 32 =? stamp e') with true in R4 by (unfold stamp; rewrite EQ; lia). destruct R4 as (-> & ->). split; [reflexivity|].
          rewrite <- R2. apply (NEXT (Some (ev_time e'))). exists e'. split; [apply in_or_app; auto|auto].
        * assert (NS : stamp e' <> stamp e).
          { intros EQ. rewrite <- !app_assoc in ND. rewrite map_app in ND.
            assert (NDP : NoDup (map stamp past)) by (clear -ND; induction past; cbn in *; [constructor|]; inversion ND; subst; constructor; [intros X; apply H1, in_or_app; auto|auto]).
            clear -NDP S1 INP EQ NE. induction past as [|x past IHp]; [destruct S1|]. cbn [map] in NDP. inversion NDP; subst.
            destruct S1 as [S1|S1], INP as [INP|INP].
            - congruence.
            - subst x. apply H1. rewrite EQ. apply in_map. exact INP.
            - subst x. apply H1. rewrite <- EQ. apply in_map. exact S1.
            - apply IHp; assumption. }
          replace (ev_time e mod 2 ^ 32 =? stamp e') with false in R4 by (unfold stamp in *; lia). destruct R4 as (-> & ->). split; [reflexivity|].
          rewrite <- R2. apply (NEXT (Some (ev_time e))). exists e. split; [apply in_or_app; auto|auto].
      + assert (NS : stamp e <> last).
        { intros EQ. apply SE. rewrite <- app_assoc, map_app. apply in_or_app. left. rewrite <- EQ. apply in_map. exact INP. }
        replace (ev_time e mod 2 ^ 32 =? last) with false in R4 by (unfold stamp in *; lia). destruct R4 as (-> & ->). split; [reflexivity|].
        rewrite <- R2. apply (NEXT (Some (ev_time e))). exists e. split; [apply in_or_app; auto|auto].
    - destruct R4 as (-> & ->). split; [reflexivity|]. rewrite <- R2. apply NEXT. destruct seen as [t'|].
      + destruct SE as (e' & S1 & S2 & S3). exists e'. split; [apply in_or_app; auto|auto].
      + exact SE.
  Qed.
End Runs.
Lemma push_motion s now t l len wav : last_motion_ (push_effect s now t l len wav) = last_motion_ s.
Proof. unfold push_effect. destruct (stored_type t (lockup_ s)); reflexivity. Qed.
Lemma touch_all w want stab blade reqs : forall s last t0, last_motion_ s = millis t0 ->
  last_motion_ (fst (run_state (serve w want stab blade) (s, last) reqs)) =
  millis (last_touch t0 reqs (run_outs (serve w want stab blade) (s, last) reqs)).
Proof.
  induction reqs as [|(t, q) reqs IH]; intros s last t0 H; [exact H|].
  cbn [run_outs run_state]. destruct (serve w want stab blade (s, last) (t, q)) as ((s1, l1), ns) eqn:E. cbn [fst last_touch].
  apply IH. unfold serve in E. destruct q as [ty l len wav|k bs|len wav|l len wav|o len wav|o l len wav| | |].
  - unfold do_effect in E. inversion E; subst. rewrite push_motion. exact H.
  - inversion E; subst. exact H.
  - unfold do_on, do_effect in E. inversion E; subst. rewrite push_motion. exact H.
  - destruct (bs_off _); [inversion E; subst; exact H|]. unfold do_on, do_effect in E. inversion E; subst. rewrite push_motion. exact H.
  - destruct o; cbn [do_off do_effect] in E; inversion E; subst; rewrite ?push_motion; reflexivity.
  - destruct (bs_off _); [inversion E; subst; exact H|]. destruct o; cbn [do_off do_effect] in E; inversion E; subst; rewrite ?push_motion; reflexivity.
  - inversion E; subst. reflexivity.
  - unfold get_effects in E. inversion E; subst. exact H.
  - unfold detect, get_effects in E. destruct (find_effect _ _ _ _) as [e|]; [destruct (start_micros e =? last)|]; inversion E; subst; exact H.
Qed.

Lemma push_effect_lockup s now t l len wav b : lockup_for_blade (push_effect s now t l len wav) b = lockup_for_blade s b.
Proof. unfold push_effect, lockup_for_blade. destruct (stored_type t (lockup_ s)); reflexivity. Qed.
Lemma serve_lockup w want stab blade s last t q b : (forall k bs, q <> SetLockup k bs) -> lockup_for_blade (fst (fst (serve w want stab blade (s, last) (t, q)))) b = lockup_for_blade s b.
Proof.
  intros N. destruct q as [ty l len wav|k bs|len wav|l len wav|o len wav|o l len wav| | |]; cbn [serve].
  - apply push_effect_lockup.
  - exfalso. exact (N k bs eq_refl).
  - exact (push_effect_lockup (set_on s (bs_all w)) _ _ _ _ _ b).
  - destruct (bs_off _); [reflexivity|]. exact (push_effect_lockup (set_on s _) _ _ _ _ _ b).
  - destruct o; try reflexivity; exact (push_effect_lockup (set_motion (set_on s _) _) _ _ _ _ _ b).
  - destruct (bs_off _); [reflexivity|]. destruct o; try reflexivity; exact (push_effect_lockup (set_motion (set_on s _) _) _ _ _ _ _ b).
  - reflexivity.
  - reflexivity.
  - unfold detect, get_effects. cbn. destruct (find_effect _ _ _ _) as [e|]; [destruct (start_micros e =? last)|]; reflexivity.
Qed.
Lemma lockup_all w want stab blade b reqs : forall s last lk, 0 <= b -> lockup_for_blade s b = lk b ->
  lockup_for_blade (fst (run_state (serve w want stab blade) (s, last) reqs)) b = lockup_after lk reqs b.
Proof.
  induction reqs as [|(t, q) reqs IH]; intros s last lk B H; [exact H|]. cbn [run_state]. destruct (serve w want stab blade (s, last) (t, q)) as ((s', last'), ns) eqn:E. cbn [fst].
  assert (K : lockup_for_blade s' b = match q with SetLockup k bs => if Z.testbit bs b then k else LNone | _ => lk b end).
  { destruct q as [| k bs | | | | | | |]; try (pose proof (serve_lockup w want stab blade s last t) as Q; match type of E with serve _ _ _ _ _ (_, ?q) = _ => specialize (Q q b ltac:(discriminate)) end; rewrite E in Q; cbn [fst] in Q; congruence).
    cbn [serve] in E. injection E as <- _ _. unfold lockup_for_blade. cbn [lockup_blades_ lockup_]. rewrite bs_has_testbit by exact B. reflexivity. }
  cbn [lockup_after]. destruct q; apply IH; auto.
Qed.
