(** Lemmas for IdentProps.v. *)
From Coq Require Import ZArith QArith Qabs Qround List Bool Arith Lia Lqa ZifyBool ZifyNat.
From Verif Require Import Machine ArithModel IdentModel IdentSpec.
Import ListNotations.
Open Scope Z_scope.

Lemma best_of_spec ohms : forall i r bc be,
  (best_of ohms i r bc be = bc /\ forall o, In o ohms -> (be <= off r o)%Q) \/
  (exists k o, nth_error ohms k = Some o /\ best_of ohms i r bc be = (i + k)%nat /\ (off r o < be)%Q /\
    forall j o', nth_error ohms j = Some o' -> (off r o <= off r o')%Q /\ ((j < k)%nat -> (off r o < off r o')%Q)).
Proof.
  induction ohms as [|a ohms IH]; intros i r bc be; [left; cbn; split; [reflexivity|intros o []]|].
  cbn [best_of]. change (Qabs (r - inject_Z a)) with (off r a). destruct (Qle_bool be (off r a)) eqn:E; cbn [negb].
  - apply Qle_bool_iff in E. destruct (IH (S i) r bc be) as [[A B]|(k & o & A & B & C & D)].
    + left. split; [exact A|]. intros o [<-|I]; auto.
    + right. exists (S k), o. split; [exact A|]. split; [rewrite B; lia|]. split; [exact C|]. intros [|j] o' H; cbn in H.
      * injection H as <-. split; intros; lra.
      * destruct (D j o' H) as [D1 D2]. split; [exact D1|]. intros L. apply D2. lia.
  - assert (E' : (off r a < be)%Q). { destruct (Qlt_le_dec (off r a) be) as [X|X]; [exact X|]. apply Qle_bool_iff in X. congruence. }
    right. destruct (IH (S i) r i (off r a)) as [[A B]|(k & o & A & B & C & D)].
    + exists 0%nat, a. split; [reflexivity|]. split; [rewrite A; lia|]. split; [exact E'|]. intros [|j] o' H; cbn in H.
      * injection H as <-. split; [lra|lia].
      * split; [|lia]. apply B. eapply nth_error_In; eauto.
    + exists (S k), o. split; [exact A|]. split; [rewrite B; lia|]. split; [lra|]. intros [|j] o' H; cbn in H.
      * injection H as <-. split; intros; lra.
      * destruct (D j o' H) as [D1 D2]. split; [exact D1|]. intros L. apply D2. lia.
Qed.
Lemma ohm_at_map cs i o : ohm_at cs i o <-> nth_error (map ohm cs) i = Some o.
Proof.
  unfold ohm_at. rewrite nth_error_map. destruct (nth_error cs i) as [c|]; cbn; split.
  - intros (c' & X & Y). injection X as <-. congruence.
  - intros X. injection X as <-. eauto.
  - intros (c' & X & _). discriminate.
  - discriminate.
Qed.
Lemma find_nearest cs r i o : ohm_at cs i o -> (off r o < inject_Z 100000000)%Q -> nearest cs r (FindBestConfig cs r).
Proof.
  intros H L. unfold FindBestConfig. destruct (1 <? length cs)%nat eqn:E.
  - destruct (best_of_spec (map ohm cs) 0 r 0 (inject_Z 100000000)) as [[A B]|(k & o1 & A & B & C & D)].
    + exfalso. apply ohm_at_map in H. apply nth_error_In in H. specialize (B o H). lra.
    + rewrite B. cbn [Nat.add]. exists o1. split; [apply ohm_at_map; exact A|]. intros j o' X. apply ohm_at_map in X. apply D, X.
  - destruct cs as [|c [|c2 cs]]; cbn in E; try discriminate.
    + destruct H as (c & H & _). destruct i; discriminate.
    + exists (ohm c). split; [exists c; split; reflexivity|]. intros j o' (c' & X & Y). destruct j as [|j]; [|destruct j; discriminate]. cbn in X. injection X as <-. subst o'.
      split; [lra|lia].
Qed.
Lemma find_far cs r : (forall i o, ohm_at cs i o -> (inject_Z 100000000 <= off r o)%Q) -> FindBestConfig cs r = 0%nat.
Proof.
  intros H. unfold FindBestConfig. destruct (1 <? length cs)%nat; [|reflexivity].
  destruct (best_of_spec (map ohm cs) 0 r 0 (inject_Z 100000000)) as [[A B]|(k & o1 & A & B & C & D)]; [exact A|].
  apply ohm_at_map in A. specialize (H k o1 A). lra.
Qed.
Lemma nearest_unique cs r i j : nearest cs r i -> nearest cs r j -> i = j.
Proof.
  intros (o & A & B) (o' & C & D). destruct (B j o' C) as [B1 B2]. destruct (D i o A) as [D1 D2].
  destruct (lt_eq_lt_dec i j) as [[L|L]|L]; [|exact L|]; exfalso; [specialize (D2 L)|specialize (B2 L)]; lra.
Qed.
Lemma near_only cs r i o : ohm_at cs i o -> (forall j o', ohm_at cs j o' -> j <> i -> (off r o < off r o')%Q) -> nearest cs r i.
Proof.
  intros H D. exists o. split; [exact H|]. intros j o' X. destruct (Nat.eq_dec j i) as [->|N].
  - destruct H as (c & H1 & H2). destruct X as (c' & X1 & X2). assert (H : o' = o) by congruence. rewrite H. split; [apply Qle_refl|intros; exfalso; lia].
  - specialize (D j o' X N). split; [lra|]. intros _. exact D.
Qed.
Lemma off_eq r o : (off r o == if Qlt_le_dec r (inject_Z o) then inject_Z o - r else r - inject_Z o)%Q.
Proof. unfold off. destruct (Qlt_le_dec r (inject_Z o)) as [L|L]; [rewrite Qabs_neg by lra; ring|rewrite Qabs_pos by lra; reflexivity]. Qed.
Lemma off_lt r o x : (off r o < x)%Q <-> (r - inject_Z o < x)%Q /\ (inject_Z o - r < x)%Q.
Proof. rewrite off_eq. destruct (Qlt_le_dec r (inject_Z o)); split; intros; lra. Qed.
Lemma off_ge r o x : (x <= r - inject_Z o)%Q \/ (x <= inject_Z o - r)%Q -> (x <= off r o)%Q.
Proof. rewrite off_eq. destruct (Qlt_le_dec r (inject_Z o)); intros [H|H]; lra. Qed.
Lemma tolerance cs r i o e : ohm_at cs i o -> (off r o < e)%Q -> (forall j o', ohm_at cs j o' -> j <> i -> (2 * e <= inject_Z (Z.abs (o - o')))%Q) -> nearest cs r i.
Proof.
  intros H L D. apply near_only with o; auto. intros j o' X N. specialize (D j o' X N). apply off_lt in L as [L1 L2].
  rewrite !off_eq. destruct (Z_lt_le_dec o o') as [Z|Z].
  - rewrite Z.abs_neq in D by lia. unfold Z.sub in D. rewrite !inject_Z_opp, inject_Z_plus, inject_Z_opp in D.
    destruct (Qlt_le_dec r (inject_Z o)); destruct (Qlt_le_dec r (inject_Z o')); lra.
  - rewrite Z.abs_eq in D by lia. unfold Z.sub in D. rewrite inject_Z_plus, inject_Z_opp in D.
    destruct (Qlt_le_dec r (inject_Z o)); destruct (Qlt_le_dec r (inject_Z o')); lra.
Qed.
Definition small (r : Q) : Prop := (0 <= r <= inject_Z 40000000)%Q.
Lemma inj_small o : plausible o -> (0 <= inject_Z o <= inject_Z 40000000)%Q.
Proof. intros [A B]. split; [change 0%Q with (inject_Z 0)|]; rewrite <- Zle_Qle; assumption. Qed.
Lemma inj_minus a b : (inject_Z (a - b) == inject_Z a - inject_Z b)%Q.
Proof. unfold Z.sub. rewrite inject_Z_plus, inject_Z_opp. reflexivity. Qed.
Ltac consts := change (inject_Z 40000000) with (40000000 # 1)%Q in *; change (inject_Z 1000000000) with (1000000000 # 1)%Q in *;
  change (inject_Z 100000000) with (100000000 # 1)%Q in *.
Lemma kinds cs (r : Q) (up : bool) : small r -> (forall i o, ohm_at cs i o -> blade_kind o \/ empty_kind o) ->
  let m := (if up then r + inject_Z 1000000000 else r)%Q in
  let good o := if up then empty_kind o else blade_kind o in
  (exists i o, ohm_at cs i o /\ good o) -> exists o, ohm_at cs (FindBestConfig cs m) o /\ good o.
Proof.
  intros [S1 S2] K m good (i & o & H & G).
  assert (L : (off m o < inject_Z 100000000)%Q).
  { apply off_lt. unfold m, good in *. destruct up; apply inj_small in G; rewrite ?inj_minus in G; consts; split; lra. }
  destruct (find_nearest cs m i o H L) as (o1 & A & B). exists o1. split; [exact A|]. destruct (B i o H) as [B1 _].
  assert (L1 : (off m o1 < inject_Z 100000000)%Q) by lra. apply off_lt in L1 as [L1 L2]. destruct (K _ _ A) as [X|X]; unfold m, good in *; destruct up; auto; exfalso;
  apply inj_small in X; rewrite ?inj_minus in X; consts; lra.
Qed.
Lemma not_both o : blade_kind o -> empty_kind o -> False.
Proof. unfold blade_kind, empty_kind, plausible. lia. Qed.
Lemma no_empty cs (r : Q) : small r -> (forall i o, ohm_at cs i o -> blade_kind o) -> FindBestConfig cs (r + inject_Z 1000000000) = 0%nat.
Proof.
  intros [S1 S2] K. apply find_far. intros i o H. apply off_ge. left. apply K, inj_small in H. consts. lra.
Qed.

(** The voltage divider *)
Lemma pullup_eq p x : (0 < p)%Q -> 0 <= x < 1024 -> (ExternalPullupBladeID p x == inject_Z x * p / inject_Z (1024 - x))%Q.
Proof.
  intros P X. unfold ExternalPullupBladeID. rewrite inj_minus. assert (Y : (0 < inject_Z 1024 - inject_Z x)%Q). { rewrite <- inj_minus. change 0%Q with (inject_Z 0). rewrite <- Zlt_Qlt. lia. }
  change (inject_Z 1024) with (1024 # 1)%Q in *. field. repeat split; try lra; intros H; lra.
Qed.
Lemma pullup_adc p r x : (0 < p)%Q -> (0 <= r)%Q -> 0 <= x < 1023 -> adc p r x -> (ExternalPullupBladeID p x <= r < ExternalPullupBladeID p (x + 1))%Q.
Proof.
  intros P R X [A B]. rewrite !pullup_eq by (auto; lia). replace (1024 - (x + 1)) with (1023 - x) by lia. split.
  - apply Qle_shift_div_r; [change 0%Q with (inject_Z 0); rewrite <- Zlt_Qlt; lia|]. rewrite inj_minus. lra.
  - apply Qlt_shift_div_l; [change 0%Q with (inject_Z 0); rewrite <- Zlt_Qlt; lia|]. rewrite inj_minus. rewrite inject_Z_plus in *. change (inject_Z 1024) with (inject_Z 1023 + 1)%Q in B. change (inject_Z 1) with 1%Q in *. lra.
Qed.
Lemma pullup_mono p x y : (0 < p)%Q -> 0 <= x -> x < y -> y < 1024 -> (ExternalPullupBladeID p x < ExternalPullupBladeID p y)%Q.
Proof.
  intros P X L Y. rewrite !pullup_eq by (auto; lia). assert (D : (0 < inject_Z (1024 - x))%Q) by (change 0%Q with (inject_Z 0); rewrite <- Zlt_Qlt; lia).
  assert (D2 : (0 < inject_Z (1024 - y))%Q) by (change 0%Q with (inject_Z 0); rewrite <- Zlt_Qlt; lia).
  assert (XY : (inject_Z x < inject_Z y)%Q) by (rewrite <- Zlt_Qlt; exact L). assert (X0 : (0 <= inject_Z x)%Q) by (change 0%Q with (inject_Z 0); rewrite <- Zle_Qle; exact X).
  apply Qlt_shift_div_r; [exact D|]. rewrite (inj_minus 1024 x) in *. rewrite (inj_minus 1024 y) in *. set (a := inject_Z x) in *. set (b := inject_Z y) in *.
  change (inject_Z 1024) with (1024 # 1)%Q in *.
  assert (E : (b * p / ((1024 # 1) - b) * ((1024 # 1) - a) == b * p + b * p * (b - a) / ((1024 # 1) - b))%Q) by (field; intros H; lra). rewrite E.
  assert (F : (0 <= b * p * (b - a) / ((1024 # 1) - b))%Q). { apply Qle_shift_div_l; [exact D2|]. assert (0 <= b * p)%Q by (apply Qmult_le_0_compat; lra). assert (0 <= b * p * (b - a))%Q by (apply Qmult_le_0_compat; lra). lra. }
  assert (G : (a * p < b * p)%Q) by (apply Qmult_lt_compat_r; auto). lra.
Qed.
(** Averages *)
Lemma sum_shift ids : forall a, (fold_left Qplus ids a == a + fold_left Qplus ids 0)%Q.
Proof. induction ids as [|x ids IH]; intros a; cbn; [ring|]. rewrite (IH (a + x)%Q), (IH (0 + x)%Q). ring. Qed.
Lemma average_between lo hi ids : ids <> [] -> (forall x, In x ids -> (lo <= x <= hi)%Q) -> (lo <= AverageBladeIDNTimes ids <= hi)%Q.
Proof.
  intros N H. unfold AverageBladeIDNTimes. assert (B : (inject_Z (Z.of_nat (length ids)) * lo <= fold_left Qplus ids 0 <= inject_Z (Z.of_nat (length ids)) * hi)%Q).
  { clear N. induction ids as [|x ids IH]; [cbn [fold_left length]; change (inject_Z (Z.of_nat 0)) with 0%Q; split; lra|]. cbn [fold_left length]. rewrite sum_shift. rewrite Nat2Z.inj_succ. unfold Z.succ. rewrite inject_Z_plus.
    destruct (H x (or_introl eq_refl)). destruct IH as [I1 I2]; [intros y Y; apply H; right; exact Y|]. change (inject_Z 1) with 1%Q. split; lra. }
  assert (P : (0 < inject_Z (Z.of_nat (length ids)))%Q). { change 0%Q with (inject_Z 0). rewrite <- Zlt_Qlt. destruct ids; [contradiction|cbn; lia]. }
  split; [apply Qle_shift_div_l; [exact P|lra]|apply Qle_shift_div_r; [exact P|lra]].
Qed.

(** Histories *)
Lemma put_spec f i x j : put f i x j = if (i =? j)%nat then x else f j. Proof. reflexivity. Qed.
Lemma activate_spec bs : forall a, ~ In None bs ->
  snd (activate bs a) = true /\ forall b, fst (activate bs a) b = true <-> In (Some b) bs \/ a b = true.
Proof.
  induction bs as [|[x|] bs IH]; intros a N; cbn [activate].
  - cbn. split; [reflexivity|]. intros b. intuition.
  - destruct (IH (put a x true)) as [A B]; [intros X; apply N; right; exact X|]. split; [exact A|]. intros b. rewrite B, put_spec. cbn.
    destruct (x =? b)%nat eqn:E.
    + apply Nat.eqb_eq in E. subst. intuition.
    + apply Nat.eqb_neq in E. intuition. congruence.
  - exfalso. apply N. left. reflexivity.
Qed.
Lemma deactivate_spec bs : forall a b, deactivate bs a b = true <-> ~ In (Some b) bs /\ a b = true.
Proof.
  induction bs as [|[x|] bs IH]; intros a b; cbn [deactivate].
  - cbn. intuition.
  - rewrite IH, put_spec. cbn. destruct (x =? b)%nat eqn:E.
    + apply Nat.eqb_eq in E. subst. split; [intros [_ X]; discriminate|intros [X _]; exfalso; apply X; left; reflexivity].
    + apply Nat.eqb_neq in E. split; intros [A B]; split; auto; intros [X|X]; auto. congruence.
  - rewrite IH. cbn. split; intros [A B]; split; auto. intros [X|X]; [discriminate|auto].
Qed.
Section Hist.
Variable pin : bool.
Variable cs : list config.
Variable scan_millis : Z.
Hypothesis NE : cs <> [].
Lemma find_range r : (FindBestConfig cs r < length cs)%nat.
Proof.
  assert (L : (0 < length cs)%nat) by (destruct cs; [contradiction|cbn; lia]). unfold FindBestConfig. destruct (1 <? length cs)%nat; [|exact L].
  destruct (best_of_spec (map ohm cs) 0 r 0 (inject_Z 100000000)) as [[A B]|(k & o1 & A & B & C & D)]; [rewrite A; exact L|].
  rewrite B. apply ohm_at_map in A as (c & A & _). apply nth_error_Some. cbn. congruence.
Qed.
Lemma config_nth i : (i < length cs)%nat -> nth_error cs i = Some (config_of cs i).
Proof. intros H. unfold config_of. apply nth_error_nth'. exact H. Qed.
Definition nulls : Prop := no_null cs.
Record Inv (s : state) : Prop := {
  W1 : exists i, current s = Some i /\ (i < length cs)%nat /\ forall b, active s b = true <-> In (Some b) (blades (config_of cs i));
  W2 : crashed s = false }.
Lemma find_blade_inv r s : nulls -> crashed s = false -> (forall b, active s b = false) ->
  Inv (fst (FindBlade pin cs r s)) /\ current (fst (FindBlade pin cs r s)) = Some (FindBestConfig cs (id pin (detected s) r)) /\ snd (FindBlade pin cs r s) = [].
Proof.
  intros N C A. unfold FindBlade. set (i := FindBestConfig cs (id pin (detected s) r)). pose proof (find_range (id pin (detected s) r)) as L. fold i in L.
  destruct (activate_spec (blades (config_of cs i)) (active s)) as [G B]. { apply N. apply nth_error_In with i. apply config_nth, L. }
  destruct (activate (blades (config_of cs i)) (active s)) as [a good]. cbn in *. subst good. split; [|auto]. constructor; cbn; [|exact C].
  exists i. repeat split; auto; rewrite B, A; [intros [X|X]; [exact X|discriminate]|auto].
Qed.
Lemma unset_true bs : ~ In None bs -> unset_ok bs = true.
Proof. intros N. apply forallb_forall. intros [x|] X; [reflexivity|contradiction]. Qed.
Lemma again_inv r s : nulls -> Inv s ->
  Inv (fst (FindBladeAgain pin cs r s)) /\ current (fst (FindBladeAgain pin cs r s)) = Some (FindBestConfig cs (id pin (detected s) r)) /\ snd (FindBladeAgain pin cs r s) = [].
Proof.
  intros N [(i & E & L & A) C]. unfold FindBladeAgain. rewrite E.
  rewrite unset_true by (apply N; apply nth_error_In with i; apply config_nth, L).
  apply (find_blade_inv r (State (clk s) (Some i) (detected s) (pending s) (last_scan s) (deactivate (blades (config_of cs i)) (active s)) (crashed s))); auto.
  intros b. cbn [active]. destruct (deactivate _ _ b) eqn:D; [|reflexivity]. apply deactivate_spec in D as [D1 D2]. apply A in D2. contradiction.
Qed.
Lemma inv_step s o : nulls -> Inv s -> Inv (fst (step pin cs scan_millis s o)).
Proof.
  intros N V. unfold step. rewrite (W2 _ V). destruct o.
  - destruct V as [A B]. constructor; auto.
  - unfold ScanBladeIdNow. destruct (_ <? _); [|exact V]. destruct V as [A B]. constructor; auto.
  - unfold PollScanId. destruct (pending s); [|exact V]. assert (V' : Inv (State (clk s) (current s) (detected s) false (last_scan s) (active s) (crashed s))) by (destruct V; constructor; auto).
    destruct (again_inv r _ N V') as [X _]. destruct (FindBladeAgain _ _ _ _). exact X.
  - unfold Detect. assert (V' : Inv (State (clk s) (current s) on (pending s) (last_scan s) (active s) (crashed s))) by (destruct V; constructor; auto).
    destruct (again_inv r _ N V') as [X _]. destruct (FindBladeAgain _ _ _ _). exact X.
  - apply again_inv; auto.
Qed.
Lemma inv_after t d r ops : nulls -> Inv (after pin cs scan_millis t d r ops).
Proof.
  intros N. unfold after. induction ops as [|o ops IH] using rev_ind.
  - cbn [run]. unfold boot. apply find_blade_inv; auto.
  - rewrite run_snoc. apply inv_step; auto.
Qed.
End Hist.

Section More.
Variable pin : bool.
Variable cs : list config.
Variable n : Z.
Hypothesis NE : cs <> [].
Hypothesis NN : no_null cs.
Notation after := (after pin cs n).
Lemma id_eq d r : id pin d r = (if pin && negb d then r + inject_Z 1000000000 else r)%Q.
Proof. reflexivity. Qed.
Lemma again_detected r s : detected (fst (FindBladeAgain pin cs r s)) = detected s /\ pending (fst (FindBladeAgain pin cs r s)) = pending s /\
  last_scan (fst (FindBladeAgain pin cs r s)) = last_scan s /\ clk (fst (FindBladeAgain pin cs r s)) = clk s.
Proof.
  unfold FindBladeAgain. destruct (current s); [|auto]. destruct (unset_ok _); [|cbn; auto]. unfold FindBlade. destruct (activate _ _). cbn. auto.
Qed.
Lemma detect_snoc d ops o : detect_now d (ops ++ [o]) = match o with Detected on _ => on | _ => detect_now d ops end.
Proof. revert d. induction ops as [|x ops IH]; intros d; [destruct o; reflexivity|]. destruct x; cbn; apply IH. Qed.
Lemma detected_after t d r ops : detected (after t d r ops) = detect_now d ops.
Proof.
  unfold IdentSpec.after. induction ops as [|o ops IH] using rev_ind.
  - cbn. unfold boot, FindBlade. destruct (activate _ _). reflexivity.
  - rewrite run_snoc, detect_snoc. fold (after t d r ops) in *. set (s := after t d r ops) in *.
    assert (V : crashed s = false) by (apply (inv_after pin cs n NE t d r ops NN)). unfold step. rewrite V. destruct o.
    + exact IH.
    + unfold ScanBladeIdNow. destruct (_ <? _); exact IH.
    + unfold PollScanId. destruct (pending s); [|exact IH]. destruct (again_detected r0 (State (clk s) (current s) (detected s) false (last_scan s) (active s) (crashed s))) as (X & _).
      destruct (FindBladeAgain _ _ _ _). exact (eq_trans X IH).
    + unfold Detect. destruct (again_detected r0 (State (clk s) (current s) on (pending s) (last_scan s) (active s) (crashed s))) as (X & _).
      destruct (FindBladeAgain _ _ _ _). exact X.
    + destruct (again_detected r0 s) as (X & _). exact (eq_trans X IH).
Qed.
Lemma near_dec d r : {nearby pin cs d r} + {~ nearby pin cs d r}.
Proof.
  unfold nearby. set (m := (if pin && negb d then _ else r)%Q). clearbody m.
  assert (D : forall l : list Z, {exists o, In o l /\ (off m o < inject_Z 100000000)%Q} + {forall o, In o l -> ~ (off m o < inject_Z 100000000)%Q}).
  { induction l as [|x l IH]; [right; intros o []|]. destruct (Qlt_le_dec (off m x) (inject_Z 100000000)) as [L|L].
    - left. exists x. split; [left; reflexivity|exact L].
    - destruct IH as [IH|IH]; [left|right].
      + destruct IH as (o & A & B). exists o. split; [right; exact A|exact B].
      + intros o [<-|A]; [lra|auto]. }
  destruct (D (map ohm cs)) as [X|X]; [left|right].
  - destruct X as (o & A & B). apply In_nth_error in A as (i & A). exists i, o. split; [apply ohm_at_map; exact A|exact B].
  - intros (i & o & A & B). apply ohm_at_map, nth_error_In in A. exact (X o A B).
Qed.
Lemma right_of d r : right_config pin cs d r (FindBestConfig cs (id pin d r)).
Proof.
  split.
  - intros (i & o & A & B). rewrite <- id_eq. apply find_nearest with i o; auto.
  - intros N. apply find_far. intros i o A. destruct (Qlt_le_dec (off (id pin d r) o) (inject_Z 100000000)) as [L|L]; [|exact L]. exfalso. apply N. exists i, o. auto.
Qed.
Lemma right_unique d r i j : right_config pin cs d r i -> right_config pin cs d r j -> i = j.
Proof.
  intros [A B] [C D]. destruct (near_dec d r) as [X|X]; [eapply nearest_unique; eauto|]. rewrite B, D by exact X. reflexivity.
Qed.
Lemma step_events t d r0 a o : let s := after t d r0 a in
  events pin cs n s o =
  match o with
  | Tick _ | Again _ => []
  | Scan _ => if n <? u32 (u32 (clk s) - last_scan s) then [Scanned] else []
  | Poll r => if pending s then [if level cs s <? level cs (next pin cs n s o) then BladeDetect false else if level cs (next pin cs n s o) <? level cs s then BladeDetect true else NewFont] else []
  | Detected on r => [BladeDetect on]
  end.
Proof.
  intros s. pose proof (inv_after pin cs n NE t d r0 a NN) as V. fold s in V. unfold events, next, step. rewrite (W2 _ _ V). destruct o; try reflexivity.
  - unfold ScanBladeIdNow. destruct (_ <? _); reflexivity.
  - unfold PollScanId. destruct (pending s); [|reflexivity].
    assert (V' : Inv cs (State (clk s) (current s) (detected s) false (last_scan s) (active s) (crashed s))) by (destruct V; constructor; auto).
    destruct (again_inv pin cs NE r _ NN V') as (_ & _ & X). destruct (FindBladeAgain _ _ _ _) as [s' ev]. cbn in X. subst ev. reflexivity.
  - unfold Detect. assert (V' : Inv cs (State (clk s) (current s) on (pending s) (last_scan s) (active s) (crashed s))) by (destruct V; constructor; auto).
    destruct (again_inv pin cs NE r _ NN V') as (_ & _ & X). destruct (FindBladeAgain _ _ _ _) as [s' ev]. cbn in X. subst ev. reflexivity.
  - apply again_inv; auto.
Qed.
Lemma step_current t d r0 a o : let s := after t d r0 a in
  current (next pin cs n s o) =
  match o with
  | Tick _ | Scan _ => current s
  | Again r => Some (FindBestConfig cs (id pin (detect_now d a) r))
  | Poll r => if pending s then Some (FindBestConfig cs (id pin (detect_now d a) r)) else current s
  | Detected on r => Some (FindBestConfig cs (id pin on r))
  end.
Proof.
  intros s. pose proof (inv_after pin cs n NE t d r0 a NN) as V. pose proof (detected_after t d r0 a) as D. fold s in V, D. unfold next, step. rewrite (W2 _ _ V). destruct o; try reflexivity.
  - unfold ScanBladeIdNow. destruct (_ <? _); reflexivity.
  - unfold PollScanId. destruct (pending s); [|reflexivity].
    assert (V' : Inv cs (State (clk s) (current s) (detected s) false (last_scan s) (active s) (crashed s))) by (destruct V; constructor; auto).
    destruct (again_inv pin cs NE r _ NN V') as (_ & X & _). destruct (FindBladeAgain _ _ _ _) as [s' ev]. cbn in X. rewrite D in X. exact X.
  - unfold Detect. assert (V' : Inv cs (State (clk s) (current s) on (pending s) (last_scan s) (active s) (crashed s))) by (destruct V; constructor; auto).
    destruct (again_inv pin cs NE r _ NN V') as (_ & X & _). destruct (FindBladeAgain _ _ _ _) as [s' ev]. exact X.
  - destruct (again_inv pin cs NE r _ NN V) as (_ & X & _). rewrite D in X. exact X.
Qed.
Lemma step_pending t d r0 a o : let s := after t d r0 a in
  pending (next pin cs n s o) =
  match o with
  | Poll _ => false
  | Scan r => if (n <? u32 (u32 (clk s) - last_scan s)) && match current s with Some i => negb (i =? FindBestConfig cs (id pin (detect_now d a) r))%nat | None => true end then true else pending s
  | _ => pending s
  end.
Proof.
  intros s. pose proof (inv_after pin cs n NE t d r0 a NN) as V. pose proof (detected_after t d r0 a) as D. fold s in V, D. unfold next, step. rewrite (W2 _ _ V). destruct o; try reflexivity.
  - unfold ScanBladeIdNow. rewrite D. destruct (_ <? _); [|reflexivity]. cbn. destruct (current s) as [i|]; [|reflexivity]. destruct (i =? _)%nat; reflexivity.
  - unfold PollScanId. destruct (pending s) eqn:P; [|exact P].
    destruct (again_detected r (State (clk s) (current s) (detected s) false (last_scan s) (active s) (crashed s))) as (_ & X & _). destruct (FindBladeAgain _ _ _ _) as [s' ev]. exact X.
  - unfold Detect. destruct (again_detected r (State (clk s) (current s) on (pending s) (last_scan s) (active s) (crashed s))) as (_ & X & _). destruct (FindBladeAgain _ _ _ _) as [s' ev]. exact X.
  - apply again_detected.
Qed.
Lemma step_last t d r0 a o : let s := after t d r0 a in
  last_scan (next pin cs n s o) = (match o with Scan _ => if n <? u32 (u32 (clk s) - last_scan s) then u32 (clk s) else last_scan s | _ => last_scan s end) /\
  clk (next pin cs n s o) = clk s + match o with Tick d => Z.of_nat d | _ => 0 end.
Proof.
  intros s. pose proof (inv_after pin cs n NE t d r0 a NN) as V. fold s in V. unfold next, step. rewrite (W2 _ _ V). destruct o; try (split; [reflexivity|cbn; lia]).
  - unfold ScanBladeIdNow. destruct (_ <? _); split; try reflexivity; cbn; lia.
  - unfold PollScanId. destruct (pending s) eqn:P; [|split; [reflexivity|cbn; lia]].
    destruct (again_detected r (State (clk s) (current s) (detected s) false (last_scan s) (active s) (crashed s))) as (_ & _ & X & Y). destruct (FindBladeAgain _ _ _ _) as [s' ev]. cbn in *. split; [exact X|lia].
  - unfold Detect. destruct (again_detected r (State (clk s) (current s) on (pending s) (last_scan s) (active s) (crashed s))) as (_ & _ & X & Y). destruct (FindBladeAgain _ _ _ _) as [s' ev]. cbn in *. split; [exact X|lia].
  - destruct (again_detected r s) as (_ & _ & X & Y). split; [exact X|]. cbn in *. lia.
Qed.
Lemma after_snoc t d r0 a o : after t d r0 (a ++ [o]) = next pin cs n (after t d r0 a) o.
Proof. unfold IdentSpec.after. apply run_snoc. Qed.
Lemma clk_mono t d r0 a b : clk (after t d r0 a) <= clk (after t d r0 (a ++ b)).
Proof.
  induction b as [|o b IH] using rev_ind; [rewrite app_nil_r; lia|]. rewrite app_assoc, after_snoc. destruct (step_last t d r0 (a ++ b) o) as [_ ->]. destruct o; lia.
Qed.
(** Scans *)
Lemma last_bound t d r0 a r b : events pin cs n (after t d r0 a) (Scan r) = [Scanned] ->
  exists T, clk (after t d r0 a) <= T <= clk (after t d r0 (a ++ Scan r :: b)) /\ last_scan (after t d r0 (a ++ Scan r :: b)) = u32 T.
Proof.
  intros E. rewrite step_events in E. destruct (_ <? _) eqn:L; [|discriminate]. clear E.
  induction b as [|o b IH] using rev_ind.
  - rewrite after_snoc. destruct (step_last t d r0 a (Scan r)) as [X Y]. rewrite X, Y, L. exists (clk (after t d r0 a)). split; [lia|reflexivity].
  - destruct IH as (T & B & LS). change (a ++ Scan r :: b ++ [o]) with (a ++ (Scan r :: b) ++ [o]). rewrite app_assoc, after_snoc. set (s := after t d r0 (a ++ Scan r :: b)) in *.
    destruct (step_last t d r0 (a ++ Scan r :: b) o) as [X Y]. fold s in X, Y. rewrite X, Y. destruct o; try (exists T; split; [lia|exact LS]).
    destruct (n <? u32 (u32 (clk s) - last_scan s)); [exists (clk s); split; [lia|reflexivity]|exists T; split; [lia|exact LS]].
Qed.
Lemma u32_sub a b : u32 (u32 a - u32 b) = u32 (a - b).
Proof. unfold u32. symmetry. apply Zminus_mod. Qed.
Lemma spacing t d r0 a r b r' : 0 <= n -> events pin cs n (after t d r0 a) (Scan r) = [Scanned] ->
  events pin cs n (after t d r0 (a ++ Scan r :: b)) (Scan r') = [Scanned] -> clk (after t d r0 a) + n < clk (after t d r0 (a ++ Scan r :: b)).
Proof.
  intros N E1 E2. destruct (last_bound t d r0 a r b E1) as (T & B & LS). rewrite step_events in E2. destruct (_ <? _) eqn:L; [|discriminate].
  rewrite LS, u32_sub in L. assert (u32 (clk (after t d r0 (a ++ Scan r :: b)) - T) <= clk (after t d r0 (a ++ Scan r :: b)) - T) by (apply Z.mod_le; lia). lia.
Qed.
Lemma due t d r0 a r b r' : events pin cs n (after t d r0 a) (Scan r) = [Scanned] -> Forall (fun o => is_scan o = false) b ->
  n < clk (after t d r0 (a ++ Scan r :: b)) - clk (after t d r0 a) < 4294967296 -> 0 <= n ->
  events pin cs n (after t d r0 (a ++ Scan r :: b)) (Scan r') = [Scanned].
Proof.
  intros E F C N. rewrite step_events in E. destruct (_ <? _) eqn:L; [|discriminate]. clear E.
  assert (LS : last_scan (after t d r0 (a ++ Scan r :: b)) = u32 (clk (after t d r0 a))).
  { clear C. induction b as [|o b IH] using rev_ind.
    - rewrite after_snoc. destruct (step_last t d r0 a (Scan r)) as [X _]. rewrite X, L. reflexivity.
    - apply Forall_app in F as [F1 F2]. inversion F2; subst. change (a ++ Scan r :: b ++ [o]) with (a ++ (Scan r :: b) ++ [o]). rewrite app_assoc, after_snoc.
      destruct (step_last t d r0 (a ++ Scan r :: b) o) as [X _]. rewrite X, <- (IH F1). destruct o; try reflexivity. discriminate. }
  rewrite step_events, LS, u32_sub. unfold u32. rewrite Z.mod_small by lia. replace (n <? _) with true by lia. reflexivity.
Qed.
(** When the loop function looks again *)
Lemma pending_iff t d r0 ops : pending (after t d r0 ops) = true <-> found_other pin cs n t d r0 ops.
Proof.
  induction ops as [|o ops IH] using rev_ind.
  - split.
    + cbn. unfold boot, FindBlade. destruct (activate _ _). discriminate.
    + intros (a & r & b & j & E & _). destruct a; discriminate.
  - rewrite after_snoc, step_pending. set (s := after t d r0 ops) in *.
    assert (OLD : is_poll o = false -> found_other pin cs n t d r0 ops -> found_other pin cs n t d r0 (ops ++ [o])).
    { intros P (a & r & b & j & E & F & G). exists a, r, (b ++ [o]), j. split; [rewrite E, <- app_assoc; reflexivity|]. split; [apply Forall_app; auto|exact G]. }
    assert (NEW : found_other pin cs n t d r0 (ops ++ [o]) -> (exists r j, o = Scan r /\ events pin cs n s (Scan r) = [Scanned] /\ right_config pin cs (detect_now d ops) r j /\ current s <> Some j) \/
      (is_poll o = false /\ found_other pin cs n t d r0 ops)).
    { intros (a & r & b & j & E & F & G). destruct b as [|x b] using rev_ind.
      - apply app_inj_tail in E as [-> ->]. left. exists r, j. auto.
      - clear IHb. apply Forall_app in F as [F1 F2]. inversion F2; subst. change (a ++ Scan r :: b ++ [x]) with (a ++ (Scan r :: b) ++ [x]) in E. rewrite app_assoc in E. apply app_inj_tail in E as [-> ->].
        right. split; [assumption|]. exists a, r, b, j. auto. }
    assert (SAME : is_scan o = false -> is_poll o = false -> (pending s = true <-> found_other pin cs n t d r0 (ops ++ [o]))).
    { intros A B. rewrite IH. split; [apply OLD, B|]. intros X. destruct (NEW X) as [(r & j & -> & _)|[_ Y]]; [discriminate|exact Y]. }
    destruct o; try (apply SAME; reflexivity).
    + assert (EV : events pin cs n s (Scan r) = if n <? u32 (u32 (clk s) - last_scan s) then [Scanned] else []) by apply (step_events t d r0 ops (Scan r)).
      pose proof (right_of (detect_now d ops) r) as R. set (best := FindBestConfig cs (id pin (detect_now d ops) r)) in *.
      assert (CUR : match current s with Some i => negb (i =? best)%nat | None => true end = true <-> current s <> Some best).
      { destruct (current s) as [i|]; [|split; [discriminate|reflexivity]]. rewrite negb_true_iff, Nat.eqb_neq. split; congruence. }
      split.
      * destruct (n <? _) eqn:L; cbn [andb].
        -- destruct (match current s with Some i => _ | None => true end) eqn:C.
           ++ intros _. exists ops, r, [], best. split; [reflexivity|]. split; [constructor|]. split; [exact EV|]. split; [exact R|]. apply CUR. reflexivity.
           ++ intros P. apply OLD; [reflexivity|]. apply IH, P.
        -- intros P. apply OLD; [reflexivity|]. apply IH, P.
      * intros X. destruct (NEW X) as [(r1 & j & E & E2 & E3 & E4)|[_ Y]].
        -- injection E as <-. rewrite EV in E2. destruct (n <? _); [|discriminate]. assert (j = best) by (eapply right_unique; eauto). subst j.
           cbn [andb]. rewrite (proj2 CUR E4). reflexivity.
        -- apply IH in Y. rewrite Y. destruct (_ && _); reflexivity.
    + split; [discriminate|]. intros X. destruct (NEW X) as [(r1 & j & E & _)|[Y _]]; discriminate.
Qed.
End More.
