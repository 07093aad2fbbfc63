From Coq Require Import ZArith List Bool Lia ZifyBool Arith.
From Verif Require Import Machine ArithModel GestModel GestSpec.
Import ListNotations.
Open Scope Z_scope.

Lemma u32_small x : 0 <= x < 2 ^ 32 -> u32 x = x.
Proof. intros. unfold u32. apply Z.mod_small. lia. Qed.
Lemma u32_neg x : - 2 ^ 32 <= x < 0 -> u32 x = x + 2 ^ 32.
Proof. intros. unfold u32. rewrite <- (Z.mod_small (x + 2 ^ 32) 4294967296) by lia. replace (x + 2 ^ 32) with (x + 1 * 4294967296) by lia. symmetry. apply Z.mod_add. lia. Qed.

Lemma kind_eqb_eq a b : kind_eqb a b = true <-> a = b.
Proof. destruct a, b; cbn; split; intros; congruence. Qed.
Lemma kind_eqb_refl a : kind_eqb a a = true.
Proof. destruct a; reflexivity. Qed.

Definition kdir (k : kind) : option dir :=
  match k with TWIST_LEFT => Some Left | TWIST_RIGHT => Some Right | SHAKE_FWD => Some Forward | SHAKE_REW => Some Back | _ => None end.
Definition kind_of (c : call) : kind :=
  match c with Twist _ gx gy gz => twist_kind gx gy gz | Shake _ x y z s => shake_kind x y z s end.

Lemma moves_kind c d : moves c d <-> kdir (kind_of c) = Some d.
Proof.
  destruct c as [t gx gy gz|t x y z s]; cbn [kind_of].
  - unfold twist_kind. destruct ((Z.abs gx >? 200000) && (Z.abs gx >? 3 * Z.abs gy) && (Z.abs gx >? 3 * Z.abs gz)) eqn:E.
    + destruct (gx >? 0) eqn:G; destruct d; cbn [moves kdir]; split; intros H; try discriminate; try contradiction; auto; lia.
    + cbn [kdir]. split; [|discriminate]. destruct d; cbn [moves]; try contradiction; lia.
  - unfold shake_kind. destruct ((y * y + z * z <? 16000000) && ((x >? 7000) || (x <? -6000)) && (s <? 150000)) eqn:E.
    + destruct (x >? 0) eqn:G; destruct d; cbn [moves kdir]; split; intros H; try discriminate; try contradiction; auto; lia.
    + cbn [kdir]. split; [|discriminate]. destruct d; cbn [moves]; try contradiction; lia.
Qed.
Lemma group_of c : group (kind_of c) = match c with Twist _ _ _ _ => TWIST_CLOSE | Shake _ _ _ _ _ => SHAKE_CLOSE end.
Proof.
  destruct c; cbn [kind_of].
  - unfold twist_kind. destruct (_ && _); [destruct (_ >? _)|]; reflexivity.
  - unfold shake_kind. destruct (_ && _); [destruct (_ >? _)|]; reflexivity.
Qed.
Lemma same_group a b : same_detector a b <-> group (kind_of a) = group (kind_of b).
Proof. rewrite !group_of. unfold same_detector. destruct a, b; cbn; intuition congruence. Qed.
Lemma kdir_none k : kdir k = None <-> group k = k.
Proof. destruct k; cbn; split; intros; congruence. Qed.
Lemma kdir_inj a b d : kdir a = Some d -> kdir b = Some d -> a = b.
Proof. destruct a, b; cbn; intros; congruence. Qed.

(** * What the strokes stand for *)
Definition Val (T : Z) (k : stroke) : Prop := 0 <= start_millis k <= T /\ (end_millis k = 0 \/ start_millis k <= end_millis k <= T) /\ (kdir (type k) <> None -> 251 <= start_millis k).
(** Stroke [k] is a real one that began at call [p]; if it has ended, it did before call [hi]. *)
Definition real (h : list call) (hi lo : nat) (k : stroke) (p : nat) (d : dir) : Prop :=
  kdir (type k) = Some d /\ (lo <= p < hi)%nat /\
  (exists c, nth_error h p = Some c /\ kind_of c = type k /\ time c = start_millis k) /\
  (end_millis k = 0 \/ exists q, (q < hi)%nat /\ stroke_at h d p q /\ at_time h q (end_millis k)).
Fixpoint Chain (h : list call) (hi lo : nat) (l : list stroke) : Prop :=
  match l with
  | [] => True
  | k :: l => kdir (type k) = None \/ exists p d, real h hi lo k p d /\ Chain h p lo l
  end.
Definition Inv (h : list call) (lo : nat) (T : Z) (l : list stroke) : Prop :=
  length l = 5%nat /\ Forall (Val T) l /\ 251 <= T < 2 ^ 31 /\
  (forall c, In c h -> time c <= T) /\
  (forall i j a b, (i <= j)%nat -> nth_error h i = Some a -> nth_error h j = Some b -> time a <= time b) /\
  match l with
  | [] => False
  | k :: l =>
    (kdir (type k) = None /\ (Chain h (length h) lo l \/ u32 (end_millis k - start_millis k) > 10 /\ end_millis k <> 0)) \/
    exists p d, real h (length h) lo k p d /\ Chain h p lo l /\
      (end_millis k = 0 -> forall i a, (p <= i)%nat -> nth_error h i = Some a -> group (kind_of a) = group (type k) -> kind_of a = type k)
  end.

(** Longer histories, later limits. *)
Lemma nth_snoc (h : list call) i c x : nth_error h i = Some x -> nth_error (h ++ [c]) i = Some x.
Proof. intros. rewrite nth_error_app1; auto. apply nth_error_Some. congruence. Qed.
Lemma nth_snoc_old (h : list call) i c x : nth_error (h ++ [c]) i = Some x -> (i < length h)%nat -> nth_error h i = Some x.
Proof. intros H L. rewrite nth_error_app1 in H; auto. Qed.
Lemma nth_snoc_new (h : list call) c : nth_error (h ++ [c]) (length h) = Some c.
Proof. rewrite nth_error_app2, Nat.sub_diag by lia. reflexivity. Qed.
Lemma nth_snoc_inv (h : list call) i c x : nth_error (h ++ [c]) i = Some x -> (i < length h)%nat /\ nth_error h i = Some x \/ i = length h /\ x = c.
Proof.
  intros H. destruct (Nat.lt_ge_cases i (length h)) as [L|L].
  - left. split; [auto|]. eapply nth_snoc_old; eauto.
  - right. assert (i < length (h ++ [c]))%nat by (apply nth_error_Some; congruence). rewrite app_length in H0. cbn in H0.
    assert (i = length h) by lia. subst. rewrite nth_snoc_new in H. split; congruence.
Qed.
Lemma stroke_snoc h c d p q : stroke_at h d p q -> stroke_at (h ++ [c]) d p q.
Proof.
  intros (A & (x & B1 & B2) & (y & C) & D). split; [auto|]. split; [exists x; split; [apply nth_snoc; auto|auto]|]. split; [exists y; apply nth_snoc; auto|].
  assert (Q : (q < length h)%nat) by (apply nth_error_Some; congruence).
  intros i a b I EA EB SD NM. apply nth_snoc_old in EA; [|lia]. apply nth_snoc_old in EB; [|lia].
  destruct (D i a b I EA EB SD NM) as (j & z & J1 & J2 & J3). exists j, z. split; [auto|]. split; [apply nth_snoc; auto|auto].
Qed.
Lemma at_snoc h c p t : at_time h p t -> at_time (h ++ [c]) p t.
Proof. intros (x & A & B). exists x. split; [apply nth_snoc; auto|auto]. Qed.
Lemma real_snoc h c hi hi' lo k p d : real h hi lo k p d -> (hi <= hi')%nat -> real (h ++ [c]) hi' lo k p d.
Proof.
  intros (A & B & (x & C1 & C2) & D) H. split; [auto|]. split; [lia|]. split; [exists x; split; [apply nth_snoc; auto|auto]|].
  destruct D as [D|(q & D1 & D2 & D3)]; [auto|]. right. exists q. split; [lia|]. split; [apply stroke_snoc; auto|apply at_snoc; auto].
Qed.
Lemma chain_snoc h c l : forall hi hi' lo, Chain h hi lo l -> (hi <= hi')%nat -> Chain (h ++ [c]) hi' lo l.
Proof.
  induction l as [|k l IH]; intros hi hi' lo H LE; [auto|]. destruct H as [H|(p & d & H1 & H2)]; [left; auto|].
  right. exists p, d. split; [eapply real_snoc; eauto|]. eapply IH; eauto.
Qed.
Lemma val_time T t k : Val T k -> T <= t -> Val t k.
Proof. unfold Val. intuition lia. Qed.

(** The newest stroke, closed or continued at call [c]. *)
Lemma close_real h lo k p d c l T :
  real h (length h) lo k p d -> Chain h p lo l -> end_millis k = 0 ->
  (forall i a, (p <= i)%nat -> nth_error h i = Some a -> group (kind_of a) = group (type k) -> kind_of a = type k) ->
  time c = T ->
  real (h ++ [c]) (length (h ++ [c])) lo (Stroke (type k) (start_millis k) T) p d /\ stroke_at (h ++ [c]) d p (length h).
Proof.
  intros (A & B & (x & C1 & C2 & C3) & _) CH E0 OP TC.
  assert (SA : stroke_at (h ++ [c]) d p (length h)).
  { split; [lia|]. split; [exists x; split; [apply nth_snoc; auto|apply moves_kind; congruence]|].
    split; [exists c; apply nth_snoc_new|].
    intros i a b I EA EB SD NM. exfalso. apply nth_snoc_old in EA; [|lia]. apply nth_snoc_old in EB; [|lia].
    apply NM. apply moves_kind. rewrite (OP i a); auto; [lia|]. apply same_group in SD. congruence. }
  split; [|exact SA]. split; [auto|]. split; [rewrite app_length; cbn; lia|].
  split; [exists x; split; [apply nth_snoc; auto|cbn; auto]|].
  right. exists (length h). split; [rewrite app_length; cbn; lia|]. split; [auto|]. exists c. split; [apply nth_snoc_new|auto].
Qed.
Lemma continue_real h lo k p d c T :
  (forall i j a b, (i <= j)%nat -> nth_error h i = Some a -> nth_error h j = Some b -> time a <= time b) ->
  real h (length h) lo k p d -> end_millis k <> 0 -> kind_of c = type k -> time c = T -> T - end_millis k < 50 ->
  real (h ++ [c]) (length (h ++ [c])) lo (Stroke (type k) (start_millis k) T) p d.
Proof.
  intros MO (A & B & (x & C1 & C2 & C3) & D) E0 KC TC LT. destruct D as [D|(q & Q1 & Q2 & Q3)]; [congruence|].
  split; [auto|]. split; [rewrite app_length; cbn; lia|].
  split; [exists x; split; [apply nth_snoc; auto|cbn; auto]|].
  right. exists (length h). split; [rewrite app_length; cbn; lia|]. split; [|exists c; split; [apply nth_snoc_new|auto]].
  destruct Q2 as (R1 & R2 & R3 & R4).
  split; [lia|]. split; [exists x; split; [apply nth_snoc; auto|apply moves_kind; congruence]|]. split; [exists c; apply nth_snoc_new|].
  intros i a b I EA EB SD NM. apply nth_snoc_old in EA; [|lia]. apply nth_snoc_old in EB; [|lia].
  destruct (Nat.lt_ge_cases i q) as [L|L].
  - destruct (R4 i a b ltac:(lia) EA EB SD NM) as (j & z & J1 & J2 & J3). exists j, z. split; [lia|]. split; [apply nth_snoc; auto|auto].
  - exists (length h), c. split; [lia|]. split; [apply nth_snoc_new|]. split; [apply moves_kind; congruence|].
    destruct Q3 as (y & Y1 & Y2). pose proof (MO q i y a L Y1 EA). lia.
Qed.

(** One call of DoGesture. *)
Lemma gesture_ok h lo T l c l' b :
  Inv h lo T l -> T <= time c < 2 ^ 31 -> DoGesture l (kind_of c) (time c) = (l', b) -> (lo <= length h)%nat ->
  Inv (h ++ [c]) lo (time c) l' /\
  (b = true -> exists k r, l = k :: r /\ l' = Stroke (type k) (start_millis k) (time c) :: r /\ end_millis k = 0 /\
     group (kind_of c) = group (type k) /\ kind_of c <> type k).
Proof.
  intros (LN & VA & TT & TM & MO & I0) TC E LO. destruct l as [|k l]; [destruct I0|].
  assert (TM' : forall x, In x (h ++ [c]) -> time x <= time c).
  { intros x X. apply in_app_or in X as [X|[<-|[]]]; [specialize (TM x X); lia|lia]. }
  assert (MO' : forall i j a b, (i <= j)%nat -> nth_error (h ++ [c]) i = Some a -> nth_error (h ++ [c]) j = Some b -> time a <= time b).
  { intros i j x y IJ EX EY. apply nth_snoc_inv in EX as [[X1 X2]|[-> ->]]; apply nth_snoc_inv in EY as [[Y1 Y2]|[-> ->]]; try lia; eauto.
    apply TM'. apply in_or_app. left. eapply nth_error_In; eauto. }
  inversion VA as [|? ? VK VL]; subst.
  assert (VL' : Forall (Val (time c)) l) by (eapply Forall_impl; [|exact VL]; intros ? X; eapply val_time; [exact X|lia]).
  assert (VK' : Val (time c) k) by (eapply val_time; [exact VK|lia]).
  assert (LH : (length h <= length (h ++ [c]))%nat) by (rewrite app_length; lia).
  assert (VE : Val (time c) (Stroke (type k) (start_millis k) (time c))).
  { destruct VK as (V1 & V2 & V3). unfold Val. cbn. repeat split; try lia; auto. }
  cbn [newest nth DoGesture] in E. unfold DoGesture in E. cbn [newest nth set_newest] in E.
  (* the state unchanged *)
  assert (SAME : (end_millis k = 0 -> group (kind_of c) = group (type k) -> kdir (type k) <> None -> kind_of c = type k) -> Inv (h ++ [c]) lo (time c) (k :: l)).
  { intros W. split; [auto|]. split; [constructor; auto|]. split; [lia|]. split; [auto|]. split; [auto|].
    destruct I0 as [[X1 X2]|(p & d & X1 & X2 & X3)].
    - left. split; [auto|]. destruct X2 as [X2|X2]; [left; eapply chain_snoc; eauto|auto].
    - right. exists p, d. split; [eapply real_snoc; eauto|]. split; [eapply chain_snoc; eauto|].
      intros E0 i a PI EA GA. apply nth_snoc_inv in EA as [[Y1 Y2]|[-> ->]]; [eapply X3; eauto|].
      apply W; auto. destruct X1 as [X1 _]. congruence. }
  (* the newest stroke closed or continued *)
  assert (ENDS : (forall p d, real h (length h) lo k p d -> Chain h p lo l ->
       (end_millis k = 0 -> forall i a, (p <= i)%nat -> nth_error h i = Some a -> group (kind_of a) = group (type k) -> kind_of a = type k) ->
       real (h ++ [c]) (length (h ++ [c])) lo (Stroke (type k) (start_millis k) (time c)) p d) ->
     Inv (h ++ [c]) lo (time c) (Stroke (type k) (start_millis k) (time c) :: l)).
  { intros W. split; [auto|]. split; [constructor; auto|]. split; [lia|]. split; [auto|]. split; [auto|].
    destruct I0 as [[X1 X2]|(p & d & X1 & X2 & X3)].
    - left. split; [auto|]. destruct X2 as [X2|[X2 X4]]; [left; eapply chain_snoc; eauto|]. right. cbn.
      destruct VK as (V1 & V2 & V3). rewrite u32_small in X2 |- * by lia. lia.
    - right. exists p, d. split; [auto|]. split; [eapply chain_snoc; eauto|]. cbn. lia. }
  (* a new stroke *)
  assert (NEW : kdir (kind_of c) <> None -> forall l0, (l0 = l /\ (kdir (type k) = None -> Chain h (length h) lo l) \/ l0 = k :: firstn 3 l) -> Inv (h ++ [c]) lo (time c) (Stroke (kind_of c) (time c) 0 :: l0)).
  { intros KD l0 L0. destruct (kdir (kind_of c)) as [d|] eqn:DK; [|congruence].
    split. { destruct L0 as [[-> _]| ->]; cbn [length] in LN |- *; [auto|]. rewrite firstn_length. lia. }
    split.
    { constructor. { unfold Val. cbn. lia. } destruct L0 as [[-> _]| ->]; [auto|]. constructor; [auto|].
      rewrite Forall_forall in *. intros x X. apply VL'. rewrite <- (firstn_skipn 3 l). apply in_or_app. auto. }
    split; [lia|]. split; [auto|]. split; [auto|]. right. exists (length h), d.
    split. { split; [auto|]. split; [rewrite app_length; cbn; lia|]. split; [exists c; split; [apply nth_snoc_new|auto]|left; reflexivity]. }
    split.
    { assert (CF : forall p n m, Chain h p lo m -> Chain h p lo (firstn n m)).
      { intros p n m. revert p n. induction m as [|x m IH]; intros p n H; destruct n; cbn; auto. destruct H as [H|(p' & d' & H1 & H2)]; [auto|]. right. exists p', d'. auto. }
      assert (CM : forall p p' m, Chain h p lo m -> (p <= p')%nat -> Chain (h ++ [c]) p' lo m) by (intros; eapply chain_snoc; eauto).
      destruct L0 as [[-> CL0]| ->].
      - destruct I0 as [[X1 X2]|(p & d' & X1 & X2 & X3)]; [apply (CM (length h)); auto|]. apply (CM p); auto. destruct X1 as (_ & X1 & _). lia.
      - destruct I0 as [[X1 X2]|(p & d' & X1 & X2 & X3)]; [left; auto|]. right. exists p, d'.
        split; [eapply real_snoc; eauto|]. apply (CM p); auto. }
    intros _ i a PI EA GA. apply nth_snoc_inv in EA as [[Y1 Y2]|[-> ->]]; [lia|]. reflexivity. }
  set (rest := if (end_millis k =? 0) && kind_eqb (group (kind_of c)) (group (type k)) then _ else _) in E.
  assert (REST : (end_millis k = 0 -> kind_of c <> type k) -> forall l1 b1, rest = (l1, b1) -> Inv (h ++ [c]) lo (time c) l1 /\
    (b1 = true -> exists k0 r, k :: l = k0 :: r /\ l1 = Stroke (type k0) (start_millis k0) (time c) :: r /\ end_millis k0 = 0 /\ group (kind_of c) = group (type k0) /\ kind_of c <> type k0)).
  { intros W l1 b1 R. unfold rest in R. clear rest E.
    destruct ((end_millis k =? 0) && kind_eqb (group (kind_of c)) (group (type k))) eqn:G.
    - apply andb_true_iff in G as [G1 G2]. apply Z.eqb_eq in G1. apply kind_eqb_eq in G2. injection R as <- <-. split.
      + apply ENDS. intros p d R1 R2 R3. eapply close_real; eauto.
      + intros _. exists k, l. repeat apply conj; auto.
    - destruct (kind_eqb (group (kind_of c)) (kind_of c)) eqn:G2.
      + injection R as <- <-. split; [|discriminate]. apply SAME. intros E0 GG KN. exfalso.
        rewrite E0, GG, kind_eqb_refl in G. discriminate.
      + assert (KD : kdir (kind_of c) <> None). { intros X. apply kdir_none in X. rewrite X, kind_eqb_refl in G2. discriminate. }
        destruct (u32 (end_millis k - start_millis k) >? 10) eqn:G3; injection R as <- <-; (split; [|discriminate]).
        * cbn [set_newest]. apply NEW; auto.
        * apply NEW; auto. left. split; [auto|]. intros KN. destruct I0 as [[X1 [X2|X2]]|(p & d & (X1 & _) & _)]; [auto|lia|congruence]. }
  destruct (kind_eqb (kind_of c) (type k)) eqn:KE.
  - apply kind_eqb_eq in KE. destruct (end_millis k =? 0) eqn:E0.
    + injection E as <- <-. split; [apply SAME; auto|discriminate].
    + destruct (u32 (time c - end_millis k) <? 50) eqn:G.
      * injection E as <- <-. split; [|discriminate]. apply ENDS. intros p d R1 R2 R3.
        eapply continue_real; eauto; [lia|]. destruct VK as (V1 & V2 & V3). rewrite u32_small in G by lia. lia.
      * apply REST in E; auto. lia.
  - apply REST in E; auto. intros _ X. rewrite X, kind_eqb_refl in KE. discriminate.
Qed.

(** * Reports are right *)
Lemma twist_sound h lo T l t gx gy gz l' evs :
  let c := Twist t gx gy gz in
  Inv h lo T l -> T <= time c < 2 ^ 31 -> step l c = (l', evs) -> (lo <= length h)%nat ->
  Inv (h ++ [c]) lo (time c) l' /\ (In EVENT_TWIST evs -> twist_at (h ++ [c]) (length h)) /\ ~ In EVENT_SHAKE evs.
Proof.
  intros c IN TC E LO. cbn [step c] in E. change (twist_kind gx gy gz) with (kind_of c) in E. change t with (time c) in E.
  destruct (DoGesture l (kind_of c) (time c)) as [l1 b] eqn:G. injection E as <- <-.
  destruct (gesture_ok h lo T l c l1 b IN TC G LO) as [I1 B]. split; [auto|]. split.
  2:{ destruct (_ && _); cbn; intuition discriminate. }
  destruct (b && is_twist l1) eqn:X; [|intros []]. intros _. apply andb_true_iff in X as [-> X].
  destruct (B eq_refl) as (k & r & -> & -> & E0 & GG & KN). clear B.
  destruct IN as (LN & VA & TT & TM & MO & I0).
  unfold is_twist in X. cbn [nth type start_millis end_millis] in X. destruct r as [|k2 r]; [discriminate LN|]. cbn [nth] in X.
  apply andb_true_iff in X as [X X5]. apply andb_true_iff in X as [X0 X].
  inversion VA as [|? ? VK VA']; subst. inversion VA' as [|? ? VK2 _]; subst.
  assert (K12 : exists d, (d = Left \/ d = Right) /\ kdir (type k2) = Some d /\ kdir (type k) = Some (opposite d)).
  { destruct (type k), (type k2); try discriminate X0; cbn; eauto. }
  destruct K12 as (d & D1 & D2 & D3).
  destruct I0 as [[Y _]|(p2 & d2 & R2 & C2 & OP)]; [congruence|].
  destruct (close_real h lo k p2 d2 c (k2 :: r) (time c) R2 C2 E0 (OP E0) eq_refl) as [R2' S2].
  destruct C2 as [Y|(p1 & d1 & R1 & _)]; [congruence|].
  destruct R2 as (Q1 & Q2 & (x2 & Q3 & Q3' & Q3'') & _). destruct R1 as (P1 & P2 & (x1 & P3 & P3' & P3'') & P4).
  assert (d1 = d) by congruence. assert (d2 = opposite d) by congruence. subst d1 d2.
  unfold length_ in X. cbn [start_millis end_millis] in X.
  destruct VK as (V1 & _ & V3). destruct VK2 as (W1 & W2 & W3). specialize (V3 ltac:(congruence)). specialize (W3 ltac:(congruence)).
  destruct P4 as [P4|(q1 & P4 & P5 & P6)].
  { exfalso. rewrite P4 in X. rewrite (u32_neg (0 - start_millis k2)) in X by lia. lia. }
  destruct W2 as [W2|W2].
  { exfalso. rewrite W2 in X. rewrite (u32_neg (0 - start_millis k2)) in X by lia. lia. }
  destruct P6 as (y1 & P6 & P7).
  assert (SE : end_millis k2 <= start_millis k) by (rewrite <- P7, <- Q3''; apply (MO q1 p2); auto; lia).
  rewrite (u32_small (time c - start_millis k)), (u32_small (end_millis k2 - start_millis k2)) in X by lia.
  rewrite u32_small in X5 by lia.
  exists d, p1, q1, p2, (start_millis k2), (end_millis k2), (start_millis k), (time c).
  split; [auto|]. split; [apply stroke_snoc; auto|]. split; [exact S2|]. split; [lia|]. split.
  { intros i a I1' EA TA. apply nth_snoc_old in EA; [|lia]. apply moves_kind. rewrite (OP E0 i a); auto; [lia|].
    rewrite group_of. destruct a; [|destruct TA]. destruct (type k); try discriminate D3; auto; destruct D1; subst d; discriminate D3. }
  split; [exists x1; split; [apply nth_snoc; auto|auto]|]. split; [exists y1; split; [apply nth_snoc; auto|auto]|].
  split; [exists x2; split; [apply nth_snoc; auto|auto]|]. split; [exists c; split; [apply nth_snoc_new|auto]|]. lia.
Qed.

(** Strokes that alternate. *)
Fixpoint alt (d : dir) (ks : list stroke) : Prop := match ks with [] => True | k :: ks => kdir (type k) = Some d /\ alt (opposite d) ks end.
Fixpoint sep (s : Z) (ks : list stroke) : Prop := match ks with [] => True | k :: ks => u32 (s - end_millis k) <= 250 /\ sep (start_millis k) ks end.
Lemma chain_alt h lo T ks : forall p d s,
  (forall i j a b, (i <= j)%nat -> nth_error h i = Some a -> nth_error h j = Some b -> time a <= time b) ->
  T < 2 ^ 31 -> Forall (Val T) ks ->
  Chain h p lo ks -> alt d ks -> sep s ks -> at_time h p s -> 251 <= s <= T ->
  exists l, length l = length ks /\ alternate h d lo l /\ match l with [] => True | (_, q') :: _ => (q' < p)%nat /\ exists e, at_time h q' e /\ s - e <= 250 end.
Proof.
  induction ks as [|k ks IH]; intros p d s MO TT VA CH AL SE AS SS; [exists []; cbn; auto|].
  cbn in AL, SE, CH. destruct AL as [A1 A2]. destruct SE as [S1 S2]. destruct CH as [C|(p' & d' & R & C)]; [congruence|].
  inversion VA as [|? ? (V1 & V2 & V3) VA']; subst. specialize (V3 ltac:(congruence)).
  destruct R as (R1 & R2 & (x & R3 & R4 & R5) & R6). assert (d' = d) by congruence. subst d'.
  destruct V2 as [V2|V2]; [rewrite V2, u32_small in S1 by lia; lia|].
  destruct R6 as [R6|(q & Q1 & Q2 & (y & Q3 & Q4))]; [lia|].
  destruct AS as (z & Z1 & Z2).
  assert (time y <= time z) by (apply (MO q p); auto; lia).
  rewrite u32_small in S1 by lia.
  destruct (IH p' (opposite d) (start_millis k) MO TT VA' C A2 S2) as (l & L1 & L2 & L3); [exists x; auto|lia|].
  exists ((p', q) :: l). split; [cbn; auto|]. split.
  - cbn. split; [auto|]. split; [lia|]. split; [|auto]. destruct l as [|[p'' q''] l]; [auto|]. destruct L3 as [L3 (e & L4 & L5)].
    split; [auto|]. exists (start_millis k), e. split; [exists x; auto|]. auto.
  - split; [auto|]. exists (end_millis k). split; [exists y; auto|lia].
Qed.
Lemma alternate_snoc h c lo l : forall d, alternate h d lo l -> alternate (h ++ [c]) d lo l.
Proof.
  induction l as [|[p q] l IH]; intros d H; [auto|]. cbn in *. destruct H as (A & B & C & D).
  split; [apply stroke_snoc; auto|]. split; [auto|]. split; [|auto]. destruct l as [|[p' q'] l]; [auto|].
  destruct C as (C1 & s & e & C2 & C3 & C4). split; [auto|]. exists s, e. split; [apply at_snoc; auto|]. split; [apply at_snoc; auto|auto].
Qed.

Lemma shake_sound h lo T l t x y z sp l' evs :
  let c := Shake t x y z sp in
  Inv h lo T l -> T <= time c < 2 ^ 31 -> step l c = (l', evs) -> (lo <= length h)%nat ->
  Inv (h ++ [c]) lo (time c) l' /\ (In EVENT_SHAKE evs -> shake_at (h ++ [c]) lo (length h) /\
    (10 < time c - start_millis (newest l') -> Inv (h ++ [c]) (length (h ++ [c])) (time c) l')) /\ ~ In EVENT_TWIST evs.
Proof.
  intros c IN TC E LO. cbn [step c] in E. change (shake_kind x y z sp) with (kind_of c) in E. change t with (time c) in E.
  destruct (DoGesture l (kind_of c) (time c)) as [l1 b] eqn:G.
  destruct (gesture_ok h lo T l c l1 b IN TC G LO) as [I1 B].
  destruct (b && shake_from l1 5 0) eqn:X.
  2:{ injection E as <- <-. split; [auto|]. cbn. tauto. }
  apply andb_true_iff in X as [-> X]. injection E as <- <-.
  destruct (B eq_refl) as (k & r & -> & -> & E0 & GG & KN). clear B.
  destruct IN as (LN & VA & TT & TM & MO & I0).
  destruct r as [|k1 [|k2 [|k3 [|k4 [|]]]]]; try discriminate LN.
  cbn [shake_from nth type start_millis end_millis Nat.odd Nat.even negb] in X.
  repeat match goal with H : _ && _ = true |- _ => apply andb_true_iff in H as [? ?] end.
  repeat match goal with H : kind_eqb _ _ = true |- _ => apply kind_eqb_eq in H end.
  inversion VA as [|? ? VK VA']; subst.
  assert (D3 : kdir (type k) = Some Forward) by (rewrite H; reflexivity).
  destruct I0 as [[Y _]|(p & d & R & C & OP)]; [congruence|].
  destruct (close_real h lo k p d c [k1; k2; k3; k4] (time c) R C E0 (OP E0) eq_refl) as [R' S'].
  assert (d = Forward) by (destruct R as [R _]; congruence). subst d.
  destruct R as (_ & R2 & (z0 & R3 & R4 & R5) & _). destruct VK as (V1 & _ & V3). specialize (V3 ltac:(congruence)).
  destruct (chain_alt h lo T [k1; k2; k3; k4] p Back (start_millis k) MO ltac:(lia) VA' C) as (ps & L1 & L2 & L3).
  { cbn. repeat split; match goal with H : type ?k = _ |- kdir (type ?k) = _ => rewrite H; reflexivity end. }
  { cbn. repeat split; lia. }
  { exists z0. auto. }
  { lia. }
  cbn [set_newest newest nth start_millis end_millis].
  assert (IE : forall lo', lo' = lo \/ lo' = length (h ++ [c]) /\ 10 < time c - start_millis k ->
     Inv (h ++ [c]) lo' (time c) (Stroke SHAKE_CLOSE (start_millis k) (time c) :: [k1; k2; k3; k4])).
  { intros lo' LL. destruct I1 as (J1 & J2 & J3 & J4 & J5 & J6). split; [auto|]. split.
    { inversion J2 as [|? ? (K1 & K2 & K3) K4]; subst. constructor; [|auto]. unfold Val. cbn in *. repeat split; try lia; try congruence. }
    split; [auto|]. split; [auto|]. split; [auto|]. left. split; [reflexivity|].
    destruct LL as [->|[-> LL]].
    - left. apply (chain_snoc h c _ p); [auto|]. rewrite app_length. lia.
    - right. cbn [start_millis end_millis]. rewrite u32_small by lia. lia. }
  split; [apply IE; auto|]. split; [|intros [Q|[]]; discriminate]. intros _. split.
  - exists p, ps. split; [auto|]. cbn [alternate opposite]. split; [auto|]. split; [lia|]. split.
    + destruct ps as [|[p' q'] ps]; [auto|]. destruct L3 as [L3 (e & L4 & L5)]. split; [auto|]. exists (start_millis k), e.
      split; [exists z0; split; [apply nth_snoc; auto|auto]|]. split; [apply at_snoc; auto|auto].
    + apply alternate_snoc. auto.
  - intros LL. apply IE. auto.
Qed.

(** A run. *)
Lemma step_inv h lo T l c l' evs :
  Inv h lo T l -> T <= time c < 2 ^ 31 -> step l c = (l', evs) -> (lo <= length h)%nat ->
  Inv (h ++ [c]) lo (time c) l' /\ (In EVENT_TWIST evs -> twist_at (h ++ [c]) (length h)) /\
  (In EVENT_SHAKE evs -> shake_at (h ++ [c]) lo (length h) /\ (10 < time c - start_millis (newest l') -> Inv (h ++ [c]) (length (h ++ [c])) (time c) l')).
Proof.
  intros. destruct c as [t gx gy gz|t x y z s].
  - destruct (twist_sound h lo T l t gx gy gz l' evs) as (A & B & C); auto. split; [auto|]. split; [auto|]. intros X. contradiction.
  - destruct (shake_sound h lo T l t x y z s l' evs) as (A & B & C); auto. split; [auto|]. split; [contradiction|auto].
Qed.
Lemma run_inv cs : forall h lo T l,
  Inv h lo T l -> ordered T cs -> (lo <= length h)%nat -> exists T', Inv (h ++ cs) lo T' (run_state step l cs) /\ T <= T' /\ (forall c, ordered T (cs ++ [c]) -> T' <= time c < 2 ^ 31).
Proof.
  induction cs as [|c cs IH]; intros h lo T l IN OR LO; [exists T; rewrite app_nil_r; cbn; split; [auto|]; split; [lia|]; intros; lia|].
  cbn in OR. destruct OR as [O1 O2]. cbn [run_state]. destruct (step l c) as [l1 e1] eqn:E.
  destruct (step_inv h lo T l c l1 e1 IN O1 E LO) as [I1 _]. cbn [fst].
  destruct (IH (h ++ [c]) lo (time c) l1 I1 O2 ltac:(rewrite app_length; lia)) as (T' & A & B & C). exists T'.
  rewrite <- app_assoc in A. split; [exact A|]. split; [lia|]. intros c0 OC. cbn in OC. apply C. tauto.
Qed.
Lemma inv0 : Inv [] 0 251 strokes0.
Proof.
  split; [reflexivity|]. split; [repeat constructor; cbn; auto; try lia; congruence|]. split; [lia|]. split; [intros c []|].
  split; [intros i j a b _ H; destruct i; discriminate H|]. cbn. left. split; [reflexivity|]. left. left. reflexivity.
Qed.
Lemma last_out cs c l : List.last (run_outs step l (cs ++ [c])) [] = snd (step (run_state step l cs) c).
Proof.
  revert l. induction cs as [|a cs IH]; intros l.
  - cbn. destruct (step l c). reflexivity.
  - cbn [app run_outs run_state]. destruct (step l a) as [l1 e] eqn:E. cbn [fst]. rewrite <- IH.
    destruct (run_outs step l1 (cs ++ [c])) eqn:R; [|reflexivity]. exfalso.
    apply (f_equal (@length _)) in R. assert (L : forall cs l, length (run_outs step l cs) = length cs).
    { clear. induction cs; intros; cbn; [auto|]. destruct (step l a). cbn. f_equal. auto. }
    rewrite L, app_length in R. cbn in R. lia.
Qed.
Lemma twist_right cs c : ordered 251 (cs ++ [c]) -> In EVENT_TWIST (List.last (run_outs step strokes0 (cs ++ [c])) []) -> twist_at (cs ++ [c]) (length cs).
Proof.
  intros OR. rewrite last_out.
  assert (OR' : ordered 251 cs) by (revert OR; generalize 251; induction cs; cbn; intros; [auto|]; intuition).
  destruct (run_inv cs [] 0 251 strokes0 inv0 OR' ltac:(cbn; lia)) as (T' & IN & _ & TT). cbn [app] in IN.
  destruct (step (run_state step strokes0 cs) c) as [l1 e] eqn:E.
  destruct (step_inv _ _ _ _ _ _ _ IN (TT c OR) E ltac:(lia)) as (_ & A & _). exact A.
Qed.
Lemma shake_right cs c : ordered 251 (cs ++ [c]) -> In EVENT_SHAKE (List.last (run_outs step strokes0 (cs ++ [c])) []) -> shake_at (cs ++ [c]) 0 (length cs).
Proof.
  intros OR. rewrite last_out.
  assert (OR' : ordered 251 cs) by (revert OR; generalize 251; induction cs; cbn; intros; [auto|]; intuition).
  destruct (run_inv cs [] 0 251 strokes0 inv0 OR' ltac:(cbn; lia)) as (T' & IN & _ & TT). cbn [app] in IN.
  destruct (step (run_state step strokes0 cs) c) as [l1 e] eqn:E.
  destruct (step_inv _ _ _ _ _ _ _ IN (TT c OR) E ltac:(lia)) as (_ & _ & A). intros X. apply A in X. tauto.
Qed.
Lemma ordered_snoc cs c : forall T, ordered T (cs ++ [c]) -> ordered T cs.
Proof. induction cs; cbn; intros; [auto|]; intuition. Qed.
Lemma ordered_app a b : forall T, ordered T (a ++ b) -> ordered T a.
Proof. induction a; cbn; intros; [auto|]; intuition. Qed.
Lemma ordered_mid a c b : forall T, ordered T (a ++ c :: b) -> ordered T (a ++ [c]) /\ ordered (time c) b.
Proof. induction a; cbn; intros; intuition; eapply IHa; eauto. Qed.
Lemma shake_disjoint cs1 c1 cs2 c2 :
  ordered 251 (cs1 ++ c1 :: cs2 ++ [c2]) ->
  In EVENT_SHAKE (List.last (run_outs step strokes0 (cs1 ++ [c1])) []) ->
  10 < time c1 - start_millis (newest (run_state step strokes0 (cs1 ++ [c1]))) ->
  In EVENT_SHAKE (List.last (run_outs step strokes0 (cs1 ++ c1 :: cs2 ++ [c2])) []) ->
  shake_at (cs1 ++ c1 :: cs2 ++ [c2]) (S (length cs1)) (S (length cs1 + length cs2)).
Proof.
  intros OR. destruct (ordered_mid _ _ _ _ OR) as [OR1 OR2]. rewrite last_out.
  destruct (run_inv cs1 [] 0 251 strokes0 inv0 (ordered_snoc _ _ _ OR1) ltac:(cbn; lia)) as (T' & IN & _ & TT). cbn [app] in IN.
  destruct (step (run_state step strokes0 cs1) c1) as [l1 e] eqn:E.
  destruct (step_inv _ _ _ _ _ _ _ IN (TT c1 OR1) E ltac:(lia)) as (_ & _ & A). intros X LL Y. apply A in X as [_ X].
  assert (RS : run_state step strokes0 (cs1 ++ [c1]) = l1).
  { clear -E. revert E. generalize strokes0. induction cs1; intros s E; cbn in *; [rewrite E; reflexivity|auto]. }
  rewrite RS in LL. specialize (X LL).
  rewrite app_comm_cons, app_assoc, last_out in Y.
  assert (RS2 : run_state step strokes0 (cs1 ++ c1 :: cs2) = run_state step l1 cs2).
  { clear -E. revert E. generalize strokes0. induction cs1; intros s E; cbn in *; [rewrite E; reflexivity|auto]. }
  rewrite RS2 in Y.
  destruct (run_inv cs2 _ _ _ _ X (ordered_snoc _ _ _ OR2) (Nat.le_refl _)) as (T2 & IN2 & _ & TT2).
  destruct (step (run_state step l1 cs2) c2) as [l3 e3] eqn:E3.
  destruct (step_inv _ _ _ _ _ _ _ IN2 (TT2 c2 OR2) E3 ltac:(rewrite !app_length; lia)) as (_ & _ & A3). apply A3 in Y as [Y _].
  rewrite !app_length in Y. cbn [length] in Y. rewrite <- !app_assoc in Y. cbn [app] in Y.
  replace (length cs1 + 1 + length cs2)%nat with (S (length cs1 + length cs2)) in Y by lia.
  replace (length cs1 + 1)%nat with (S (length cs1)) in Y by lia. exact Y.
Qed.

(** * Clean movements are reported *)
Lemma run_T cs : forall h lo T l,
  Inv h lo T l -> ordered T cs -> (lo <= length h)%nat -> cs <> [] -> exists c, In c cs /\ Inv (h ++ cs) lo (time c) (run_state step l cs).
Proof.
  induction cs as [|c cs IH]; intros h lo T l IN OR LO NE; [congruence|].
  cbn in OR. destruct OR as [O1 O2]. cbn [run_state]. destruct (step l c) as [l1 e1] eqn:E.
  destruct (step_inv h lo T l c l1 e1 IN O1 E LO) as [I1 _]. cbn [fst].
  destruct cs as [|c2 cs].
  - exists c. split; [left; auto|]. exact I1.
  - destruct (IH (h ++ [c]) lo (time c) l1 I1 O2 ltac:(rewrite app_length; lia) ltac:(congruence)) as (c' & A & B).
    exists c'. split; [right; auto|]. rewrite <- app_assoc in B. exact B.
Qed.
Lemma run_state_app cs ds l : run_state step l (cs ++ ds) = run_state step (run_state step l cs) ds.
Proof. revert l. induction cs; intros; cbn; auto. Qed.
Lemma run_outs_app cs ds l : run_outs step l (cs ++ ds) = run_outs step l cs ++ run_outs step (run_state step l cs) ds.
Proof. revert l. induction cs; intros; cbn; auto. destruct (step l a). cbn. f_equal. auto. Qed.
Lemma still_kind c : still c <-> kdir (kind_of c) = None.
Proof.
  split.
  - intros H. destruct (kdir (kind_of c)) as [d|] eqn:E; [|auto]. destruct (H d). apply moves_kind. auto.
  - intros H d M. apply moves_kind in M. congruence.
Qed.
Lemma step_gesture l c l1 b : DoGesture l (kind_of c) (time c) = (l1, b) ->
  (b = false -> step l c = (l1, [])) /\ (is_twist_call c -> step l c = (l1, if b && is_twist l1 then [EVENT_TWIST] else [])) /\
  (~ is_twist_call c -> b = true -> step l c = if shake_from l1 5 0 then (set_newest l1 (Stroke SHAKE_CLOSE (start_millis (newest l1)) (end_millis (newest l1))), [EVENT_SHAKE]) else (l1, [])).
Proof.
  intros E. destruct c as [t gx gy gz|t x y z s]; cbn [step kind_of time is_twist_call] in *; rewrite E; split; [intros ->|split; [|intros X; elim X]| |split]; auto; cbn; auto; try tauto.
  - intros ->. reflexivity.
  - intros _ ->. reflexivity.
Qed.

Definition gr (c : call) : kind := group (kind_of c).
Definition ready (g : kind) (l : list stroke) : Prop := exists k r, l = k :: r /\ ~ (group (type k) = g /\ end_millis k = 0).
Definition used (l : list stroke) : Prop := exists k r, l = k :: r /\ ~ (kdir (type k) = None /\ end_millis k = 0).

Lemma gesture_shape k r g now l1 b : DoGesture (k :: r) g now = (l1, b) ->
  (l1 = k :: r /\ b = false /\ (g = type k /\ end_millis k = 0 \/ kdir g = None /\ ~ (end_millis k = 0 /\ group g = group (type k)))) \/
  (l1 = Stroke (type k) (start_millis k) now :: r /\
    (b = true /\ end_millis k = 0 /\ group g = group (type k) /\ g <> type k \/ b = false /\ end_millis k <> 0 /\ g = type k /\ u32 (now - end_millis k) < 50)) \/
  (l1 = Stroke g now 0 :: (if u32 (end_millis k - start_millis k) >? 10 then k :: firstn 3 r else r) /\ b = false /\ kdir g <> None /\
    ~ (end_millis k = 0 /\ group g = group (type k))).
Proof.
  intros E. unfold DoGesture in E. cbn [newest nth set_newest] in E.
  destruct (kind_eqb g (type k)) eqn:K1; [apply kind_eqb_eq in K1|assert (K1' : g <> type k) by (intros ->; rewrite kind_eqb_refl in K1; discriminate)].
  - destruct (end_millis k =? 0) eqn:E0; [injection E as <- <-; left; repeat apply conj; auto; left; split; [auto|lia]|].
    destruct (u32 (now - end_millis k) <? 50) eqn:L5; [injection E as <- <-; right; left; split; [auto|]; right; repeat apply conj; auto; lia|].
    cbn [andb] in E. destruct (kind_eqb (group g) g) eqn:K2.
    + injection E as <- <-. left. repeat apply conj; auto. right. split; [apply kdir_none, kind_eqb_eq; auto|lia].
    + injection E as <- <-. right; right. split; [destruct (_ >? 10); reflexivity|]. split; [auto|]. split; [|lia].
      intros X. apply kdir_none in X. rewrite X, kind_eqb_refl in K2. discriminate.
  - destruct ((end_millis k =? 0) && kind_eqb (group g) (group (type k))) eqn:CL.
    + injection E as <- <-. right; left. split; [auto|]. left. apply andb_true_iff in CL as [C1 C2]. apply kind_eqb_eq in C2. repeat apply conj; auto. lia.
    + assert (NC : ~ (end_millis k = 0 /\ group g = group (type k))) by (intros [X1 X2]; rewrite X1, X2, kind_eqb_refl in CL; discriminate).
      destruct (kind_eqb (group g) g) eqn:K2.
      * injection E as <- <-. left. repeat apply conj; auto. right. split; [apply kdir_none, kind_eqb_eq; auto|auto].
      * injection E as <- <-. right; right. split; [destruct (_ >? 10); reflexivity|]. split; [auto|]. split; [|auto].
        intros X. apply kdir_none in X. rewrite X, kind_eqb_refl in K2. discriminate.
Qed.
Lemma step_shape k r c : exists k1 r1, fst (step (k :: r) c) = k1 :: r1 /\
  ((k1 = k /\ r1 = r /\ (kind_of c = type k /\ end_millis k = 0 \/ kdir (kind_of c) = None /\ ~ (end_millis k = 0 /\ gr c = group (type k)))) \/
   (end_millis k1 = time c /\ gr c = group (type k) /\ group (type k1) = group (type k)) \/
   (k1 = Stroke (kind_of c) (time c) 0 /\ kdir (kind_of c) <> None)).
Proof.
  destruct (DoGesture (k :: r) (kind_of c) (time c)) as [l1 b] eqn:E.
  destruct (step_gesture _ _ _ _ E) as (S1 & S2 & S3). pose proof (gesture_shape _ _ _ _ _ _ E) as G.
  destruct b.
  - destruct G as [(_ & X & _)|[(-> & [(_ & G1 & G2 & G3)|(X & _)])|(_ & X & _)]]; try discriminate X.
    assert (DC : is_twist_call c \/ ~ is_twist_call c) by (destruct c; cbn; auto). destruct DC as [DC|DC].
    + rewrite (S2 DC). cbn [fst]. eexists _, _. split; [reflexivity|]. right; left. cbn. auto.
    + rewrite (S3 DC eq_refl). destruct (shake_from _ 5 0).
      * cbn [fst set_newest]. eexists _, _. split; [reflexivity|]. right; left. cbn [type end_millis newest nth].
        repeat apply conj; auto. unfold gr in *. rewrite <- G2, group_of. destruct c; [elim DC; exact Logic.I|reflexivity].
      * cbn [fst]. eexists _, _. split; [reflexivity|]. right; left. cbn. auto.
  - rewrite S1 by auto. cbn [fst]. unfold gr. destruct G as [(-> & _ & G)|[(-> & [(X & _)|(_ & G1 & G2 & _)])|(-> & _ & G1 & G2)]]; try discriminate X; eexists _, _; (split; [reflexivity|]).
    + left. auto.
    + right; left. cbn. rewrite G2. auto.
    + right; right. auto.
Qed.
Lemma step_used l c : used l \/ (exists d, moves c d) /\ l <> [] -> 0 < time c -> used (fst (step l c)).
Proof.
  intros H TC. assert (NE : exists k r, l = k :: r). { destruct H as [(k & r & -> & _)|[_ H]]; eauto. destruct l; eauto; congruence. }
  destruct NE as (k & r & ->). destruct (step_shape k r c) as (k1 & r1 & -> & G). exists k1, r1. split; [auto|]. intros [K1 K2].
  destruct G as [(-> & -> & G)|[(G1 & _)|(-> & G)]].
  - destruct H as [(k0 & r0 & E & H)|[(d & H) _]]; [injection E as <- <-; auto|]. apply moves_kind in H. destruct G as [[G1 G2]|[G1 _]]; congruence.
  - lia.
  - cbn in K1. congruence.
Qed.
Lemma still_ready g l c : ready g l -> still c -> 0 < time c -> ready g (fst (step l c)).
Proof.
  intros (k & r & -> & H) ST TC. apply still_kind in ST. destruct (step_shape k r c) as (k1 & r1 & -> & G). exists k1, r1. split; [auto|]. intros [K1 K2].
  destruct G as [(-> & -> & G)|[(G1 & _)|(-> & G)]]; [auto|lia|congruence].
Qed.
Lemma still_ready2 g l c : used l -> still c -> 0 < time c -> gr c = g -> ready g (fst (step l c)).
Proof.
  intros (k & r & -> & H) ST TC GC. apply still_kind in ST. destruct (step_shape k r c) as (k1 & r1 & -> & G). exists k1, r1. split; [auto|]. intros [K1 K2].
  destruct G as [(-> & -> & G)|[(G1 & _)|(-> & G)]]; [|lia|congruence].
  destruct G as [[G1 G2]|[G1 G2]]; [rewrite G1 in ST; auto|]. apply G2. split; [auto|]. congruence.
Qed.
Lemma ordered_pos cs : forall T, 251 <= T -> ordered T cs -> Forall (fun c => 251 <= time c < 2 ^ 31) cs.
Proof. induction cs; intros T H O; [constructor|]. cbn in O. constructor; [lia|]. apply (IHcs (time a)); [lia|tauto]. Qed.
Lemma rested_ready l a s : rested l a s -> ordered 251 l -> ready (gr a) (run_state step strokes0 l).
Proof.
  intros (l1 & l2 & -> & (m & d & M1 & M2) & ST & (c & C1 & C2) & _) OR.
  apply ordered_pos in OR; [|lia]. apply Forall_app in OR as [O1 O2]. rewrite run_state_app.
  assert (U : used (run_state step strokes0 l1)).
  { assert (NE : strokes0 <> []) by discriminate. revert NE. generalize strokes0. induction l1 as [|x l1 IH]; intros st NE; [destruct M1|].
    inversion O1; subst. cbn. destruct M1 as [->|M1].
    - assert (U : used (fst (step st m))) by (apply step_used; [right; eauto|lia]). revert U. generalize (fst (step st m)).
      clear -O1. inversion O1; subst. clear -H2. induction l1; intros; cbn; [auto|]. inversion H2; subst. apply IHl1; auto. apply step_used; [auto|lia].
    - apply IH; auto. destruct st as [|k r]; [congruence|]. destruct (step_shape k r x) as (k1 & r1 & -> & _). discriminate. }
  revert U. generalize (run_state step strokes0 l1). apply same_group in C2. fold (gr c) (gr a) in C2. rewrite <- C2. clear - ST C1 O2.
  induction l2 as [|x l2 IH]; intros st U; [destruct C1|]. inversion ST; subst. inversion O2; subst. cbn. destruct C1 as [->|C1].
  - assert (R : ready (gr c) (fst (step st c))) by (apply still_ready2; auto; lia). revert R. generalize (fst (step st c)).
    clear -H2 H4. induction l2; intros; cbn; [auto|]. inversion H2; subst. inversion H4; subst. apply IHl2; auto. apply still_ready; auto; lia.
  - apply IH; auto. apply step_used; auto. lia.
Qed.

(** A clean movement. *)
Lemma still_other k r c : still c -> ~ (end_millis k = 0 /\ gr c = group (type k)) -> kind_of c <> type k -> step (k :: r) c = (k :: r, []).
Proof.
  intros ST N D. destruct (DoGesture (k :: r) (kind_of c) (time c)) as [l1 b] eqn:E. destruct (step_gesture _ _ _ _ E) as (S1 & _ & _).
  apply still_kind in ST. destruct (gesture_shape _ _ _ _ _ _ E) as [(-> & -> & G)|[(-> & [(-> & G1 & G2 & G3)|(-> & G1 & G2 & _)])|(-> & -> & G1 & G2)]]; auto; try congruence.
  elim N. auto.
Qed.
Lemma clean_open d a m c k r :
  clean d a m c -> ~ (group (type k) = gr a /\ end_millis k = 0) -> (type k = kind_of a -> end_millis k <> 0 -> u32 (time a - end_millis k) >= 50) ->
  run_state step (k :: r) (a :: m) = Stroke (kind_of a) (time a) 0 :: (if u32 (end_millis k - start_millis k) >? 10 then k :: firstn 3 r else r).
Proof.
  intros (MA & MM & _) RD LT. cbn [run_state]. destruct (DoGesture (k :: r) (kind_of a) (time a)) as [l1 b] eqn:E.
  destruct (step_gesture _ _ _ _ E) as (S1 & _ & _). apply moves_kind in MA.
  assert (X : b = false /\ l1 = Stroke (kind_of a) (time a) 0 :: (if u32 (end_millis k - start_millis k) >? 10 then k :: firstn 3 r else r)).
  { destruct (gesture_shape _ _ _ _ _ _ E) as [(-> & -> & G)|[(-> & [(-> & G1 & G2 & G3)|(-> & G1 & G2 & G3)])|(-> & -> & G1 & G2)]]; auto.
    - destruct G as [[G1 G2]|[G1 G2]]; [|congruence]. elim RD. unfold gr. rewrite G1. auto.
    - elim RD. unfold gr. auto.
    - specialize (LT (eq_sym G2) G1). lia. }
  destruct X as [-> ->]. rewrite S1 by auto. cbn [fst]. clear S1 E LT RD.
  match goal with |- _ = _ :: ?q => generalize q end. intros q. clear k r. induction m as [|x m IH]; [reflexivity|]. inversion MM as [|? ? MX MM']; subst. cbn [run_state].
  assert (SX : step (Stroke (kind_of a) (time a) 0 :: q) x = (Stroke (kind_of a) (time a) 0 :: q, [])).
  { destruct MX as [MX|[M1 M2]].
    - apply moves_kind in MX. assert (kind_of x = kind_of a) by (eapply kdir_inj; eauto).
      destruct (DoGesture (Stroke (kind_of a) (time a) 0 :: q) (kind_of x) (time x)) as [l1 b] eqn:E. destruct (step_gesture _ _ _ _ E) as (S1 & _ & _).
      destruct (gesture_shape _ _ _ _ _ _ E) as [(-> & -> & G)|[(-> & [(-> & G1 & G2 & G3)|(-> & G1 & G2 & G3)])|(-> & -> & G1 & G2)]]; auto; cbn in *; try congruence.
      elim G2. split; congruence.
    - apply still_other; auto; cbn [end_millis type].
      + intros [_ X]. apply M1. apply same_group. exact X.
      + intros X. apply still_kind in M2. congruence. }
  rewrite SX. apply IH. auto.
Qed.
Lemma clean_close d a m c t0 q :
  clean d a m c -> DoGesture (Stroke (kind_of a) t0 0 :: q) (kind_of c) (time c) = (Stroke (kind_of a) t0 (time c) :: q, true).
Proof.
  intros (MA & _ & SD & NM). apply moves_kind in MA. rewrite moves_kind in NM. apply same_group in SD.
  destruct (DoGesture (Stroke (kind_of a) t0 0 :: q) (kind_of c) (time c)) as [l1 b] eqn:E.
  destruct (gesture_shape _ _ _ _ _ _ E) as [(-> & -> & G)|[(-> & [(-> & G1 & G2 & G3)|(-> & G1 & G2 & G3)])|(-> & -> & G1 & G2)]]; cbn in *; auto; try congruence.
  - destruct G as [[G1 G2]|[G1 G2]]; [congruence|]. elim G2. auto.
  - elim G2. auto.
Qed.
Lemma rest_same g k r : Forall still g -> kdir (type k) <> None -> end_millis k <> 0 -> run_state step (k :: r) g = k :: r.
Proof.
  intros ST KD E0. induction g as [|x g IH]; [reflexivity|]. inversion ST; subst. cbn [run_state].
  rewrite still_other; auto; [lia|]. intros X. apply still_kind in H1. congruence.
Qed.
Lemma ordered_split a b : forall T, ordered T (a ++ b) -> exists T', T <= T' /\ ordered T' b /\ Forall (fun c => time c <= T') a.
Proof.
  induction a as [|x a IH]; intros T H; cbn in *; [exists T; split; [lia|auto]|]. destruct H as [H1 H2]. destruct (IH _ H2) as (T' & A & B & C).
  exists T'. split; [lia|]. split; [auto|]. constructor; [lia|auto].
Qed.
Lemma ordered_all T b : ordered T b -> Forall (fun c => T <= time c < 2 ^ 31) b.
Proof.
  revert T. induction b as [|x b IH]; intros T H; [constructor|]. cbn in H. destruct H as [H1 H2]. constructor; [auto|].
  eapply Forall_impl; [|apply (IH _ H2)]. cbn. intros. lia.
Qed.
Lemma ordered_le l1 x l2 y l3 T : ordered T (l1 ++ x :: l2 ++ y :: l3) -> time x <= time y < 2 ^ 31.
Proof.
  intros H. destruct (ordered_split l1 _ _ H) as (T' & _ & O & _). cbn in O. destruct O as [_ O].
  apply ordered_all in O. apply Forall_app in O as [_ O]. inversion O; auto.
Qed.
Lemma twist_group d a : d = Left \/ d = Right -> moves a d -> is_twist_call a.
Proof. intros H M. destruct a; [exact Logic.I|]. destruct H; subst; destruct M. Qed.
Lemma start_state l0 a l s : ordered 251 (l0 ++ a :: l) -> rested l0 a s -> s <= time a ->
  exists k r, run_state step strokes0 l0 = k :: r /\ length r = 4%nat /\ ~ (group (type k) = gr a /\ end_millis k = 0) /\
  (end_millis k <> 0 -> u32 (time a - end_millis k) >= 50).
Proof.
  intros OR RE SA.
  assert (O0 : ordered 251 l0) by (eapply ordered_app; eauto).
  destruct (rested_ready _ _ _ RE O0) as (k & r & E & RD). exists k, r. split; [auto|].
  assert (NE : l0 <> []). { destruct RE as (l1 & l2 & -> & _ & _ & (x & X & _) & _). destruct l1; [|discriminate]. destruct l2; [destruct X|discriminate]. }
  destruct (run_T l0 [] 0 251 strokes0 inv0 O0 ltac:(cbn; lia) NE) as (x & X & IN). rewrite E in IN. destruct IN as (LN & VA & TT & _).
  split; [cbn in LN; lia|]. split; [auto|]. intros E0. inversion VA as [|? ? (V1 & V2 & _) _]; subst.
  destruct RE as (l1 & l2 & EQ & _ & _ & _ & FT). rewrite Forall_forall in FT. specialize (FT x X). cbn in FT.
  destruct (ordered_split l0 _ _ OR) as (T' & _ & O & _). cbn in O. rewrite u32_small by lia. lia.
Qed.

Lemma twist_complete l0 d a1 m1 c1 g a2 m2 c2 :
  (d = Left \/ d = Right) -> let l := l0 ++ (a1 :: m1) ++ c1 :: g ++ (a2 :: m2) ++ [c2] in
  ordered 251 l -> rested l0 a1 (time a1) ->
  clean d a1 m1 c1 -> Forall still g -> clean (opposite d) a2 m2 c2 ->
  90 < time c1 - time a1 < 300 -> 90 < time c2 - time a2 < 300 -> time a2 - time c1 < 200 ->
  List.last (run_outs step strokes0 l) [] = [EVENT_TWIST].
Proof.
  intros DD l OR RE C1 ST C2 L1 L2 L3.
  destruct (start_state l0 a1 _ _ OR RE ltac:(lia)) as (k & r & E & _ & RD & LT).
  assert (T1 : 251 <= time a1) by (pose proof (ordered_pos _ 251 ltac:(lia) OR) as P; apply Forall_app in P as [_ P]; inversion P; lia).
  assert (TL : time c1 <= time a2 < 2 ^ 31).
  { apply (ordered_le (l0 ++ a1 :: m1) c1 g a2 (m2 ++ [c2]) 251). rewrite <- app_assoc. exact OR. }
  assert (TE : time c1 <= time c2 < 2 ^ 31).
  { apply (ordered_le (l0 ++ a1 :: m1) c1 (g ++ a2 :: m2) c2 [] 251). rewrite <- !app_assoc. exact OR. }
  assert (K1 : kdir (kind_of a1) = Some d) by (apply moves_kind; apply C1).
  assert (K2 : kdir (kind_of a2) = Some (opposite d)) by (apply moves_kind; apply C2).
  subst l. replace (l0 ++ (a1 :: m1) ++ c1 :: g ++ (a2 :: m2) ++ [c2]) with ((l0 ++ (a1 :: m1) ++ c1 :: g ++ (a2 :: m2)) ++ [c2]) by (cbn; rewrite <- !app_assoc; cbn; rewrite <- !app_assoc; cbn; rewrite <- app_assoc; reflexivity).
  rewrite last_out. rewrite run_state_app, E, run_state_app.
  rewrite (clean_open d a1 m1 c1 k r C1) by (auto; intros; apply LT; auto).
  match goal with |- context[Stroke (kind_of a1) (time a1) 0 :: ?q] => generalize q end. intros q.
  cbn [run_state]. pose proof (clean_close d a1 m1 c1 (time a1) q C1) as G1. destruct (step_gesture _ _ _ _ G1) as (_ & S2 & _).
  assert (TW1 : is_twist_call a1) by (eapply twist_group; [exact DD|apply C1]).
  assert (TW2 : is_twist_call a2) by (apply (twist_group (opposite d)); [destruct DD; subst; cbn; auto|apply C2]).
  rewrite S2 by (destruct C1 as (_ & _ & SD & _); apply SD; auto). cbn [fst].
  rewrite run_state_app, rest_same by (cbn; auto; try congruence; lia).
  rewrite (clean_open (opposite d) a2 m2 c2 _ q C2).
  2:{ cbn. lia. }
  2:{ cbn. intros X. exfalso. rewrite X in K1. rewrite K1 in K2. injection K2. destruct d; discriminate. }
  cbn [start_millis end_millis]. rewrite u32_small by lia. replace (time c1 - time a1 >? 10) with true by lia.
  match goal with |- context[Stroke (kind_of a2) (time a2) 0 :: ?q] => set (qq := q) end.
  pose proof (clean_close _ a2 m2 c2 (time a2) qq C2) as G2. destruct (step_gesture _ _ _ _ G2) as (_ & S3 & _).
  rewrite S3 by (destruct C2 as (_ & _ & SD & _); apply SD; auto). cbn [snd andb].
  assert (IT : is_twist (Stroke (kind_of a2) (time a2) (time c2) :: qq) = true); [|rewrite IT; reflexivity].
  unfold is_twist, qq, length_. cbn [nth type start_millis end_millis]. rewrite !u32_small by lia.
  apply andb_true_iff. split; [|lia]. apply andb_true_iff. split; [|lia].
  destruct DD; subst d; destruct (kind_of a1); try discriminate K1; destruct (kind_of a2); try discriminate K2; reflexivity.
Qed.

Lemma shake_group d a : d = Forward \/ d = Back -> moves a d -> ~ is_twist_call a.
Proof. intros H M X. destruct a; [|exact X]. destruct H; subst; destruct M. Qed.
Lemma shake_stroke d t k r :
  d = Forward \/ d = Back -> clean_thrust d t ->
  ~ (group (type k) = gr (first t) /\ end_millis k = 0) ->
  (type k = kind_of (first t) -> end_millis k <> 0 -> u32 (time (first t) - end_millis k) >= 50) -> time (stop t) <> 0 ->
  let k' := Stroke (kind_of (first t)) (time (first t)) (time (stop t)) :: (if u32 (end_millis k - start_millis k) >? 10 then k :: firstn 3 r else r) in
  let ev := In [EVENT_SHAKE] (run_outs step (k :: r) (calls t)) in
  (ev \/ run_state step (k :: r) (calls t) = k') /\ (shake_from k' 5 0 = true -> ev).
Proof.
  intros DD [C ST] RD LT T0 k' ev. destruct t as [a m c g]. unfold calls in *. cbn [first more stop rest] in *.
  assert (SA : run_state step (k :: r) (a :: m) = Stroke (kind_of a) (time a) 0 :: (if u32 (end_millis k - start_millis k) >? 10 then k :: firstn 3 r else r))
    by (apply (clean_open d a m c); auto).
  change (a :: m ++ c :: g) with ((a :: m) ++ c :: g) in *.
  assert (NT : ~ is_twist_call c). { destruct C as (MA & _ & SD & _). intros X. apply SD in X. revert X. apply (shake_group d); auto. }
  match type of SA with _ = _ :: ?q => set (qq := q) in * end.
  pose proof (clean_close d a m c (time a) qq C) as G. destruct (step_gesture _ _ _ _ G) as (_ & _ & S3). specialize (S3 NT eq_refl).
  fold k' in S3. assert (EV : shake_from k' 5 0 = true -> ev).
  { intros E. rewrite E in S3. unfold ev. rewrite run_outs_app, SA. apply in_or_app. right. cbn [run_outs]. rewrite S3. left. reflexivity. }
  split; [|exact EV]. destruct (shake_from k' 5 0) eqn:E; [left; auto|]. right.
  rewrite run_state_app, SA. cbn [run_state]. rewrite S3. cbn [fst]. apply rest_same; auto; cbn [type end_millis]; auto.
  destruct C as (MA & _). apply moves_kind in MA. congruence.
Qed.

Lemma shake_complete l0 t1 t2 t3 t4 t5 :
  let l := calls t1 ++ calls t2 ++ calls t3 ++ calls t4 ++ calls t5 in
  ordered 251 (l0 ++ l) -> rested l0 (first t1) (time (first t1)) ->
  clean_thrust Forward t1 -> clean_thrust Back t2 -> clean_thrust Forward t3 -> clean_thrust Back t4 -> clean_thrust Forward t5 ->
  time (stop t1) - time (first t1) > 10 -> time (stop t2) - time (first t2) > 10 -> time (stop t3) - time (first t3) > 10 -> time (stop t4) - time (first t4) > 10 ->
  time (first t2) - time (stop t1) <= 250 -> time (first t3) - time (stop t2) <= 250 -> time (first t4) - time (stop t3) <= 250 -> time (first t5) - time (stop t4) <= 250 ->
  In [EVENT_SHAKE] (skipn (length l0) (run_outs step strokes0 (l0 ++ l))).
Proof.
  intros l OR RE C1 C2 C3 C4 C5 D1 D2 D3 D4 G1 G2 G3 G4.
  assert (OR' := OR). unfold l in OR'. unfold calls in OR' at 1. cbn [app] in OR'.
  destruct (start_state l0 (first t1) _ _ OR' RE ltac:(lia)) as (k & r & E & LR & RD & LT).
  assert (LO : forall cs s, length (run_outs step s cs) = length cs). { clear. induction cs; intros; cbn; [auto|]. destruct (step s a). cbn. f_equal. auto. }
  rewrite run_outs_app, skipn_app, LO, Nat.sub_diag, E. rewrite skipn_all2 by (rewrite LO; lia). cbn [skipn app].
  destruct (ordered_split l0 _ _ OR) as (T0 & T0' & O & _).
  assert (ST : forall t lst T, 251 <= T -> ordered T (calls t ++ lst) -> 251 <= time (first t) <= time (stop t) /\ time (stop t) < 2 ^ 31 /\ ordered (time (stop t)) lst).
  { clear. intros [a m c g] lst T T1 H. unfold calls in *. cbn [first more stop rest] in *. cbn in H. destruct H as [H1 H]. rewrite <- app_assoc in H.
    destruct (ordered_split m _ _ H) as (T2 & T2' & O2 & _). cbn in O2. destruct O2 as [O2 O3]. destruct (ordered_split g _ _ O3) as (T3 & T3' & O4 & _).
    repeat apply conj; try lia. destruct lst; cbn in *; [auto|]. split; [lia|tauto]. }
  destruct (ST _ _ _ T0' O) as (S1 & S1' & O1). destruct (ST _ _ (time (stop t1)) ltac:(lia) O1) as (S2 & S2' & O2).
  destruct (ST _ _ (time (stop t2)) ltac:(lia) O2) as (S3 & S3' & O3). destruct (ST _ _ (time (stop t3)) ltac:(lia) O3) as (S4 & S4' & O4).
  rewrite <- (app_nil_r (calls t5)) in O4. destruct (ST _ _ (time (stop t4)) ltac:(lia) O4) as (S5 & S5' & _).
  assert (A2 : time (stop t1) <= time (first t2)) by (unfold calls in O1; cbn in O1; lia).
  assert (A3 : time (stop t2) <= time (first t3)) by (unfold calls in O2; cbn in O2; lia).
  assert (A4 : time (stop t3) <= time (first t4)) by (unfold calls in O3; cbn in O3; lia).
  assert (A5 : time (stop t4) <= time (first t5)) by (unfold calls in O4; cbn in O4; lia).
  assert (K1 : kind_of (first t1) = SHAKE_FWD) by (destruct C1 as [(M & _) _]; apply moves_kind in M; apply (kdir_inj _ _ _ M); reflexivity).
  assert (K2 : kind_of (first t2) = SHAKE_REW) by (destruct C2 as [(M & _) _]; apply moves_kind in M; apply (kdir_inj _ _ _ M); reflexivity).
  assert (K3 : kind_of (first t3) = SHAKE_FWD) by (destruct C3 as [(M & _) _]; apply moves_kind in M; apply (kdir_inj _ _ _ M); reflexivity).
  assert (K4 : kind_of (first t4) = SHAKE_REW) by (destruct C4 as [(M & _) _]; apply moves_kind in M; apply (kdir_inj _ _ _ M); reflexivity).
  assert (K5 : kind_of (first t5) = SHAKE_FWD) by (destruct C5 as [(M & _) _]; apply moves_kind in M; apply (kdir_inj _ _ _ M); reflexivity).
  unfold l. rewrite run_outs_app. rewrite in_app_iff.
  destruct (shake_stroke Forward t1 k r ltac:(auto) C1 RD ltac:(intros; apply LT; auto) ltac:(lia)) as [[Q|Q] _]; [auto|right]. rewrite Q. clear Q.
  rewrite run_outs_app, in_app_iff.
  match goal with |- context[Stroke (kind_of (first t1)) (time (first t1)) (time (stop t1)) :: ?q] => generalize q end. intros q1.
  destruct (shake_stroke Back t2 (Stroke (kind_of (first t1)) (time (first t1)) (time (stop t1))) q1 ltac:(auto) C2) as [[Q|Q] _];
    [cbn; lia|cbn; rewrite K1, K2; discriminate|lia|auto|right]. rewrite Q. clear Q. cbn [end_millis start_millis].
  rewrite (u32_small (time (stop t1) - time (first t1))) by lia. replace (time (stop t1) - time (first t1) >? 10) with true by lia.
  rewrite run_outs_app, in_app_iff.
  destruct (shake_stroke Forward t3 (Stroke (kind_of (first t2)) (time (first t2)) (time (stop t2))) (Stroke (kind_of (first t1)) (time (first t1)) (time (stop t1)) :: firstn 3 q1) ltac:(auto) C3) as [[Q|Q] _];
    [cbn; lia|cbn; rewrite K2, K3; discriminate|lia|auto|right]. rewrite Q. clear Q. cbn [end_millis start_millis].
  rewrite (u32_small (time (stop t2) - time (first t2))) by lia. replace (time (stop t2) - time (first t2) >? 10) with true by lia.
  rewrite run_outs_app, in_app_iff.
  destruct (shake_stroke Back t4 (Stroke (kind_of (first t3)) (time (first t3)) (time (stop t3)))
    (Stroke (kind_of (first t2)) (time (first t2)) (time (stop t2)) :: firstn 3 (Stroke (kind_of (first t1)) (time (first t1)) (time (stop t1)) :: firstn 3 q1)) ltac:(auto) C4) as [[Q|Q] _];
    [cbn; lia|cbn; rewrite K3, K4; discriminate|lia|auto|right]. rewrite Q. clear Q. cbn [end_millis start_millis].
  rewrite (u32_small (time (stop t3) - time (first t3))) by lia. replace (time (stop t3) - time (first t3) >? 10) with true by lia.
  match goal with |- In _ (run_outs step (_ :: ?q) _) => set (q4 := q) end.
  destruct (shake_stroke Forward t5 (Stroke (kind_of (first t4)) (time (first t4)) (time (stop t4))) q4 ltac:(auto) C5) as [_ Q];
    [cbn; lia|cbn; rewrite K4, K5; discriminate|lia|]. apply Q. clear Q. cbn [end_millis start_millis].
  rewrite (u32_small (time (stop t4) - time (first t4))) by lia. replace (time (stop t4) - time (first t4) >? 10) with true by lia.
  unfold q4. cbn [firstn shake_from nth type start_millis end_millis]. rewrite K1, K2, K3, K4, K5. rewrite !u32_small by lia.
  cbn [kind_eqb Nat.odd Nat.even negb andb]. lia.
Qed.

(** Swing *)
Lemma swing_state vs : run_state DetectSwing false vs = true <-> exists l1 w l2, vs = l1 ++ w :: l2 /\ w > 250 /\ Forall (fun x => 100 <= x) l2.
Proof.
  induction vs as [|v vs IH] using rev_ind.
  - cbn. split; [discriminate|]. intros (l1 & w & l2 & E & _). destruct l1; discriminate E.
  - assert (R : run_state DetectSwing false (vs ++ [v]) = fst (DetectSwing (run_state DetectSwing false vs) v)).
    { generalize false. clear. induction vs; intros; cbn [app run_state]; auto. }
    rewrite R. unfold DetectSwing at 1. destruct (run_state DetectSwing false vs) eqn:E; cbn [negb andb fst].
    + destruct IH as [IH _]. destruct (IH eq_refl) as (l1 & w & l2 & -> & W & F). destruct (v <? 100) eqn:V.
      * split; [discriminate|]. intros (l1' & w' & l2' & EQ & W' & F'). exfalso. destruct l2' as [|x l2' _] using rev_ind.
        -- apply app_inj_tail in EQ as [_ ->]. lia.
        -- rewrite app_comm_cons, app_assoc in EQ. apply app_inj_tail in EQ as [_ ->]. apply Forall_app in F' as [_ F']. inversion F'. lia.
      * split; [|auto]. intros _. exists l1, w, (l2 ++ [v]). rewrite <- app_assoc. split; [reflexivity|]. split; [auto|]. apply Forall_app. split; [auto|]. constructor; [lia|auto].
    + destruct (v >? 250) eqn:V; cbn [andb].
      * replace (v <? 100) with false by lia. split; [|auto]. intros _. exists vs, v, []. split; [auto|]. split; [lia|auto].
      * split; [discriminate|]. intros (l1' & w' & l2' & EQ & W' & F'). exfalso. destruct l2' as [|x l2' _] using rev_ind.
        -- apply app_inj_tail in EQ as [_ ->]. lia.
        -- rewrite app_comm_cons, app_assoc in EQ. apply app_inj_tail in EQ as [-> ->]. apply Forall_app in F' as [F' _].
           destruct IH as [_ IH]. assert (X : false = true) by (apply IH; exists l1', w', l2'; auto). discriminate X.
Qed.
Lemma swing_ok vs v : List.last (run_outs DetectSwing false (vs ++ [v])) false = true <->
  v > 250 /\ forall l1 w l2, vs = l1 ++ w :: l2 -> w > 250 -> exists x, In x l2 /\ x < 100.
Proof.
  assert (L : forall b, List.last (run_outs DetectSwing b (vs ++ [v])) false = snd (DetectSwing (run_state DetectSwing b vs) v)).
  { clear. induction vs as [|a vs IH]; intros b; [reflexivity|]. cbn [app run_state]. rewrite <- IH.
    assert (X : run_outs DetectSwing b (a :: vs ++ [v]) = snd (DetectSwing b a) :: run_outs DetectSwing (fst (DetectSwing b a)) (vs ++ [v])).
    { cbn [run_outs]. destruct (DetectSwing b a). reflexivity. }
    rewrite X. clear. generalize (fst (DetectSwing b a)). generalize (snd (DetectSwing b a)). intros o b'.
    assert (N : run_outs DetectSwing b' (vs ++ [v]) <> []) by (destruct vs; cbn [app run_outs]; destruct (DetectSwing _ _); discriminate).
    destruct (run_outs DetectSwing b' (vs ++ [v])); [congruence|reflexivity]. }
  rewrite L. cbn [DetectSwing snd]. rewrite andb_true_iff, negb_true_iff. split.
  - intros [A B]. split; [lia|]. intros l1 w l2 E W. destruct (Forall_Exists_dec (fun x => 100 <= x) (fun x => Z_le_dec 100 x) l2) as [F|F].
    + exfalso. assert (X : run_state DetectSwing false vs = true) by (apply swing_state; eauto 8). congruence.
    + apply Exists_exists in F as (x & X & F). exists x. split; [auto|lia].
  - intros [A B]. split; [|lia]. destruct (run_state DetectSwing false vs) eqn:E; [|auto]. exfalso.
    apply swing_state in E as (l1 & w & l2 & E & W & F). destruct (B l1 w l2 E W) as (x & X & X'). rewrite Forall_forall in F. specialize (F x X). cbn in F. lia.
Qed.
