(** Lemmas for LampProps.v. *)
From Coq Require Import ZArith List Bool Arith Lia ZifyBool ZifyNat.
From Verif Require Import Machine LampModel LampSpec.
Import ListNotations.
Open Scope Z_scope.

Lemma put_eq {A} (f : nat -> A) i x : put f i x i = x.
Proof. unfold put. rewrite Nat.eqb_refl. reflexivity. Qed.
Lemma put_ne {A} (f : nat -> A) i j x : i <> j -> put f i x j = f j.
Proof. intros H. unfold put. apply Nat.eqb_neq in H. rewrite H. reflexivity. Qed.

Definition b2z (b : bool) : Z := if b then 1 else 0.
Fixpoint count (f : nat -> bool) (l : list nat) : Z := match l with [] => 0 | x :: l => b2z (f x) + count f l end.
Lemma count_ext f g l : (forall x, In x l -> f x = g x) -> count f l = count g l.
Proof. induction l as [|x l IH]; intros H; cbn; [reflexivity|]. rewrite (H x) by (left; reflexivity). rewrite IH; auto. intros y Y. apply H. right. exact Y. Qed.
Lemma count_bound f l : 0 <= count f l <= Z.of_nat (length l).
Proof. induction l as [|x l IH]; cbn [count length]; [lia|]. unfold b2z. destruct (f x); lia. Qed.
Lemma count_flip f g l x : NoDup l -> In x l -> (forall y, y <> x -> f y = g y) -> f x = false -> g x = true -> count g l = count f l + 1.
Proof.
  induction l as [|a l IH]; intros N I E F G; [destruct I|]. inversion N; subst. cbn [count]. destruct I as [->|I].
  - rewrite F, G. unfold b2z. rewrite (count_ext g f l); [lia|]. intros y Y. symmetry. apply E. intros ->. contradiction.
  - rewrite (E a) by (intros ->; contradiction). rewrite (IH H2 I E F G). lia.
Qed.
Lemma count_pos f l : 0 < count f l <-> exists x, In x l /\ f x = true.
Proof.
  induction l as [|a l IH]; cbn [count]; [split; [lia|intros (x & [] & _)]|]. pose proof (count_bound f l). split.
  - intros H0. destruct (f a) eqn:E; [exists a; split; [left; reflexivity|exact E]|]. cbn in H0. destruct IH as [IH _]. destruct IH as (x & I & X); [lia|].
    exists x. split; [right; exact I|exact X].
  - intros (x & [->|I] & X); [rewrite X; unfold b2z; lia|]. destruct IH as [_ IH]. specialize (IH (ex_intro _ x (conj I X))). unfold b2z. destruct (f a); lia.
Qed.

Section Lamps.
Variable inst : nat -> nat.
Variable P : list nat.
Hypothesis ND : NoDup P.
Hypothesis SMALL : (length P <= 100)%nat.
Definition J : list nat := nodup Nat.eq_dec (map inst P).
Lemma J_nodup : NoDup J. Proof. apply NoDup_nodup. Qed.
Lemma J_len : (length J <= length P)%nat.
Proof. rewrite <- (map_length inst P). unfold J. apply NoDup_incl_length; [apply NoDup_nodup|]. intros x X. apply nodup_In in X. exact X. Qed.
Lemma J_in p : In p P -> In (inst p) J.
Proof. intros H. unfold J. apply nodup_In. apply in_map. exact H. Qed.

Definition users (h : hw) (i : nat) : Z := count (fun p => output h p && (inst p =? i)%nat) P.
Definition timers (h : hw) : Z := count (fun j => active h j && negb (j =? SYNC)%nat) J.
Record Good (h : hw) : Prop := {
  G1 : forall i, i <> SYNC -> use h i = users h i;
  G2 : use h SYNC = users h SYNC + timers h;
  G3 : forall i, active h i = (0 <? use h i) }.
Lemma users_bound h i : 0 <= users h i <= 100.
Proof. pose proof (count_bound (fun p => output h p && (inst p =? i)%nat) P). unfold users. lia. Qed.
Lemma timers_bound h : 0 <= timers h <= 100.
Proof. pose proof (count_bound (fun j => active h j && negb (j =? SYNC)%nat) J). pose proof J_len. unfold timers. lia. Qed.
Lemma users_put h h' p x i : In p P -> output h p = negb x -> (forall q, output h' q = put (output h) p x q) ->
  users h' i = users h i + (if (inst p =? i)%nat then (if x then 1 else -1) else 0).
Proof.
  intros I O E. unfold users. destruct (inst p =? i)%nat eqn:N.
  - destruct x.
    + apply (count_flip _ _ P p ND I).
      * intros y Y. rewrite E, put_ne by auto. reflexivity.
      * rewrite O. reflexivity.
      * rewrite E, put_eq, N. reflexivity.
    + rewrite (count_flip (fun p0 => output h' p0 && (inst p0 =? i)%nat) (fun p0 => output h p0 && (inst p0 =? i)%nat) P p ND I); [lia|..].
      * intros y Y. rewrite E, put_ne by auto. reflexivity.
      * rewrite E, put_eq. reflexivity.
      * rewrite O, N. reflexivity.
  - rewrite Z.add_0_r. apply count_ext. intros y Y. rewrite E. destruct (Nat.eq_dec p y) as [<-|M]; [rewrite N, !andb_false_r; reflexivity|].
    rewrite put_ne by exact M. reflexivity.
Qed.
Lemma timers_put h h' i x : In i J -> i <> SYNC -> active h i = negb x -> (forall j, j <> SYNC -> active h' j = put (active h) i x j) ->
  timers h' = timers h + (if x then 1 else -1).
Proof.
  intros I NS A E. unfold timers.
  assert (EQ : forall y, y <> i -> active h y && negb (y =? SYNC)%nat = active h' y && negb (y =? SYNC)%nat).
  { intros y Y. destruct (y =? SYNC)%nat eqn:YS; [rewrite !andb_false_r; reflexivity|]. apply Nat.eqb_neq in YS. rewrite E, put_ne by auto. reflexivity. }
  assert (IS : (i =? SYNC)%nat = false) by (apply Nat.eqb_neq; exact NS). destruct x.
  - apply (count_flip _ _ J i J_nodup I EQ).
    + rewrite A. reflexivity.
    + rewrite E, put_eq, IS by auto. reflexivity.
  - rewrite (count_flip (fun j => active h' j && negb (j =? SYNC)%nat) (fun j => active h j && negb (j =? SYNC)%nat) J i J_nodup I); [lia|..].
    + intros y Y. symmetry. apply EQ, Y.
    + rewrite E, put_eq by auto. reflexivity.
    + rewrite A, IS. reflexivity.
Qed.
Lemma timers_same h h' : (forall j, j <> SYNC -> active h' j = active h j) -> timers h' = timers h.
Proof.
  intros E. apply count_ext. intros j _. destruct (j =? SYNC)%nat eqn:S; [rewrite !andb_false_r; reflexivity|]. rewrite E by (apply Nat.eqb_neq; exact S). reflexivity.
Qed.
Lemma mod_small x : 0 <= x < 256 -> x mod 256 = x.
Proof. intros. apply Z.mod_small. lia. Qed.

(** Starting a pin *)
Lemma PinActivate_good h p : Good h -> In p P -> output h p = false ->
  Good (PinActivate inst p h) /\ (forall q, output (PinActivate inst p h) q = put (output h) p true q) /\
  (forall q, compare (PinActivate inst p h) q = put (compare h) p 0 q).
Proof.
  intros [A B C] I O. set (h' := PinActivate inst p h).
  assert (OUT : forall q, output h' q = put (output h) p true q).
  { intros q. unfold h', PinActivate, LSanalogWriteSetup, LSanalogWrite, SetupTimer, SetupSync. destruct (inst p =? SYNC)%nat; cbn; auto. destruct (active h (inst p)); reflexivity. }
  assert (CMP : forall q, compare h' q = put (compare h) p 0 q).
  { intros q. unfold h', PinActivate, LSanalogWriteSetup, LSanalogWrite, SetupTimer, SetupSync.
    destruct (inst p =? SYNC)%nat; cbn; [|destruct (active h (inst p)); cbn]; unfold put; destruct (p =? q)%nat; reflexivity. }
  split; [|auto].
  assert (US : forall i, users h' i = users h i + (if (inst p =? i)%nat then 1 else 0)) by (intros i; apply (users_put h h' p true i I O OUT)).
  pose proof (users_bound h SYNC) as BS. pose proof (timers_bound h) as BT. pose proof (users_bound h (inst p)) as BI.
  destruct (inst p =? SYNC)%nat eqn:S.
  - apply Nat.eqb_eq in S.
    assert (UU : use h' = put (use h) SYNC ((use h SYNC + 1) mod 256)). { unfold h', PinActivate, LSanalogWriteSetup, LSanalogWrite, SetupTimer, SetupSync. rewrite S. reflexivity. }
    assert (AA : active h' = if active h SYNC then active h else put (active h) SYNC true). { unfold h', PinActivate, LSanalogWriteSetup, LSanalogWrite, SetupTimer, SetupSync. rewrite S. reflexivity. }
    assert (TT : timers h' = timers h). { apply timers_same. intros j N. rewrite AA. destruct (active h SYNC); [reflexivity|]. apply put_ne. auto. }
    constructor.
    + intros i N. rewrite UU, put_ne by auto. rewrite US, S. replace (SYNC =? i)%nat with false by (symmetry; apply Nat.eqb_neq; auto). rewrite A by exact N. lia.
    + rewrite UU, put_eq, TT, US, S, Nat.eqb_refl, B. rewrite mod_small; lia.
    + intros i. rewrite UU, AA. destruct (Nat.eq_dec SYNC i) as [<-|N].
      * rewrite put_eq, B. rewrite mod_small by lia. replace (0 <? _) with true by lia. destruct (active h SYNC) eqn:E; [exact E|apply put_eq].
      * rewrite put_ne by exact N. destruct (active h SYNC); [apply C|]. rewrite put_ne by exact N. apply C.
  - apply Nat.eqb_neq in S. assert (SF : (inst p =? SYNC)%nat = false) by (apply Nat.eqb_neq; exact S).
    destruct (active h (inst p)) eqn:E.
    + assert (UU : use h' = put (use h) (inst p) ((use h (inst p) + 1) mod 256)). { unfold h', PinActivate, LSanalogWriteSetup, LSanalogWrite, SetupTimer. rewrite SF. cbn. rewrite E. reflexivity. }
      assert (AA : active h' = active h). { unfold h', PinActivate, LSanalogWriteSetup, LSanalogWrite, SetupTimer. rewrite SF. cbn. rewrite E. reflexivity. }
      assert (TT : timers h' = timers h) by (apply timers_same; intros; rewrite AA; reflexivity).
      constructor.
      * intros i N. rewrite UU, US. destruct (Nat.eq_dec (inst p) i) as [<-|M].
        -- rewrite put_eq, Nat.eqb_refl, A by exact S. rewrite mod_small; lia.
        -- rewrite put_ne by exact M. replace (inst p =? i)%nat with false by (symmetry; apply Nat.eqb_neq; exact M). rewrite A by exact N. lia.
      * rewrite UU, put_ne, US, SF, TT, B by exact S. lia.
      * intros i. rewrite UU, AA, C. destruct (Nat.eq_dec (inst p) i) as [<-|M]; [|rewrite put_ne by exact M; reflexivity].
        rewrite put_eq. specialize (C (inst p)). rewrite A in C |- * by exact S. rewrite mod_small by lia. lia.
    + assert (U0 : use h (inst p) = 0). { specialize (C (inst p)). rewrite E, A in C by exact S. rewrite A by exact S. lia. }
      assert (UU : use h' = put (put (use h) (inst p) ((use h (inst p) + 1) mod 256)) SYNC ((put (use h) (inst p) ((use h (inst p) + 1) mod 256) SYNC + 1) mod 256)).
      { unfold h', PinActivate, LSanalogWriteSetup, LSanalogWrite, SetupTimer, SetupSync. rewrite SF. cbn. rewrite E. reflexivity. }
      assert (AA : active h' = if put (active h) (inst p) true SYNC then put (active h) (inst p) true else put (put (active h) (inst p) true) SYNC true).
      { unfold h', PinActivate, LSanalogWriteSetup, LSanalogWrite, SetupTimer, SetupSync. rewrite SF. cbn. rewrite E. reflexivity. }
      assert (TT : timers h' = timers h + 1).
      { apply (timers_put h h' (inst p) true (J_in p I) S E). intros j N. rewrite AA. destruct (put (active h) (inst p) true SYNC); [reflexivity|]. rewrite put_ne by auto. reflexivity. }
      constructor.
      * intros i N. rewrite UU, put_ne, US by auto. destruct (Nat.eq_dec (inst p) i) as [<-|M].
        -- rewrite put_eq, Nat.eqb_refl, <- A, U0 by exact S. reflexivity.
        -- rewrite put_ne by exact M. replace (inst p =? i)%nat with false by (symmetry; apply Nat.eqb_neq; exact M). rewrite A by exact N. lia.
      * rewrite UU, put_eq, put_ne, US, SF, TT, B by exact S. rewrite mod_small; lia.
      * intros i. rewrite UU, AA, (put_ne (active h)), (put_ne (use h) _ SYNC) by exact S. destruct (Nat.eq_dec SYNC i) as [<-|M].
        -- rewrite put_eq, B. rewrite mod_small by lia. replace (0 <? _) with true by lia. destruct (active h SYNC) eqn:E2; [rewrite put_ne by exact S; exact E2|apply put_eq].
        -- rewrite put_ne by exact M. assert (X : put (active h) (inst p) true i = (0 <? put (use h) (inst p) ((use h (inst p) + 1) mod 256) i)).
           { destruct (Nat.eq_dec (inst p) i) as [<-|N2]; [rewrite !put_eq, U0; reflexivity|]. rewrite !put_ne by exact N2. apply C. }
           destruct (active h SYNC); [exact X|]. rewrite put_ne by exact M. exact X.
Qed.
(** Stopping a pin *)
Lemma PinDeactivate_good h p : Good h -> In p P -> output h p = true ->
  Good (PinDeactivate inst p h) /\ (forall q, output (PinDeactivate inst p h) q = put (output h) p false q) /\
  (forall q, compare (PinDeactivate inst p h) q = compare h q).
Proof.
  intros [A B C] I O. set (h' := PinDeactivate inst p h).
  assert (OUT : forall q, output h' q = put (output h) p false q).
  { intros q. unfold h', PinDeactivate, LSanalogWriteTeardown, TeardownTimer, TeardownSync. destruct (inst p =? SYNC)%nat; cbn; auto. destruct (_ =? 0); reflexivity. }
  assert (CMP : forall q, compare h' q = compare h q).
  { intros q. unfold h', PinDeactivate, LSanalogWriteTeardown, TeardownTimer, TeardownSync. destruct (inst p =? SYNC)%nat; cbn; auto. destruct (_ =? 0); reflexivity. }
  split; [|auto].
  assert (US : forall i, users h' i = users h i + (if (inst p =? i)%nat then -1 else 0)) by (intros i; apply (users_put h h' p false i I O OUT)).
  pose proof (users_bound h SYNC) as BS. pose proof (timers_bound h) as BT. pose proof (users_bound h (inst p)) as BI.
  pose proof (users_bound h' SYNC) as BS'. pose proof (timers_bound h') as BT'. pose proof (users_bound h' (inst p)) as BI'.
  assert (UP : 1 <= users h (inst p)). { rewrite US, Nat.eqb_refl in BI'. lia. }
  destruct (inst p =? SYNC)%nat eqn:S.
  - apply Nat.eqb_eq in S.
    assert (UU : use h' = put (use h) SYNC ((use h SYNC - 1) mod 256)). { unfold h', PinDeactivate, LSanalogWriteTeardown, TeardownTimer, TeardownSync. rewrite S. reflexivity. }
    assert (AA : active h' = if (use h SYNC - 1) mod 256 =? 0 then put (active h) SYNC false else active h). { unfold h', PinDeactivate, LSanalogWriteTeardown, TeardownTimer, TeardownSync. rewrite S. reflexivity. }
    assert (TT : timers h' = timers h). { apply timers_same. intros j N. rewrite AA. destruct (_ =? 0); [|reflexivity]. apply put_ne. auto. }
    rewrite S in UP. rewrite mod_small in UU, AA by lia.
    constructor.
    + intros i N. rewrite UU, put_ne by auto. rewrite US, S. replace (SYNC =? i)%nat with false by (symmetry; apply Nat.eqb_neq; auto). rewrite A by exact N. lia.
    + rewrite UU, put_eq, TT, US, S, Nat.eqb_refl, B. lia.
    + intros i. rewrite UU, AA. destruct (Nat.eq_dec SYNC i) as [<-|N].
      * rewrite put_eq. destruct (use h SYNC - 1 =? 0) eqn:Z0; [rewrite put_eq; lia|]. rewrite C. lia.
      * rewrite put_ne by exact N. destruct (_ =? 0); [|apply C]. rewrite put_ne by exact N. apply C.
  - apply Nat.eqb_neq in S. assert (SF : (inst p =? SYNC)%nat = false) by (apply Nat.eqb_neq; exact S).
    assert (AP : active h (inst p) = true) by (rewrite C, A by exact S; lia).
    pose proof (A (inst p) S) as AI. set (n := use h (inst p) - 1) in *. assert (NM : (use h (inst p) - 1) mod 256 = n) by (apply mod_small; lia).
    destruct (n =? 0) eqn:E.
    + assert (UU : use h' = put (put (use h) (inst p) n) SYNC ((put (use h) (inst p) n SYNC - 1) mod 256)).
      { unfold h', PinDeactivate, LSanalogWriteTeardown, TeardownTimer, TeardownSync. rewrite SF. cbn. rewrite NM, E. reflexivity. }
      assert (AA : active h' = if (put (use h) (inst p) n SYNC - 1) mod 256 =? 0 then put (put (active h) (inst p) false) SYNC false else put (active h) (inst p) false).
      { unfold h', PinDeactivate, LSanalogWriteTeardown, TeardownTimer, TeardownSync. rewrite SF. cbn. rewrite NM, E. reflexivity. }
      assert (TT : timers h' = timers h + -1).
      { apply (timers_put h h' (inst p) false (J_in p I) S AP). intros j N. rewrite AA. destruct ((put (use h) (inst p) n SYNC - 1) mod 256 =? 0); [|reflexivity]. apply put_ne. auto. }
      rewrite (put_ne (use h) _ SYNC) in UU, AA by exact S. rewrite mod_small in UU, AA by lia.
      constructor.
      * intros i N. rewrite UU, put_ne, US by auto. destruct (Nat.eq_dec (inst p) i) as [<-|M].
        -- rewrite put_eq, Nat.eqb_refl. lia.
        -- rewrite put_ne by exact M. replace (inst p =? i)%nat with false by (symmetry; apply Nat.eqb_neq; exact M). rewrite A by exact N. lia.
      * rewrite UU, put_eq, US, SF, TT, B. lia.
      * intros i. rewrite UU, AA. destruct (Nat.eq_dec SYNC i) as [<-|M].
        -- rewrite put_eq. destruct (use h SYNC - 1 =? 0) eqn:Z0; [rewrite put_eq; lia|]. rewrite put_ne by exact S. rewrite C. lia.
        -- rewrite put_ne by exact M. assert (X : put (active h) (inst p) false i = (0 <? put (use h) (inst p) n i)).
           { destruct (Nat.eq_dec (inst p) i) as [<-|N2]; [rewrite !put_eq; lia|]. rewrite !put_ne by exact N2. apply C. }
           destruct (use h SYNC - 1 =? 0); [|exact X]. rewrite put_ne by exact M. exact X.
    + assert (UU : use h' = put (use h) (inst p) n).
      { unfold h', PinDeactivate, LSanalogWriteTeardown, TeardownTimer. rewrite SF. cbn. rewrite NM, E. reflexivity. }
      assert (AA : active h' = active h). { unfold h', PinDeactivate, LSanalogWriteTeardown, TeardownTimer. rewrite SF. cbn. rewrite NM, E. reflexivity. }
      assert (TT : timers h' = timers h) by (apply timers_same; intros; rewrite AA; reflexivity).
      constructor.
      * intros i N. rewrite UU, US. destruct (Nat.eq_dec (inst p) i) as [<-|M].
        -- rewrite put_eq, Nat.eqb_refl. lia.
        -- rewrite put_ne by exact M. replace (inst p =? i)%nat with false by (symmetry; apply Nat.eqb_neq; exact M). rewrite A by exact N. lia.
      * rewrite UU, put_ne, US, SF, TT, B by exact S. lia.
      * intros i. rewrite UU, AA, C. destruct (Nat.eq_dec (inst p) i) as [<-|M]; [|rewrite put_ne by exact M; reflexivity]. rewrite put_eq. lia.
Qed.
End Lamps.

Section Lists.
Variable inst : nat -> nat.
Variable P : list nat.
Hypothesis ND : NoDup P.
Hypothesis SMALL : (length P <= 100)%nat.
Lemma PinsActivate_good ps : forall h, Good inst P h -> NoDup ps -> incl ps P -> (forall p, In p ps -> output h p = false) ->
  let h' := PinsActivate inst ps h in
  Good inst P h' /\ (forall q, output h' q = if in_dec Nat.eq_dec q ps then true else output h q) /\
  (forall q, compare h' q = if in_dec Nat.eq_dec q ps then 0 else compare h q).
Proof.
  induction ps as [|p ps IH]; intros h G N I O; cbn zeta.
  - cbn. auto.
  - inversion N; subst. destruct (PinActivate_good inst P ND SMALL h p G) as (G' & OO & CC); [apply I; left; reflexivity|apply O; left; reflexivity|].
    destruct (IH (PinActivate inst p h) G' H2) as (G2' & O2 & C2).
    { intros x X. apply I. right. exact X. }
    { intros x X. rewrite OO. rewrite put_ne by (intros ->; contradiction). apply O. right. exact X. }
    change (PinsActivate inst (p :: ps) h) with (PinsActivate inst ps (PinActivate inst p h)). split; [exact G2'|]. split; intros q.
    + rewrite O2. destruct (in_dec Nat.eq_dec q ps); destruct (in_dec Nat.eq_dec q (p :: ps)) as [Y|Y]; auto.
      * exfalso. apply Y. right. assumption.
      * destruct Y as [->|Y]; [|contradiction]. rewrite OO. apply put_eq.
      * rewrite OO. apply put_ne. intros ->. apply Y. left. reflexivity.
    + rewrite C2. destruct (in_dec Nat.eq_dec q ps); destruct (in_dec Nat.eq_dec q (p :: ps)) as [Y|Y]; auto.
      * exfalso. apply Y. right. assumption.
      * destruct Y as [->|Y]; [|contradiction]. rewrite CC. apply put_eq.
      * rewrite CC. apply put_ne. intros ->. apply Y. left. reflexivity.
Qed.
Lemma PinsDeactivate_good ps : forall h, Good inst P h -> NoDup ps -> incl ps P -> (forall p, In p ps -> output h p = true) ->
  let h' := PinsDeactivate inst ps h in
  Good inst P h' /\ (forall q, output h' q = if in_dec Nat.eq_dec q ps then false else output h q) /\
  (forall q, compare h' q = compare h q).
Proof.
  induction ps as [|p ps IH]; intros h G N I O; cbn zeta.
  - cbn. auto.
  - inversion N; subst. destruct (PinDeactivate_good inst P ND SMALL h p G) as (G' & OO & CC); [apply I; left; reflexivity|apply O; left; reflexivity|].
    destruct (IH (PinDeactivate inst p h) G' H2) as (G2' & O2 & C2).
    { intros x X. apply I. right. exact X. }
    { intros x X. rewrite OO. rewrite put_ne by (intros ->; contradiction). apply O. right. exact X. }
    change (PinsDeactivate inst (p :: ps) h) with (PinsDeactivate inst ps (PinDeactivate inst p h)). split; [exact G2'|]. split; intros q.
    + rewrite O2. destruct (in_dec Nat.eq_dec q ps); destruct (in_dec Nat.eq_dec q (p :: ps)) as [Y|Y]; auto.
      * exfalso. apply Y. right. assumption.
      * destruct Y as [->|Y]; [|contradiction]. rewrite OO. apply put_eq.
      * rewrite OO. apply put_ne. intros ->. apply Y. left. reflexivity.
    + rewrite C2. apply CC.
Qed.
(** Setting LEDs *)
Definition write_all (pvs : list (nat * Z)) (h : hw) : hw := fold_left (fun h pv => LSanalogWrite (fst pv) (snd pv) h) pvs h.
Lemma write_all_same pvs : forall h, let h' := write_all pvs h in use h' = use h /\ active h' = active h /\ output h' = output h.
Proof. induction pvs as [|[p v] pvs IH]; intros h; cbn zeta; [cbn; auto|]. destruct (IH (LSanalogWrite p v h)) as (A & B & C). split; [exact A|split; [exact B|exact C]]. Qed.
Lemma write_all_other pvs : forall h q, ~ In q (map fst pvs) -> compare (write_all pvs h) q = compare h q.
Proof.
  induction pvs as [|[p v] pvs IH]; intros h q H; [reflexivity|]. cbn in *. change (compare (write_all pvs (LSanalogWrite p v h)) q = compare h q).
  rewrite IH by auto. cbn. apply put_ne. auto.
Qed.
Lemma write_all_set pvs : forall h q v, NoDup (map fst pvs) -> In (q, v) pvs -> compare (write_all pvs h) q = v.
Proof.
  induction pvs as [|[p w] pvs IH]; intros h q v N I; [destruct I|]. inversion N; subst. change (write_all ((p, w) :: pvs) h) with (write_all pvs (LSanalogWrite p w h)).
  destruct I as [E|I]; [|apply IH; auto]. injection E as -> ->. rewrite write_all_other by exact H1. cbn. apply put_eq.
Qed.
Lemma good_same h h' : use h' = use h -> active h' = active h -> output h' = output h -> Good inst P h -> Good inst P h'.
Proof.
  intros U A O [X Y Z]. constructor; intros; unfold users, timers in *; rewrite ?U, ?A, ?O; auto.
Qed.

(** All of it, seen from one blade with pins [pins d] in [P] *)
Definition fits (h : hw) (d : blade) : Prop := forall p, In p (pins d) -> output h p = power_ d.
Record Sound (h : hw) (d : blade) (h' : hw) (d' : blade) : Prop := {
  S1 : Good inst P h'; S2 : fits h' d'; S3 : pins d' = pins d;
  S4 : forall q, ~ In q (pins d) -> output h' q = output h q /\ compare h' q = compare h q;
  S5 : linked d' = true -> on_ d' = true -> power_ d' = true;
  S6 : power_ d = false -> power_ d' = true -> forall q, In q (pins d) -> compare h' q = 0 }.
Lemma Power_sound on h d : Good inst P h -> fits h d -> NoDup (pins d) -> incl (pins d) P ->
  let '(h', d') := Power inst on h d in
  Good inst P h' /\ fits h' d' /\ pins d' = pins d /\ (forall q, ~ In q (pins d) -> output h' q = output h q /\ compare h' q = compare h q) /\
  on_ d' = on_ d /\ linked d' = linked d /\ power_ d' = on /\ (power_ d = false -> on = true -> forall q, In q (pins d) -> compare h' q = 0).
Proof.
  intros G F N I. unfold Power. destruct (Bool.eqb (power_ d) on) eqn:E.
  - apply eqb_prop in E. split; [exact G|]. split; [exact F|]. repeat split; auto. intros X Y. congruence.
  - destruct on.
    + assert (PD : power_ d = false) by (destruct (power_ d); [discriminate|reflexivity]).
      destruct (PinsActivate_good (pins d) h G N I) as (A & B & C). { intros p X. rewrite F by exact X. exact PD. }
      split; [exact A|]. split. { intros p X. cbn in X |- *. rewrite B. destruct (in_dec Nat.eq_dec p (pins d)); [reflexivity|contradiction]. }
      cbn. split; [reflexivity|]. split. { intros q X. rewrite B, C. destruct (in_dec Nat.eq_dec q (pins d)); [contradiction|auto]. }
      repeat split; auto. intros _ _ q X. rewrite C. destruct (in_dec Nat.eq_dec q (pins d)); [reflexivity|contradiction].
    + assert (PD : power_ d = true) by (destruct (power_ d); [reflexivity|discriminate]).
      destruct (PinsDeactivate_good (pins d) h G N I) as (A & B & C). { intros p X. rewrite F by exact X. exact PD. }
      split; [exact A|]. split. { intros p X. cbn in X |- *. rewrite B. destruct (in_dec Nat.eq_dec p (pins d)); [reflexivity|contradiction]. }
      cbn. split; [reflexivity|]. split. { intros q X. rewrite B, C. destruct (in_dec Nat.eq_dec q (pins d)); [contradiction|auto]. }
      repeat split; auto. discriminate.
Qed.
Lemma combine_fst (ps : list nat) (vs : list Z) q : In q (map fst (combine ps vs)) -> In q ps.
Proof. intros H. apply in_map_iff in H as ([a v] & <- & H). apply in_combine_l in H. exact H. Qed.
Lemma blade_step_sound o h d : Good inst P h -> fits h d -> NoDup (pins d) -> incl (pins d) P ->
  (linked d = true -> on_ d = true -> power_ d = true) ->
  let '(h', d') := blade_step inst o h d in Sound h d h' d'.
Proof.
  intros G F N I L.
  assert (ID : Sound h d h d) by (constructor; auto; congruence).
  assert (PW : forall on d0, pins d0 = pins d -> power_ d0 = power_ d -> (on = false -> on_ d0 = true -> linked d0 = false) ->
    let '(h', d') := Power inst on h d0 in Sound h d h' d').
  { intros on d0 EP EW EO. pose proof (Power_sound on h d0) as H. rewrite EP in H. unfold fits in H. rewrite EW, EP in H. specialize (H G F N I). destruct (Power inst on h d0) as [h' d'].
    destruct H as (A & B & C & D & E1 & E2 & E3 & E4).
    constructor; auto.
    - rewrite E1, E2, E3. intros X Y. destruct on; [reflexivity|]. rewrite EO in X by auto. discriminate.
    - rewrite E3. exact E4. }
  destruct o; cbn [blade_step].
  - unfold Activate. specialize (PW true d eq_refl eq_refl). destruct (Power inst true h d) as [h' d'] eqn:E.
    pose proof (Power_sound true h d G F N I) as Q. rewrite E in Q. destruct Q as (_ & _ & _ & _ & Q1 & Q2 & Q3 & _).
    destruct PW as [A B C D E5 E6]; [discriminate|]. constructor; auto.
  - unfold Deactivate. pose proof (Power_sound false h d G F N I) as Q. destruct (Power inst false h d) as [h' d'] eqn:E.
    destruct Q as (Q1 & Q2 & Q3 & Q4 & Q5 & Q6 & Q7 & Q8). constructor; auto; cbn; try discriminate. rewrite Q7. discriminate.
  - apply (PW true d eq_refl eq_refl). discriminate.
  - unfold SB_On2. destruct (linked d) eqn:LK; [|exact ID]. apply (PW true (Blade (pins d) true (power_ d) true) eq_refl eq_refl). discriminate.
  - unfold SB_Effect2. destruct (linked d) eqn:LK; [|exact ID]. apply (PW true d eq_refl eq_refl). discriminate.
  - unfold SB_Off2. destruct (linked d) eqn:LK; [|exact ID]. destruct idle.
    + apply (PW false (Blade (pins d) false (power_ d) true) eq_refl eq_refl). discriminate.
    + constructor; auto; cbn; try discriminate. congruence.
  - unfold Loop. destruct (linked d && power_ d) eqn:LK; [|exact ID].
    assert (W : forall h1 d1, Sound h d h1 d1 -> Sound h d (write_all (combine (pins d1) values) h1) d1).
    { intros h1 d1 [A B C D E1 E2]. destruct (write_all_same (combine (pins d1) values) h1) as (X & Y & Z). constructor; auto.
      - apply good_same with h1; auto.
      - intros p Hp. rewrite Z. apply B, Hp.
      - intros q Q. rewrite Z, write_all_other; [apply D, Q|]. intros R. apply combine_fst in R. rewrite C in R. contradiction.
      - apply andb_prop in LK as [_ LK]. congruence. }
    destruct (disable && negb (on_ d)) eqn:E.
    + specialize (PW false d eq_refl eq_refl). destruct (Power inst false h d) as [h1 d1] eqn:EP. apply (W h1 d1). apply PW. intros _ O. rewrite O in E. destruct disable; discriminate.
    + apply (W h d). exact ID.
Qed.
End Lists.

Section All.
Variable inst : nat -> nat.
Variable l : list (list nat).
Hypothesis SB : saber l.
Let P := concat l.
Record Inv (s : state) : Prop := {
  V1 : map pins (blades s) = l;
  V2 : Good inst P (hw_ s);
  V3 : forall d, In d (blades s) -> fits (hw_ s) d;
  V4 : forall d, In d (blades s) -> linked d = true -> on_ d = true -> power_ d = true }.
Lemma concat_in (d : blade) ds : In d ds -> incl (pins d) (concat (map pins ds)).
Proof. intros H p X. apply in_concat. exists (pins d). split; [apply in_map; exact H|exact X]. Qed.
Lemma nodup_app_l {A} (x y : list A) : NoDup (x ++ y) -> NoDup x /\ NoDup y /\ (forall a, In a x -> ~ In a y).
Proof.
  induction x as [|a x IH]; cbn; intros H; [repeat split; auto; constructor|]. inversion H; subst. destruct (IH H3) as (A1 & A2 & A3).
  split; [constructor; [intros X; apply H2, in_or_app; auto|exact A1]|]. split; [exact A2|]. intros b [<-|X] Y; [apply H2, in_or_app; auto|]. apply (A3 b X Y).
Qed.
Lemma nodup_part ds1 d ds2 : NoDup (concat (map pins (ds1 ++ d :: ds2))) ->
  NoDup (pins d) /\ (forall e p, In e (ds1 ++ ds2) -> In p (pins e) -> ~ In p (pins d)).
Proof.
  rewrite map_app, concat_app. cbn [map concat]. intros H. apply nodup_app_l in H as (A & B & C). apply nodup_app_l in B as (D & E & F).
  split; [exact D|]. intros e p I X Y. apply in_app_or in I as [I|I].
  - apply (C p); [apply (concat_in e); auto|]. apply in_or_app. left. exact Y.
  - apply (F p Y). apply (concat_in e); auto.
Qed.
Lemma step_shape s k o d : nth_error (blades s) k = Some d ->
  exists ds1 ds2, blades s = ds1 ++ d :: ds2 /\ length ds1 = k /\
  step inst s (k, o) = State (fst (blade_step inst o (hw_ s) d)) (ds1 ++ snd (blade_step inst o (hw_ s) d) :: ds2).
Proof.
  intros H. destruct (nth_error_split _ _ H) as (a & b & E & L). exists a, b. split; [exact E|]. split; [exact L|].
  unfold step. cbn [fst snd]. rewrite H. destruct (blade_step inst o (hw_ s) d) as [h' d']. cbn [fst snd]. rewrite E.
  rewrite firstn_app, <- L, Nat.sub_diag, firstn_all. cbn [firstn]. rewrite app_nil_r.
  replace (skipn (S (length a)) (a ++ d :: b)) with b; [reflexivity|]. rewrite skipn_app, skipn_all2 by lia. replace (S (length a) - length a)%nat with 1%nat by lia. reflexivity.
Qed.
Lemma inv_sound s k o d : Inv s -> nth_error (blades s) k = Some d ->
  Sound inst P (hw_ s) d (fst (blade_step inst o (hw_ s) d)) (snd (blade_step inst o (hw_ s) d)).
Proof.
  intros [A B C D] H. destruct (nth_error_split _ _ H) as (a & b & E & L). pose proof (nth_error_In _ _ H) as I. destruct SB as [N M].
  pose proof (blade_step_sound inst P N M o (hw_ s) d B (C d I)) as Q.
  assert (NP : NoDup (pins d)). { apply (nodup_part a d b). rewrite <- E, A. exact N. }
  assert (IP : incl (pins d) P). { unfold P. rewrite <- A. apply concat_in, I. }
  specialize (Q NP IP (D d I)). destruct (blade_step inst o (hw_ s) d) as [h' d']. exact Q.
Qed.
Lemma others s k d e p : Inv s -> nth_error (blades s) k = Some d -> forall j, j <> k -> nth_error (blades s) j = Some e -> In p (pins e) -> ~ In p (pins d).
Proof.
  intros [A _ _ _] H j J1 J2 X. destruct (nth_error_split _ _ H) as (a & b & E & L). destruct SB as [N M].
  apply (proj2 (nodup_part a d b ltac:(rewrite <- E, A; exact N)) e p); [|exact X]. rewrite E in J2. apply in_or_app.
  destruct (lt_eq_lt_dec j k) as [[J3|J3]|J3]; [|contradiction|].
  - left. rewrite nth_error_app1 in J2 by lia. apply nth_error_In in J2. exact J2.
  - right. rewrite nth_error_app2 in J2 by lia. destruct (j - length a)%nat eqn:Q; [lia|]. cbn in J2. apply nth_error_In in J2. exact J2.
Qed.
Lemma inv_step s ko : Inv s -> Inv (step inst s ko).
Proof.
  intros V. destruct ko as [k o]. destruct (nth_error (blades s) k) as [d|] eqn:H; [|unfold step; cbn [fst]; rewrite H; exact V].
  destruct (step_shape s k o d H) as (a & b & E & L & ->). pose proof (inv_sound s k o d V H) as [A B C D F G].
  destruct V as [V1 V2 V3 V4]. set (h' := fst (blade_step inst o (hw_ s) d)) in *. set (d' := snd (blade_step inst o (hw_ s) d)) in *.
  destruct SB as [N M].
  assert (NO : forall e p, In e (a ++ b) -> In p (pins e) -> ~ In p (pins d)). { apply (nodup_part a d b). rewrite <- E, V1. exact N. }
  constructor; cbn [hw_ blades].
  - rewrite <- V1, E, !map_app. cbn [map]. rewrite C. reflexivity.
  - exact A.
  - intros e I. assert (OTH : In e (a ++ b) -> fits h' e).
    { intros J p X. rewrite (proj1 (D p (NO e p J X))). apply V3; auto. rewrite E. apply in_app_or in J as [J|J]; apply in_or_app; cbn; auto. }
    apply in_app_or in I as [I|[<-|I]]; auto; apply OTH, in_or_app; auto.
  - intros e I. apply in_app_or in I as [I|[<-|I]]; auto; apply V4; rewrite E; apply in_or_app; cbn; auto.
Qed.
Lemma inv_init : Inv (state0 l).
Proof.
  constructor; cbn [hw_ blades state0].
  - rewrite map_map. cbn. apply map_id.
  - constructor; cbn; auto; intros; unfold users, timers.
    + symmetry. apply Z.le_antisymm; [|apply count_bound]. rewrite (count_ext _ (fun _ => false)) by reflexivity. clear. induction P; cbn; lia.
    + rewrite (count_ext _ (fun _ => false)) by reflexivity. rewrite (count_ext _ (fun _ => false) (J _ _)) by reflexivity. assert (X : forall q, count (fun _ => false) q = 0) by (induction q; cbn; lia). rewrite !X. reflexivity.
  - intros d I. apply in_map_iff in I as (x & <- & I). intros p X. reflexivity.
  - intros d I. apply in_map_iff in I as (x & <- & I). discriminate.
Qed.
Lemma inv_after ops : Inv (after inst l ops).
Proof. unfold after. induction ops as [|o ops IH] using rev_ind; [apply inv_init|]. rewrite run_snoc. apply inv_step, IH. Qed.

Lemma blade_in s k d : blade_at s k d -> In d (blades s).
Proof. apply nth_error_In. Qed.
Lemma on_powered ops k d : blade_at (after inst l ops) k d -> linked d = true -> on_ d = true -> power_ d = true.
Proof. intros B. apply (V4 _ (inv_after ops)). eapply blade_in; eauto. Qed.
Lemma active_iff s i : Inv s -> (active (hw_ s) i = true <-> needed inst s i).
Proof.
  intros V. pose proof (V2 _ V) as [A B C].
  assert (US : forall j, 0 < users inst P (hw_ s) j <-> exists d p, In d (blades s) /\ power_ d = true /\ In p (pins d) /\ inst p = j).
  { intros j. unfold users. rewrite count_pos. split.
    - intros (p & I & X). apply andb_prop in X as [X Y]. apply Nat.eqb_eq in Y. unfold P in I. rewrite <- (V1 _ V) in I. apply in_concat in I as (ps & I1 & I2).
      apply in_map_iff in I1 as (d & <- & I1). exists d, p. repeat split; auto. rewrite <- (V3 _ V d I1 p I2). exact X.
    - intros (d & p & I & X & Y & Z). exists p. split; [unfold P; rewrite <- (V1 _ V); apply (concat_in d); auto|]. rewrite (V3 _ V d I p Y), X, Z, Nat.eqb_refl. reflexivity. }
  assert (NS : forall j, j <> SYNC -> active (hw_ s) j = true <-> exists d p, In d (blades s) /\ power_ d = true /\ In p (pins d) /\ inst p = j).
  { intros j N. rewrite C, A, <- US by exact N. lia. }
  destruct (Nat.eq_dec i SYNC) as [->|N].
  - rewrite C, B. pose proof (users_bound inst P (proj2 SB) (hw_ s) SYNC). pose proof (timers_bound inst P (proj2 SB) (hw_ s)). split.
    + intros X. destruct (Z_lt_le_dec 0 (users inst P (hw_ s) SYNC)) as [U|U].
      * apply US in U as (d & p & U). exists d, p. tauto.
      * assert (T : 0 < timers inst P (hw_ s)) by lia. unfold timers in T. apply count_pos in T as (j & _ & T). apply andb_prop in T as [T1 T2].
        apply negb_true_iff, Nat.eqb_neq in T2. apply (NS j T2) in T1 as (d & p & T1). exists d, p. tauto.
    + intros (d & p & X1 & X2 & X3 & _). destruct (Nat.eq_dec (inst p) SYNC) as [Y|Y].
      * assert (0 < users inst P (hw_ s) SYNC) by (apply US; exists d, p; auto). lia.
      * assert (0 < timers inst P (hw_ s)); [|lia]. apply count_pos. exists (inst p). split.
        -- apply J_in. unfold P. rewrite <- (V1 _ V). apply (concat_in d); auto.
        -- replace (inst p =? SYNC)%nat with false by (symmetry; apply Nat.eqb_neq; exact Y). rewrite (proj2 (NS (inst p) Y)); [reflexivity|]. exists d, p. auto.
  - rewrite (NS i N). split; intros (d & p & X1 & X2 & X3 & X4); exists d, p; repeat split; auto. destruct X4 as [X4|X4]; [exact X4|contradiction].
Qed.
Lemma light_of s d p : Inv s -> In d (blades s) -> In p (pins d) -> lit_pin inst s p = if power_ d then compare (hw_ s) p else 0.
Proof.
  intros V I X. unfold lit_pin, light. rewrite (V3 _ V d I p X). destruct (power_ d) eqn:E; [|reflexivity].
  replace (active (hw_ s) (inst p)) with true; [reflexivity|]. symmetry. apply active_iff; auto. exists d, p. auto.
Qed.
Lemma after_at s k o d : blade_at s k d -> blade_at (step inst s (k, o)) k (snd (blade_step inst o (hw_ s) d)).
Proof.
  intros H. destruct (step_shape s k o d H) as (a & b & E & L & ->). unfold blade_at. cbn [blades]. rewrite nth_error_app2, L, Nat.sub_diag by lia. reflexivity.
Qed.
Lemma after_other s k o j e : j <> k -> blade_at s j e -> blade_at (step inst s (k, o)) j e.
Proof.
  intros N H. destruct (nth_error (blades s) k) as [d|] eqn:K; [|unfold step; cbn [fst]; rewrite K; exact H].
  destruct (step_shape s k o d K) as (a & b & E & L & ->). unfold blade_at in *. cbn [blades]. rewrite E in H.
  destruct (lt_eq_lt_dec j k) as [[J3|J3]|J3]; [|contradiction|].
  - rewrite nth_error_app1 in * by lia. exact H.
  - rewrite nth_error_app2 in * by lia. destruct (j - length a)%nat eqn:Q; [lia|]. exact H.
Qed.
Lemma others_light s k o j e p : Inv s -> j <> k -> blade_at s j e -> In p (pins e) -> lit_pin inst (step inst s (k, o)) p = lit_pin inst s p.
Proof.
  intros V N H X. destruct (nth_error (blades s) k) as [d|] eqn:K; [|unfold step; cbn [fst]; rewrite K; reflexivity].
  rewrite (light_of s e p V (blade_in _ _ _ H) X).
  rewrite (light_of (step inst s (k, o)) e p (inv_step s (k, o) V) (blade_in _ _ _ (after_other s k o j e N H)) X).
  destruct (step_shape s k o d K) as (a & b & E & L & ->). cbn [hw_]. pose proof (inv_sound s k o d V K) as Q.
  rewrite (proj2 (S4 _ _ _ _ _ _ Q p (others s k d e p V K j N H X))). reflexivity.
Qed.
Lemma fresh s k o d d' p : Inv s -> blade_at s k d -> power_ d = false -> blade_at (step inst s (k, o)) k d' -> power_ d' = true -> In p (pins d') ->
  lit_pin inst (step inst s (k, o)) p = 0.
Proof.
  intros V H PD H' PD' X. pose proof (light_of (step inst s (k, o)) d' p (inv_step s (k, o) V) (blade_in _ _ _ H') X) as LQ. rewrite LQ, PD'.
  pose proof (after_at s k o d H) as H2. unfold blade_at in *. rewrite H2 in H'. injection H' as <-.
  destruct (step_shape s k o d H) as (a & b & E & L & ->). cbn [hw_]. pose proof (inv_sound s k o d V H) as Q. apply (S6 _ _ _ _ _ _ Q PD PD'). rewrite <- (S3 _ _ _ _ _ _ Q). exact X.
Qed.
Lemma Power_power on h d : power_ (snd (Power inst on h d)) = on.
Proof. unfold Power. destruct (Bool.eqb (power_ d) on) eqn:E; [apply eqb_prop in E; exact E|reflexivity]. Qed.
Lemma shown s k d dis vs i p v : Inv s -> blade_at s k d -> linked d = true -> power_ d = true -> (on_ d = true \/ dis = false) ->
  nth_error (pins d) i = Some p -> nth_error vs i = Some v -> lit_pin inst (step inst s (k, Run dis vs)) p = v.
Proof.
  intros V H LD PD O HP HV. pose proof (after_at s k (Run dis vs) d H) as H2.
  assert (BS : blade_step inst (Run dis vs) (hw_ s) d = (write_all (combine (pins d) vs) (hw_ s), d)).
  { cbn [blade_step]. unfold Loop. rewrite LD, PD. cbn [andb]. replace (dis && negb (on_ d)) with false; [reflexivity|]. destruct O as [-> | ->]; [destruct dis|]; reflexivity. }
  rewrite BS in H2. cbn [snd] in H2.
  rewrite (light_of (step inst s (k, Run dis vs)) d p (inv_step s (k, Run dis vs) V) (blade_in _ _ _ H2) (nth_error_In _ _ HP)), PD.
  destruct (step_shape s k (Run dis vs) d H) as (a & b & E & L & ->). cbn [hw_]. rewrite BS. cbn [fst]. apply write_all_set.
  - assert (NP : NoDup (pins d)). { apply (nodup_part a d b). rewrite <- E, (V1 _ V). apply SB. }
    clear -NP. revert vs. induction (pins d) as [|x q IH]; intros [|w vs]; cbn; try constructor. + intros X. apply combine_fst in X. inversion NP; contradiction.
    + apply IH. inversion NP; assumption.
  - clear -HP HV. revert vs i HP HV. induction (pins d) as [|x q IH]; intros [|w vs] [|i] HP HV; cbn in *; try discriminate; [injection HP as ->; injection HV as ->; auto|]. right. eapply IH; eauto.
Qed.
End All.
