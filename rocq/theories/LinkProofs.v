(** Proofs about the list of background tasks. *)
From Coq Require Import List Bool PeanoNat Lia.
From Verif Require Import LinkModel LinkSpec.
Import ListNotations.

Fixpoint chain (nx : nat -> option nat) (p : option nat) (l : list nat) : Prop :=
  match l with [] => p = None | x :: l => p = Some x /\ chain nx (nx x) l end.
Lemma chain_ext nx nx' l : forall p, (forall x, In x l -> nx' x = nx x) -> chain nx p l -> chain nx' p l.
Proof. induction l as [|a l IH]; intros p H C; [exact C|]. destruct C as (-> & C). split; [reflexivity|]. rewrite H by (left; reflexivity). apply IH; [intros; apply H; right; assumption|exact C]. Qed.
Lemma chain_app nx l l' : forall p, chain nx p (l ++ l') -> exists q, chain nx q l' /\ (l' <> [] -> q = hd_error l').
Proof.
  induction l as [|a l IH]; intros p C.
  - exists p. split; [exact C|]. destruct l' as [|b l']; [congruence|]. destruct C as (-> & _). reflexivity.
  - destruct C as (_ & C). exact (IH _ C).
Qed.
Lemma chain_hd nx p l : chain nx p l -> p = hd_error l.
Proof. destruct l; cbn; [auto|tauto]. Qed.
Lemma chain_suffix nx l l' p : chain nx p (l ++ l') -> chain nx (hd_error l') l'.
Proof. intros C. apply chain_app in C as (q & C & _). pose proof (chain_hd _ _ _ C) as ->. exact C. Qed.

Definition outside (i : place) (l : list nat) : Prop := match i with Head => True | NextOf w => ~ In w l end.
Definition at_ (s : state) (i : place) (l : list nat) : Prop := chain (next s) (deref s i) l.
Fixpoint end_place (i : place) (l : list nat) : place := match l with [] => i | y :: l => end_place (NextOf y) l end.
Lemma find_end_spec s l : forall fuel i, length l < fuel -> at_ s i l -> find_end fuel s i = Some (end_place i l).
Proof.
  unfold at_. induction l as [|y l IH]; intros [|fuel] i F C; cbn [length] in F; try lia; cbn [find_end].
  - cbn in C. rewrite C. reflexivity.
  - destruct C as (-> & C). apply IH; [lia|exact C].
Qed.
Lemma end_place_in l : forall i, end_place i l = i \/ exists z, In z l /\ end_place i l = NextOf z.
Proof.
  induction l as [|y l IH]; intros i; [left; reflexivity|]. right. cbn. destruct (IH (NextOf y)) as [->|(z & I & ->)]; eauto.
Qed.
Lemma append_spec s x l : forall i, at_ s i l -> NoDup l -> ~ In x l -> outside i l -> i <> NextOf x ->
  at_ (store (set_next s x None) (end_place i l) (Some x)) i (l ++ [x]).
Proof.
  unfold at_. induction l as [|y l IH]; intros i C N X O D.
  - cbn [end_place app chain]. destruct i as [|w]; cbn [store deref next loopers set_next]; [|rewrite Nat.eqb_refl]; (split; [reflexivity|]).
    + rewrite Nat.eqb_refl. reflexivity.
    + destruct (Nat.eqb_spec x w) as [->|]; [congruence|]. rewrite Nat.eqb_refl. reflexivity.
  - destruct C as (E & C). inversion N; subst. cbn [end_place app chain]. split.
    + destruct (end_place_in l (NextOf y)) as [Q|(z & I & Q)]; rewrite Q; destruct i as [|w]; cbn [store deref next loopers set_next] in *; try exact E.
      * destruct (Nat.eqb_spec w y) as [->|]; [exfalso; apply O; left; reflexivity|]. destruct (Nat.eqb_spec w x) as [->|]; [congruence|exact E].
      * destruct (Nat.eqb_spec w z) as [->|]; [exfalso; apply O; right; exact I|]. destruct (Nat.eqb_spec w x) as [->|]; [congruence|exact E].
    + apply (IH (NextOf y)); [exact C|assumption|intros I; apply X; right; exact I|assumption|intros Q; injection Q as ->; apply X; left; reflexivity].
Qed.
Lemma store_hf s i v : hf_loopers (store s i v) = hf_loopers s.
Proof. destruct i; reflexivity. Qed.
Lemma remove_absent x l : ~ In x l -> remove Nat.eq_dec x l = l.
Proof. apply notin_remove. Qed.
Lemma unlink_spec s x l : forall fuel i, length l < fuel -> at_ s i l -> NoDup l -> outside i l -> i <> NextOf x ->
  exists s', unlink_from fuel s i x = Some s' /\ at_ s' i (remove Nat.eq_dec x l) /\ next s' x = next s x /\ hf_loopers s' = hf_loopers s /\
  (forall j, deref s' j = deref s j \/ j = i \/ exists y, In y l /\ j = NextOf y).
Proof.
  unfold at_. induction l as [|y l IH]; intros [|fuel] i F C N O D; cbn [length] in F; try lia; cbn [unlink_from].
  - cbn [chain] in C. rewrite C. exists s. cbn [remove chain]. auto 10.
  - destruct C as (E & C). rewrite E. inversion N as [|? ? NI N']; subst. cbn [remove]. destruct (Nat.eqb_spec y x) as [->|NE].
    + destruct (Nat.eq_dec x x) as [_|]; [|congruence]. rewrite remove_absent by assumption. exists (store s i (next s x)). split; [reflexivity|].
      destruct i as [|w]; cbn [store deref next loopers set_next hf_loopers].
      * split; [exact C|]. split; [reflexivity|]. split; [reflexivity|]. intros [|j]; auto.
      * rewrite Nat.eqb_refl. destruct (Nat.eqb_spec x w) as [->|]; [congruence|]. split.
        { eapply chain_ext; [|exact C]. intros z I. cbn. destruct (Nat.eqb_spec z w) as [->|]; [exfalso; apply O; right; exact I|reflexivity]. }
        split; [reflexivity|]. split; [reflexivity|]. intros [|j]; cbn; auto. destruct (Nat.eqb_spec j w) as [->|]; auto.
    + destruct (Nat.eq_dec x y) as [|_]; [congruence|]. destruct (IH fuel (NextOf y)) as (s' & A & B & C1 & C2 & C3); [lia|exact C|assumption|exact NI|congruence|].
      exists s'. split; [exact A|]. split; [|split; [exact C1|split; [exact C2|]]].
      * cbn [chain]. split; [|exact B]. destruct (C3 i) as [Q|[->|(z & I & ->)]]; [congruence|exfalso; apply O; left; reflexivity|exfalso; apply O; right; exact I].
      * intros j. destruct (C3 j) as [Q|[->|(z & I & ->)]]; [auto|right; right; exists y; split; [left|]; reflexivity|right; right; exists z; split; [right; exact I|reflexivity]].
Qed.

Lemma nodup_suffix (l l' : list nat) : NoDup (l ++ l') -> NoDup l'.
Proof. induction l; intros N; [exact N|]. inversion N; auto. Qed.
Definition rep (objs : nat) (s : state) (t : tasks) : Prop :=
  chain (next s) (loopers s) (all t) /\ hf_loopers s = hd_error (snd t) /\ NoDup (all t) /\ Forall (fun x => x < objs) (all t).
Lemma rep_length objs s t : rep objs s t -> length (all t) <= objs.
Proof.
  intros (_ & _ & N & F). rewrite <- (seq_length objs 0). apply NoDup_incl_length; [exact N|]. intros x I. rewrite Forall_forall in F. apply in_seq. specialize (F x I). lia.
Qed.
Lemma remove_app x (l l' : list nat) : remove Nat.eq_dec x (l ++ l') = remove Nat.eq_dec x l ++ remove Nat.eq_dec x l'.
Proof. induction l as [|a l IH]; [reflexivity|]. cbn. destruct (Nat.eq_dec x a); rewrite IH; reflexivity. Qed.
Lemma remove_nodup x (l : list nat) : NoDup l -> NoDup (remove Nat.eq_dec x l).
Proof.
  induction l as [|a l IH]; intros N; [exact N|]. inversion N; subst. cbn. destruct (Nat.eq_dec x a); [auto|]. constructor; [|auto]. intros I. apply in_remove in I. tauto.
Qed.
Lemma all_unlink t x : all (after_op t (OUnlink x)) = remove Nat.eq_dec x (all t).
Proof. unfold all. cbn. symmetry. apply remove_app. Qed.
Lemma op_rep objs s t o : rep objs s t -> allowed objs t o -> exists s', do_op objs s o = Some s' /\ rep objs s' (after_op t o) /\ (o = OUnlink (obj o) -> next s' (obj o) = next s (obj o)).
Proof.
  intros R (X & A). pose proof (rep_length _ _ _ R) as L. destruct R as (C & H & N & F). destruct o as [x|x|x]; cbn [do_op obj] in *.
  - exists (Link s x). split; [reflexivity|]. split; [|discriminate]. unfold Link, rep. cbn [next loopers hf_loopers set_next after_op fst snd].
    split; [|split; [exact H|split]].
    + unfold all. cbn [fst snd app chain]. split; [reflexivity|]. rewrite Nat.eqb_refl. eapply chain_ext; [|exact C]. intros y I. cbn. destruct (Nat.eqb_spec y x) as [->|]; [contradiction|reflexivity].
    + unfold all. cbn. constructor; assumption.
    + unfold all. cbn. constructor; assumption.
  - unfold HighFrequencyLink. rewrite (find_end_spec s (all t)) by (try lia; exact C). eexists. split; [reflexivity|]. split; [|discriminate].
    pose proof (append_spec s x (all t) Head C N A Logic.I ltac:(discriminate)) as P. set (s' := store _ _ _) in *.
    assert (Q : hf_loopers s' = hf_loopers s) by (unfold s'; rewrite store_hf; reflexivity).
    assert (AL : all (after_op t (OHFLink x)) = all t ++ [x]) by (unfold all; cbn; apply app_assoc).
    unfold rep. rewrite AL. cbn [next loopers hf_loopers]. split; [exact P|]. split; [rewrite Q, H; cbn; destruct (snd t); reflexivity|]. split.
    + apply NoDup_rev in N. rewrite <- rev_involutive. apply NoDup_rev. rewrite rev_app_distr. cbn. constructor; [rewrite <- in_rev; exact A|exact N].
    + apply Forall_app. auto.
  - unfold Unlink. set (s1 := if is (hf_loopers s) x then State (next s) (loopers s) (next s x) else s).
    assert (E1 : next s1 = next s /\ loopers s1 = loopers s) by (unfold s1; destruct (is _ _); auto). destruct E1 as (E1 & E2).
    destruct (unlink_spec s1 x (all t) (S objs) Head) as (s' & U & V & W & Y & _); [lia|unfold at_; cbn [deref]; rewrite E1, E2; exact C|exact N|exact Logic.I|discriminate|].
    exists s'. split; [exact U|]. split; [|intros _; rewrite W, E1; reflexivity]. unfold rep. rewrite all_unlink. split; [exact V|]. split; [|split; [apply remove_nodup; exact N|]].
    + rewrite Y. unfold s1. cbn [after_op snd]. assert (ND : NoDup (snd t)) by (apply (nodup_suffix (fst t)); exact N).
      destruct (snd t) as [|h hs] eqn:ES; cbn [hd_error] in H; rewrite H; cbn [is]; [cbn; exact H|]. inversion ND; subst. destruct (Nat.eqb_spec x h) as [->|NE].
      * cbn [hf_loopers]. rewrite remove_cons, remove_absent by assumption. unfold all in C. rewrite ES in C. apply chain_suffix in C. destruct C as (_ & C). apply chain_hd in C. exact C.
      * cbn. rewrite H. destruct (Nat.eq_dec x h); [contradiction|reflexivity].
    + rewrite Forall_forall in *. intros y I. apply in_remove in I. apply F. tauto.
Qed.
Lemma ops_rep objs os : forall s t, rep objs s t -> all_allowed objs t os -> exists s', do_ops objs s os = Some s' /\ rep objs s' (after_ops t os).
Proof.
  induction os as [|o os IH]; intros s t R A; [exists s; auto|]. destruct A as (A & B). cbn [do_ops]. destruct (op_rep objs s t o R A) as (s' & -> & R' & _). apply IH; assumption.
Qed.
Lemma do_ops_app objs a : forall s b, do_ops objs s (a ++ b) = match do_ops objs s a with None => None | Some s => do_ops objs s b end.
Proof. induction a as [|o a IH]; intros s b; [reflexivity|]. cbn. destruct (do_op objs s o); auto. Qed.
Lemma allowed_app objs a : forall t b, all_allowed objs t (a ++ b) <-> all_allowed objs t a /\ all_allowed objs (after_ops t a) b.
Proof. induction a as [|o a IH]; intros t b; cbn; [tauto|]. rewrite IH. tauto. Qed.

(** ** behind *)
Lemma behind_app x l z : In x l -> behind x (l ++ [z]) = behind x l ++ [z].
Proof. induction l as [|a l IH]; intros I; [contradiction|]. cbn. destruct (Nat.eqb_spec a x); [reflexivity|]. destruct I as [|I]; [contradiction|auto]. Qed.
Lemma behind_remove x z l : z <> x -> NoDup l -> behind x (remove Nat.eq_dec z l) = remove Nat.eq_dec z (behind x l).
Proof.
  intros D. induction l as [|a l IH]; intros N; [reflexivity|]. inversion N; subst. cbn. destruct (Nat.eq_dec z a) as [->|].
  - destruct (Nat.eqb_spec a x); [contradiction|]. auto.
  - cbn. destruct (Nat.eqb_spec a x); [reflexivity|auto].
Qed.
Lemma behind_chain nx x l : forall p, chain nx p l -> In x l -> chain nx (nx x) (behind x l).
Proof.
  induction l as [|a l IH]; intros p C I; [contradiction|]. destruct C as (_ & C). cbn. destruct (Nat.eqb_spec a x) as [->|]; [exact C|]. destruct I as [|I]; [contradiction|]. exact (IH _ C I).
Qed.
Lemma behind_incl x l y : In y (behind x l) -> In y l.
Proof. induction l as [|a l IH]; cbn; [auto|]. destruct (Nat.eqb_spec a x); auto. Qed.
Lemma behind_nodup x l : NoDup l -> NoDup (behind x l) /\ ~ In x (behind x l).
Proof. induction l as [|a l IH]; intros N; cbn; [split; [constructor|auto]|]. inversion N; subst. destruct (Nat.eqb_spec a x) as [->|]; auto. Qed.
Lemma behind_hd x y r l : NoDup l -> behind x l = y :: r -> behind y l = r.
Proof.
  induction l as [|a l IH]; intros N H; [discriminate|]. inversion N; subst. cbn in *. destruct (Nat.eqb_spec a x) as [->|].
  - subst l. destruct (Nat.eqb_spec x y) as [->|]; [exfalso; apply H2; left; reflexivity|]. cbn. rewrite Nat.eqb_refl. reflexivity.
  - destruct (Nat.eqb_spec a y) as [->|]; [|auto]. exfalso. apply H2. apply (behind_incl x). rewrite H. left. reflexivity.
Qed.
Lemma after_op_in t o y : obj o <> y -> (In y (all (after_op t o)) <-> In y (all t)).
Proof.
  intros D. destruct o as [z|z|z]; cbn [obj] in D.
  - unfold all. cbn. split; [intros [|]; [contradiction|assumption]|auto].
  - unfold all. cbn. rewrite !in_app_iff. cbn. tauto.
  - rewrite all_unlink. split; [intros I; apply in_remove in I; tauto|]. intros I. apply in_in_remove; auto.
Qed.
Lemma behind_op t o x y : obj o <> x -> obj o <> y -> NoDup (all t) -> In x (all t) ->
  (In y (behind x (all (after_op t o))) <-> In y (behind x (all t))) /\
  ((forall z, o <> OHFLink z) -> length (behind x (all (after_op t o))) <= length (behind x (all t))).
Proof.
  intros D1 D2 N I. destruct o as [z|z|z]; cbn [obj] in *.
  - unfold all. cbn. destruct (Nat.eqb_spec z x); [contradiction|]. split; [tauto|lia].
  - replace (all (after_op t (OHFLink z))) with (all t ++ [z]) by (unfold all; cbn; symmetry; apply app_assoc). rewrite behind_app by exact I. split; [rewrite in_app_iff; cbn; tauto|]. intros H. exfalso. apply (H z). reflexivity.
  - rewrite all_unlink, behind_remove by assumption. split; [split; [intros J; apply in_remove in J; tauto|intros J; apply in_in_remove; auto]|]. intros _. clear. induction (behind x (all t)); cbn; [lia|]. destruct (Nat.eq_dec z a); cbn; lia.
Qed.
Lemma op_nodup objs t o : NoDup (all t) -> allowed objs t o -> NoDup (all (after_op t o)).
Proof.
  intros N (_ & A). destruct o as [z|z|z].
  - unfold all. cbn. constructor; assumption.
  - replace (all (after_op t (OHFLink z))) with (all t ++ [z]) by (unfold all; cbn; symmetry; apply app_assoc). apply NoDup_rev in N. rewrite <- rev_involutive. apply NoDup_rev. rewrite rev_app_distr. cbn. constructor; [rewrite <- in_rev; exact A|exact N].
  - rewrite all_unlink. apply remove_nodup. exact N.
Qed.
Lemma behind_ops objs x os : forall t, all_allowed objs t os -> Forall (fun o => obj o <> x) os -> NoDup (all t) -> In x (all t) ->
  In x (all (after_ops t os)) /\ NoDup (all (after_ops t os)) /\
  (forall y, Forall (fun o => obj o <> y) os -> (In y (behind x (all (after_ops t os))) <-> In y (behind x (all t)))) /\
  (Forall (fun o => forall z, o <> OHFLink z) os -> length (behind x (all (after_ops t os))) <= length (behind x (all t))).
Proof.
  induction os as [|o os IH]; intros t A F N I; [cbn; repeat split; auto; tauto|]. destruct A as (A & B). inversion F; subst. cbn [after_ops fold_left].
  pose proof (op_nodup _ _ _ N A) as N'. assert (I' : In x (all (after_op t o))) by (apply after_op_in; assumption).
  destruct (IH _ B H2 N' I') as (P & Q & R & S). split; [exact P|]. split; [exact Q|]. split.
  - intros y Fy. inversion Fy; subst. rewrite <- (proj1 (behind_op t o x y H1 H3 N I)). apply R. assumption.
  - intros Fh. inversion Fh; subst. pose proof (proj2 (behind_op t o x x H1 H1 N I) H3). specialize (S H4). unfold after_ops in S. lia.
Qed.

(** ** A pass *)
Definition rest (t : tasks) (cur : option nat) : list nat := match cur with None => [] | Some x => x :: behind x (all t) end.
Definition present (t : tasks) (cur : option nat) : Prop := match cur with None => True | Some x => In x (all t) end.
(** One call: the state stays a representation, and the walk goes on with the task behind. *)
Lemma call_spec objs b s t x calls : rep objs s t -> In x (all t) -> all_allowed objs t (body b calls x) -> Forall (fun o => obj o <> x) (fst (b calls x)) ->
  exists s', do_ops objs s (body b calls x) = Some s' /\ rep objs s' (after_ops t (body b calls x)) /\
  next s' x = hd_error (behind x (all (after_ops t (fst (b calls x))))) /\
  rest (after_ops t (body b calls x)) (next s' x) = behind x (all (after_ops t (fst (b calls x)))) /\
  present (after_ops t (body b calls x)) (next s' x).
Proof.
  intros R I A F. unfold body in *. destruct (b calls x) as (os, leave) eqn:EB. cbn [fst snd] in *. apply allowed_app in A as (A & B).
  destruct (ops_rep objs os s t R A) as (s1 & D1 & R1). pose proof R as (_ & _ & N & _). destruct (behind_ops objs x os t A F N I) as (I1 & N1 & _).
  pose proof (behind_chain _ _ _ _ (proj1 R1) I1) as C1. pose proof (chain_hd _ _ _ C1) as H1.
  assert (RE : forall t2, (forall y, In y (behind x (all (after_ops t os))) -> behind y (all t2) = behind y (all (after_ops t os)) /\ In y (all t2)) -> rest t2 (hd_error (behind x (all (after_ops t os)))) = behind x (all (after_ops t os)) /\ present t2 (hd_error (behind x (all (after_ops t os))))).
  { intros t2 H. destruct (behind x (all (after_ops t os))) as [|y r] eqn:EB2; cbn [hd_error rest present]; [auto|]. destruct (H y ltac:(left; reflexivity)) as (-> & H'). split; [|exact H']. f_equal. apply (behind_hd x); assumption. }
  rewrite do_ops_app, D1. destruct leave; cbn [do_ops].
  - destruct B as (B & _). destruct (op_rep objs s1 (after_ops t os) (OUnlink x) R1 B) as (s2 & D2 & R2 & X2). cbn [do_ops]. rewrite D2. exists s2. split; [reflexivity|].
    assert (E : after_ops t (os ++ [OUnlink x]) = after_op (after_ops t os) (OUnlink x)) by (unfold after_ops; rewrite fold_left_app; reflexivity). rewrite E.
    split; [exact R2|]. specialize (X2 eq_refl). cbn [obj] in X2. rewrite X2, H1. split; [reflexivity|]. apply RE. intros y Iy.
    assert (NE : y <> x) by (intros ->; apply (proj2 (behind_nodup x _ N1)); exact Iy). rewrite all_unlink. split.
    + rewrite behind_remove by congruence. apply remove_absent. intros J. apply behind_nodup with (x := x) in N1 as (N2 & N3). clear - J Iy N2 N3 NE R1.
      (* x is before y *) destruct R1 as (_ & _ & N & _). revert N J Iy. induction (all (after_ops t os)) as [|a l IH]; intros N J Iy; [contradiction|]. inversion N; subst. cbn in *.
      destruct (Nat.eqb_spec a x) as [->|]; [destruct (Nat.eqb_spec x y); [congruence|]; apply behind_incl in J; contradiction|]. destruct (Nat.eqb_spec a y) as [->|]; [apply behind_incl in Iy; contradiction|auto].
    + apply in_in_remove; [exact NE|]. apply behind_incl in Iy. exact Iy.
  - rewrite app_nil_r. exists s1. split; [reflexivity|]. split; [exact R1|]. split; [exact H1|]. rewrite H1. apply RE. intros y Iy. split; [reflexivity|]. apply behind_incl in Iy. exact Iy.
Qed.
Lemma walk_once objs b y : untouched b y -> forall fuel s t cur calls calls' s', rep objs s t -> present t cur -> well_behaved fuel objs b t cur calls ->
  walk fuel objs (body b) s cur calls = Some (calls', s') ->
  (In y (rest t cur) -> count_occ Nat.eq_dec calls' y = S (count_occ Nat.eq_dec calls y)) /\
  (~ In y (rest t cur) -> count_occ Nat.eq_dec calls' y = count_occ Nat.eq_dec calls y) /\ exists t', rep objs s' t'.
Proof.
  intros U. induction fuel as [|fuel IH]; intros s t [x|] calls calls' s' R P W H; cbn [walk] in H; try discriminate.
  - injection H as <- <-. cbn. split; [contradiction|split; [reflexivity|eauto]].
  - cbn [well_behaved] in W. destruct W as (A & F & W). destruct (call_spec objs b s t x calls R P A F) as (s1 & D & R1 & E1 & E2 & P1). rewrite D in H.
    rewrite <- E1 in W. specialize (IH s1 _ _ _ _ _ R1 P1 W H). rewrite E2 in IH. destruct IH as (I1 & I2 & I3). cbn [count_occ] in *.
    pose proof R as (_ & _ & N & _). unfold body in A. apply allowed_app in A as (A & _). destruct (behind_ops objs x (fst (b calls x)) t A F N P) as (_ & N1 & B & _).
    assert (Fy : Forall (fun o => obj o <> y) (fst (b calls x))) by (apply Forall_forall; intros o I; apply (U calls x); unfold body; apply in_or_app; left; exact I).
    specialize (B y Fy). split; [|split; [|exact I3]].
    + cbn [rest]. intros J. destruct (Nat.eq_dec x y) as [->|NE]; [|destruct J as [|J]; [contradiction|]; apply I1; apply B; exact J].
      apply I2. intros K. exact (proj2 (behind_nodup _ _ N1) K).
    + cbn [rest]. intros J. destruct (Nat.eq_dec x y) as [->|NE]; [exfalso; apply J; left; reflexivity|]. apply I2. intros K. apply J. right. apply B. exact K.
  - injection H as <- <-. cbn. split; [contradiction|split; [reflexivity|eauto]].
Qed.
Lemma walk_ends objs b : no_hf b -> forall fuel s t cur calls, rep objs s t -> present t cur -> well_behaved fuel objs b t cur calls -> length (rest t cur) <= fuel ->
  walk fuel objs (body b) s cur calls <> None.
Proof.
  intros U. induction fuel as [|fuel IH]; intros s t [x|] calls R P W L; cbn [walk]; try discriminate; [cbn in L; lia|].
  cbn [well_behaved] in W. destruct W as (A & F & W). destruct (call_spec objs b s t x calls R P A F) as (s1 & D & R1 & E1 & E2 & P1). rewrite D.
  rewrite <- E1 in W. apply (IH s1 _ _ _ R1 P1 W). rewrite E2. cbn [rest length] in L.
  pose proof R as (_ & _ & N & _). unfold body in A. apply allowed_app in A as (A & _). destruct (behind_ops objs x (fst (b calls x)) t A F N P) as (_ & N1 & _ & B).
  assert (Fy : Forall (fun o => forall z, o <> OHFLink z) (fst (b calls x))) by (apply Forall_forall; intros o I z ->; apply (U calls x z); unfold body; apply in_or_app; left; exact I).
  specialize (B Fy). lia.
Qed.
(** With tasks that change nothing the pass is the list. *)
Lemma walk_idle objs s l : forall fuel p calls, chain (next s) p l -> length l <= fuel -> walk fuel objs (fun _ _ => []) s p calls = Some (rev l ++ calls, s).
Proof.
  induction l as [|a l IH]; intros fuel p calls C F.
  - cbn in C. subst. destruct fuel; reflexivity.
  - destruct C as (-> & C). destruct fuel as [|fuel]; [cbn in F; lia|]. cbn [walk do_ops]. rewrite (IH fuel _ _ C) by (cbn in F; lia). cbn [rev]. rewrite <- app_assoc. reflexivity.
Qed.

Lemma linked_by_ext os x : forall P Q : Prop, (P <-> Q) -> (linked_by os x P <-> linked_by os x Q).
Proof. induction os as [|o os IH]; intros P Q E; [exact E|]. cbn. apply IH. destruct (Nat.eqb _ _); [reflexivity|exact E]. Qed.
Lemma members os : forall t x, NoDup (all t) -> forall objs, all_allowed objs t os ->
  (In x (all (after_ops t os)) <-> linked_by os x (In x (all t))).
Proof.
  induction os as [|o os IH]; intros t x N objs A; [reflexivity|]. destruct A as (A & B). cbn [after_ops fold_left linked_by].
  pose proof (op_nodup _ _ _ N A) as N'. rewrite (IH _ x N' objs B). apply linked_by_ext.
  destruct (Nat.eqb_spec (obj o) x) as [<-|NE]; [|apply after_op_in; exact NE]. destruct o as [z|z|z]; cbn [obj].
  - unfold all. cbn. tauto.
  - unfold all. cbn. rewrite !in_app_iff. cbn. tauto.
  - rewrite all_unlink. split; [|tauto]. intros I. apply in_remove in I. tauto.
Qed.
Lemma rep0 objs junk : rep objs (state0 junk) ([], []).
Proof. repeat split; constructor. Qed.
