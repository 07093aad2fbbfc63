(** Proofs about shared pointers. *)
From Coq Require Import List Bool PeanoNat Lia.
From Verif Require Import Machine OwnerModel OwnerSpec.
Import ListNotations.

Definition info (w : list owner) (x : nat) : option (nat * option nat) :=
  match find_owner w x with Some e => Some (group e, obj e) | None => None end.
Inductive reach (h : heap) : nat -> nat -> Prop :=
| reach_refl x : reach h x x
| reach_step x c y : h x = Some c -> reach h (next c) y -> reach h x y.

Record inv (h : heap) (f : nat -> option (nat * option nat)) (k : nat) : Prop := {
  i_live : forall x, match h x, f x with None, None => True | Some c, Some (g, p) => ptr c = p /\ g < k | _, _ => False end;
  i_next : forall x c, h x = Some c -> exists cn, h (next c) = Some cn /\ prev cn = x;
  i_prev : forall x c, h x = Some c -> exists cp, h (prev c) = Some cp /\ OwnerModel.next cp = x;
  i_group : forall x c, h x = Some c -> option_map fst (f (next c)) = option_map fst (f x);
  i_reach : forall x y g p q, f x = Some (g, p) -> f y = Some (g, q) -> p = q /\ reach h x y;
  i_obj : forall x y g g' o, f x = Some (g, Some o) -> f y = Some (g', Some o) -> g = g' }.

Lemma put_same h x c : put h x c x = c.
Proof. unfold put. rewrite Nat.eqb_refl. reflexivity. Qed.
Lemma put_other h x c y : y <> x -> put h x c y = h y.
Proof. intros N. unfold put. destruct (Nat.eqb_spec y x); [contradiction|reflexivity]. Qed.

Lemma f_live h f k x c : inv h f k -> h x = Some c -> exists g, f x = Some (g, ptr c) /\ g < k.
Proof. intros V H. pose proof (i_live _ _ _ V x) as L. rewrite H in L. destruct (f x) as [(g, p)|]; [|contradiction]. destruct L as (<- & L). eauto. Qed.
Lemma h_live h f k x e : inv h f k -> f x = Some e -> exists c, h x = Some c.
Proof. intros V H. pose proof (i_live _ _ _ V x) as L. rewrite H in L. destruct (h x) as [c|]; [eauto|contradiction]. Qed.

(** The heap without x. *)
Definition skip (h : heap) (x : nat) (cx : cell) (a : nat) : option cell :=
  if Nat.eqb a x then None
  else match h a with
       | None => None
       | Some c => Some (Cell (ptr c) (if Nat.eqb (prev c) x then prev cx else prev c) (if Nat.eqb (next c) x then next cx else next c))
       end.
Lemma leave_spec h f k x cx : inv h f k -> h x = Some cx ->
  exists h', leave h x = Some (h', if Nat.eqb (next cx) x then freed (ptr cx) else []) /\ h' x = h x /\ forall a, a <> x -> h' a = skip h x cx a.
Proof.
  intros V H. unfold leave. rewrite H. destruct (Nat.eqb_spec (next cx) x) as [E|N].
  - exists h. split; [reflexivity|]. split; [exact H|]. intros a A. unfold skip. destruct (Nat.eqb_spec a x); [contradiction|]. destruct (h a) as [c|] eqn:Ha; [|reflexivity].
    destruct (Nat.eqb_spec (next c) x) as [E1|_]; [exfalso; destruct (i_next _ _ _ V a c Ha) as (cn & Q & R); destruct (i_prev _ _ _ V x cx H) as (cp & S & T); rewrite E1 in Q; rewrite H in Q; injection Q as <-; destruct (i_next _ _ _ V x cx H) as (cn & Q & R'); rewrite E, H in Q; injection Q as <-; congruence|].
    destruct (Nat.eqb_spec (prev c) x) as [E1|_]; [exfalso; destruct (i_prev _ _ _ V a c Ha) as (cp & Q & R); rewrite E1, H in Q; injection Q as <-; congruence|]. destruct c; reflexivity.
  - destruct (i_next _ _ _ V x cx H) as (cn & Hn & Pn). destruct (i_prev _ _ _ V x cx H) as (cp & Hp & Np). unfold set_prev. rewrite Hn.
    assert (PX : prev cx <> x). { intros E. rewrite E, H in Hp. injection Hp as <-. contradiction. }
    unfold set_next. unfold put at 1. destruct (Nat.eqb_spec (prev cx) (next cx)) as [E|D].
    + eexists. split; [reflexivity|]. split; [rewrite !put_other by congruence; exact H|]. intros a A. unfold skip. destruct (Nat.eqb_spec a x); [contradiction|].
      destruct (Nat.eq_dec a (prev cx)) as [->|NE].
      * rewrite put_same. cbn [ptr prev next]. rewrite E, Hn. rewrite E, Hn in Hp. injection Hp as <-. rewrite Pn, Np, Nat.eqb_refl, ?E. reflexivity.
      * rewrite !put_other by congruence. destruct (h a) as [c|] eqn:Ha; [|reflexivity].
        destruct (Nat.eqb_spec (prev c) x) as [E1|_]; [exfalso; destruct (i_prev _ _ _ V a c Ha) as (q & Q & R); rewrite E1, H in Q; injection Q as <-; congruence|].
        destruct (Nat.eqb_spec (next c) x) as [E1|_]; [exfalso; destruct (i_next _ _ _ V a c Ha) as (q & Q & R); rewrite E1, H in Q; injection Q as <-; congruence|]. destruct c; reflexivity.
    + rewrite Hp. eexists. split; [reflexivity|]. split; [rewrite !put_other by congruence; exact H|]. intros a A. unfold skip. destruct (Nat.eqb_spec a x); [contradiction|].
      destruct (Nat.eq_dec a (prev cx)) as [->|NE].
      * rewrite put_same. rewrite Hp, Np, Nat.eqb_refl. destruct (Nat.eqb_spec (prev cp) x) as [E1|_]; [|reflexivity].
        exfalso. destruct (i_prev _ _ _ V _ cp Hp) as (q & Q & R). rewrite E1, H in Q. injection Q as <-. congruence.
      * rewrite put_other by exact NE. destruct (Nat.eq_dec a (next cx)) as [->|NE2].
        { rewrite put_same, Hn, Pn, Nat.eqb_refl. destruct (Nat.eqb_spec (next cn) x) as [E1|_]; [|reflexivity]. exfalso. destruct (i_next _ _ _ V _ cn Hn) as (q & Q & R). rewrite E1, H in Q. injection Q as <-. congruence. }
        rewrite put_other by exact NE2. destruct (h a) as [c|] eqn:Ha; [|reflexivity].
        destruct (Nat.eqb_spec (prev c) x) as [E1|_]; [exfalso; destruct (i_prev _ _ _ V a c Ha) as (q & Q & R); rewrite E1, H in Q; injection Q as <-; congruence|].
        destruct (Nat.eqb_spec (next c) x) as [E1|_]; [exfalso; destruct (i_next _ _ _ V a c Ha) as (q & Q & R); rewrite E1, H in Q; injection Q as <-; congruence|]. destruct c; reflexivity.
Qed.
Lemma reach_same (h v : heap) a b : (forall x, v x = h x) -> reach h a b -> reach v a b.
Proof. intros E R. induction R; [apply reach_refl|]. eapply reach_step; [rewrite E; eassumption|assumption]. Qed.
Lemma skip_reach h x cx : h x = Some cx -> forall a b, reach h a b -> b <> x -> (a <> x -> reach (skip h x cx) a b) /\ (a = x -> reach (skip h x cx) (next cx) b).
Proof.
  intros H a b R. induction R as [a|a c b Ha R IH]; intros B.
  - split; [intros _; apply reach_refl|contradiction].
  - specialize (IH B) as (I1 & I2). split.
    + intros A. eapply reach_step; [unfold skip; destruct (Nat.eqb_spec a x); [contradiction|]; rewrite Ha; reflexivity|]. cbn [next]. destruct (Nat.eqb_spec (next c) x); auto.
    + intros ->. rewrite H in Ha. injection Ha as <-. destruct (Nat.eq_dec (next cx) x); auto.
Qed.
Lemma skip_inv h f k x cx v : inv h f k -> h x = Some cx -> (forall a, v a = skip h x cx a) -> inv v (fun a => if Nat.eqb a x then None else f a) k.
Proof.
  intros V H E. constructor.
  - intros a. rewrite E. unfold skip. destruct (Nat.eqb_spec a x); [exact Logic.I|]. pose proof (i_live _ _ _ V a) as L. destruct (h a) as [c|], (f a) as [(g, p)|]; try contradiction; cbn; exact L.
  - intros a c. rewrite E. unfold skip at 1. destruct (Nat.eqb_spec a x) as [|A]; [discriminate|]. destruct (h a) as [c0|] eqn:Ha; [|discriminate]. intros Q. injection Q as <-. cbn [next].
    destruct (Nat.eqb_spec (next c0) x) as [E1|N1].
    + destruct (i_next _ _ _ V a c0 Ha) as (q & Q & R). rewrite E1, H in Q. injection Q as <-. destruct (i_next _ _ _ V x cx H) as (cn & Hn & Pn).
      rewrite E. unfold skip. assert (NX : next cx <> x). { intros D. rewrite D, H in Hn. injection Hn as <-. congruence. } destruct (Nat.eqb_spec (next cx) x); [contradiction|]. rewrite Hn. eexists. split; [reflexivity|]. cbn. rewrite Pn, Nat.eqb_refl. exact R.
    + destruct (i_next _ _ _ V a c0 Ha) as (q & Q & R). rewrite E. unfold skip. destruct (Nat.eqb_spec (next c0) x); [contradiction|]. rewrite Q. eexists. split; [reflexivity|]. cbn. rewrite R. destruct (Nat.eqb_spec a x); [contradiction|reflexivity].
  - intros a c. rewrite E. unfold skip at 1. destruct (Nat.eqb_spec a x) as [|A]; [discriminate|]. destruct (h a) as [c0|] eqn:Ha; [|discriminate]. intros Q. injection Q as <-. cbn [prev].
    destruct (Nat.eqb_spec (prev c0) x) as [E1|N1].
    + destruct (i_prev _ _ _ V a c0 Ha) as (q & Q & R). rewrite E1, H in Q. injection Q as <-. destruct (i_prev _ _ _ V x cx H) as (cn & Hn & Pn).
      rewrite E. unfold skip. assert (NX : prev cx <> x). { intros D. rewrite D, H in Hn. injection Hn as <-. congruence. } destruct (Nat.eqb_spec (prev cx) x); [contradiction|]. rewrite Hn. eexists. split; [reflexivity|]. cbn. rewrite Pn, Nat.eqb_refl. exact R.
    + destruct (i_prev _ _ _ V a c0 Ha) as (q & Q & R). rewrite E. unfold skip. destruct (Nat.eqb_spec (prev c0) x); [contradiction|]. rewrite Q. eexists. split; [reflexivity|]. cbn. rewrite R. destruct (Nat.eqb_spec a x); [contradiction|reflexivity].
  - intros a c. rewrite E. unfold skip. destruct (Nat.eqb_spec a x) as [|A]; [discriminate|]. destruct (h a) as [c0|] eqn:Ha; [|discriminate]. intros Q. injection Q as <-. cbn [next].
    pose proof (i_group _ _ _ V a c0 Ha) as G. destruct (Nat.eqb_spec (next c0) x) as [E1|N1].
    + pose proof (i_group _ _ _ V x cx H) as G2. destruct (Nat.eqb_spec (next cx) x) as [D|_]; [|congruence].
      exfalso. destruct (i_next _ _ _ V x cx H) as (q & Q & R). rewrite D, H in Q. injection Q as <-. destruct (i_next _ _ _ V a c0 Ha) as (q & Q & R'). rewrite E1, H in Q. injection Q as <-. congruence.
    + destruct (Nat.eqb_spec (next c0) x); [contradiction|exact G].
  - intros a b g p q. destruct (Nat.eqb_spec a x) as [|A]; [discriminate|]. destruct (Nat.eqb_spec b x) as [|B]; [discriminate|]. intros Fa Fb. destruct (i_reach _ _ _ V a b g p q Fa Fb) as (P & R). split; [exact P|].
    apply (reach_same (skip h x cx)); [exact E|]. apply (skip_reach h x cx H a b R B). exact A.
  - intros a b g g' o. destruct (Nat.eqb_spec a x); [discriminate|]. destruct (Nat.eqb_spec b x); [discriminate|]. apply (i_obj _ _ _ V).
Qed.
Definition attach (h : heap) (x y : nat) (cy : cell) (a : nat) : option cell :=
  if Nat.eqb a x then Some (Cell (ptr cy) y (next cy))
  else match h a with
       | None => None
       | Some c => Some (Cell (ptr c) (if Nat.eqb a (next cy) then x else prev c) (if Nat.eqb a y then x else next c))
       end.
Lemma join_spec h v f k x y cy : inv v f k -> v x = None -> v y = Some cy -> (forall a, a <> x -> h a = v a) ->
  exists h', join h x y = Some h' /\ forall a, h' a = attach v x y cy a.
Proof.
  intros V X Y E. assert (D : y <> x) by congruence. unfold join. rewrite (E y D), Y. destruct (i_next _ _ _ V y cy Y) as (cn & Hn & Pn).
  assert (NX : next cy <> x) by congruence. unfold set_prev, set_next. rewrite (put_other _ _ _ (next cy)) by exact NX. rewrite (E _ NX), Hn.
  destruct (Nat.eq_dec y (next cy)) as [Q|Q].
  - assert (PP : forall hh c, put hh (next cy) c y = c) by (intros; rewrite <- Q; apply put_same). rewrite PP. eexists. split; [reflexivity|]. intros a. unfold attach. rewrite <- Q. rewrite <- Q, Y in Hn. injection Hn as <-. destruct (Nat.eqb_spec a x) as [->|A].
    + rewrite !put_other by congruence. rewrite put_same, <- ?Q. reflexivity.
    + destruct (Nat.eqb_spec a y) as [->|B]; [rewrite put_same, Y; reflexivity|]. rewrite !put_other by assumption. rewrite E by exact A. destruct (v a) as [[]|]; reflexivity.
  - rewrite (put_other _ (next cy)) by exact Q. rewrite put_other by exact D. rewrite (E y D), Y. eexists. split; [reflexivity|]. intros a. unfold attach. destruct (Nat.eqb_spec a x) as [->|A].
    + rewrite !put_other by congruence. rewrite put_same. reflexivity.
    + destruct (Nat.eqb_spec a y) as [->|B].
      * rewrite put_same, Y. destruct (Nat.eqb_spec y (next cy)); [contradiction|reflexivity].
      * rewrite put_other by exact B. destruct (Nat.eqb_spec a (next cy)) as [->|B2]; [rewrite put_same, Hn; reflexivity|]. rewrite !put_other by assumption. rewrite E by exact A. destruct (v a) as [[]|]; reflexivity.
Qed.
Lemma attach_reach v f k x y cy h : inv v f k -> v x = None -> v y = Some cy -> (forall a, h a = attach v x y cy a) -> forall a b, reach v a b -> a <> x -> reach h a b.
Proof.
  intros V X Y E a b R. induction R as [a|a c b Ha R IH]; intros A; [apply reach_refl|].
  assert (N : next c <> x). { destruct (i_next _ _ _ V a c Ha) as (q & Q & _). congruence. }
  destruct (Nat.eq_dec a y) as [->|B].
  - rewrite Y in Ha. injection Ha as <-. eapply reach_step; [rewrite E; unfold attach; destruct (Nat.eqb_spec y x); [contradiction|]; rewrite Y, Nat.eqb_refl; reflexivity|]. cbn [next].
    eapply reach_step; [rewrite E; unfold attach; rewrite Nat.eqb_refl; reflexivity|]. exact (IH N).
  - eapply reach_step; [rewrite E; unfold attach; destruct (Nat.eqb_spec a x); [contradiction|]; rewrite Ha; destruct (Nat.eqb_spec a y); [contradiction|]; reflexivity|]. exact (IH N).
Qed.
Lemma reach_app h a b c : reach h a b -> reach h b c -> reach h a c.
Proof. intros R. induction R; intros S; [exact S|]. eapply reach_step; [eassumption|auto]. Qed.
Lemma attach_inv v f k x y cy h g p : inv v f k -> v x = None -> v y = Some cy -> f y = Some (g, p) -> (forall a, h a = attach v x y cy a) ->
  inv h (fun a => if Nat.eqb a x then Some (g, p) else f a) k.
Proof.
  intros V X Y F E. assert (D : y <> x) by congruence. destruct (f_live _ _ _ _ _ V Y) as (g0 & F0 & GK). rewrite F in F0. injection F0 as <- ->.
  destruct (i_next _ _ _ V y cy Y) as (cn & Hn & Pn). assert (NX : next cy <> x) by congruence.
  assert (Hx : h x = Some (Cell (ptr cy) y (next cy))). { rewrite E. unfold attach. rewrite Nat.eqb_refl. reflexivity. }
  assert (Ho : forall a, a <> x -> h a = match v a with None => None | Some c => Some (Cell (ptr c) (if Nat.eqb a (next cy) then x else prev c) (if Nat.eqb a y then x else next c)) end).
  { intros a A. rewrite E. unfold attach. destruct (Nat.eqb_spec a x); [contradiction|reflexivity]. }
  assert (Fx : f x = None). { pose proof (i_live _ _ _ V x) as L. rewrite X in L. destruct (f x); [contradiction|reflexivity]. }
  assert (Fn : exists q, f (next cy) = Some (g, q)). { pose proof (i_group _ _ _ V y cy Y) as G. rewrite F in G. destruct (f (next cy)) as [(g1, q)|]; [|discriminate]. injection G as ->. eauto. }
  constructor.
  - intros a. destruct (Nat.eqb_spec a x) as [->|A]; [rewrite Hx; cbn; auto|]. rewrite Ho by exact A. pose proof (i_live _ _ _ V a) as L. destruct (v a) as [c|], (f a) as [(g1, p1)|]; try contradiction; cbn; exact L.
  - intros a c. destruct (Nat.eq_dec a x) as [->|A].
    + rewrite Hx. intros Q. injection Q as <-. cbn [next]. rewrite Ho by exact NX. rewrite Hn. eexists. split; [reflexivity|]. cbn. rewrite Nat.eqb_refl. reflexivity.
    + rewrite Ho by exact A. destruct (v a) as [c0|] eqn:Va; [|discriminate]. intros Q. injection Q as <-. cbn [next]. destruct (Nat.eqb_spec a y) as [->|B].
      * rewrite Hx. eexists. split; reflexivity.
      * destruct (i_next _ _ _ V a c0 Va) as (q & Q & R). rewrite Ho by congruence. rewrite Q. eexists. split; [reflexivity|]. cbn. destruct (Nat.eqb_spec (next c0) (next cy)) as [E1|_]; [|exact R]. exfalso. rewrite E1 in Q. congruence.
  - intros a c. destruct (Nat.eq_dec a x) as [->|A].
    + rewrite Hx. intros Q. injection Q as <-. cbn [prev]. rewrite Ho by exact D. rewrite Y. eexists. split; [reflexivity|]. cbn. rewrite Nat.eqb_refl. reflexivity.
    + rewrite Ho by exact A. destruct (v a) as [c0|] eqn:Va; [|discriminate]. intros Q. injection Q as <-. cbn [prev]. destruct (Nat.eqb_spec a (next cy)) as [->|B].
      * rewrite Hx. eexists. split; reflexivity.
      * destruct (i_prev _ _ _ V a c0 Va) as (q & Q & R). rewrite Ho by congruence. rewrite Q. eexists. split; [reflexivity|]. cbn. destruct (Nat.eqb_spec (prev c0) y) as [E1|_]; [|exact R]. exfalso. rewrite E1 in Q. congruence.
  - intros a c. destruct (Nat.eqb_spec a x) as [->|A].
    + rewrite Hx. intros Q. injection Q as <-. cbn [next]. destruct (Nat.eqb_spec (next cy) x); [contradiction|]. destruct Fn as (q & ->). reflexivity.
    + rewrite Ho by exact A. destruct (v a) as [c0|] eqn:Va; [|discriminate]. intros Q. injection Q as <-. cbn [next]. destruct (Nat.eqb_spec a y) as [->|B].
      * rewrite Nat.eqb_refl, F. reflexivity.
      * destruct (i_next _ _ _ V a c0 Va) as (q & Q & _). destruct (Nat.eqb_spec (next c0) x); [congruence|]. apply (i_group _ _ _ V a c0 Va).
  - assert (K : forall a b g1 p1 q1, a <> x -> f a = Some (g1, p1) -> f b = Some (g1, q1) -> p1 = q1 /\ reach h a b).
    { intros a b g1 p1 q1 A Fa Fb. destruct (i_reach _ _ _ V a b g1 p1 q1 Fa Fb) as (P & R). split; [exact P|]. apply (attach_reach v f k x y cy h V X Y E a b R A). }
    assert (YX : reach h y x). { eapply reach_step; [rewrite Ho by exact D; rewrite Y, Nat.eqb_refl; reflexivity|]. apply reach_refl. }
    intros a b g1 p1 q1. destruct (Nat.eqb_spec a x) as [->|A]; destruct (Nat.eqb_spec b x) as [->|B].
    + intros Q R. split; [congruence|apply reach_refl].
    + intros Q Fb. injection Q as <- <-. destruct (i_reach _ _ _ V y b g _ q1 F Fb) as (P & _). split; [exact P|]. destruct Fn as (q & Fn). eapply reach_step; [exact Hx|]. apply (K (next cy) b g q q1 NX Fn Fb).
    + intros Fa Q. injection Q as <- <-. destruct (K a y g p1 _ A Fa F) as (P & R). split; [exact P|]. eapply reach_app; eassumption.
    + apply (K a b g1 p1 q1 A).
  - intros a b g1 g2 o. destruct (Nat.eqb_spec a x) as [->|A]; destruct (Nat.eqb_spec b x) as [->|B]; intros Q R.
    + congruence.
    + injection Q as <- Q. apply (i_obj _ _ _ V y b g g2 o); congruence.
    + injection R as <- R. apply (i_obj _ _ _ V a y g1 g o); congruence.
    + apply (i_obj _ _ _ V a b g1 g2 o Q R).
Qed.

Lemma find_cons e w a : find_owner (e :: w) a = if Nat.eqb (who e) a then Some e else find_owner w a.
Proof. reflexivity. Qed.
Lemma find_without w x a : find_owner (without x w) a = if Nat.eqb a x then None else find_owner w a.
Proof.
  induction w as [|e w IH]; [cbn; destruct (Nat.eqb a x); reflexivity|]. unfold without. cbn [filter]. fold (without x w). rewrite find_cons. destruct (Nat.eqb_spec (who e) x) as [E|N]; cbn [negb].
  - rewrite IH. destruct (Nat.eqb_spec a x) as [E1|A]; [reflexivity|]. destruct (Nat.eqb_spec (who e) a); [congruence|reflexivity].
  - rewrite find_cons, IH. destruct (Nat.eqb_spec (who e) a) as [Q|Q]; [|reflexivity]. destruct (Nat.eqb_spec a x); [congruence|reflexivity].
Qed.
Lemma info_without w x a : info (without x w) a = if Nat.eqb a x then None else info w a.
Proof. unfold info. rewrite find_without. destruct (Nat.eqb a x); reflexivity. Qed.
Lemma info_cons e w a : info (e :: w) a = if Nat.eqb a (who e) then Some (group e, obj e) else info w a.
Proof. unfold info, find_owner. cbn. rewrite (Nat.eqb_sym (who e) a). destruct (Nat.eqb a (who e)); reflexivity. Qed.
Lemma find_in w e : NoDup (map who w) -> In e w -> find_owner w (who e) = Some e.
Proof.
  induction w as [|e0 w IH]; [contradiction|]. cbn. intros ND I. inversion ND as [|? ? N1 N2]; subst. destruct I as [->|I]; [rewrite Nat.eqb_refl; reflexivity|].
  destruct (Nat.eqb_spec (who e0) (who e)) as [E|N]; [|apply IH; assumption]. exfalso. apply N1. rewrite E. apply in_map. exact I.
Qed.
Lemma info_in w e : NoDup (map who w) -> In e w -> info w (who e) = Some (group e, obj e).
Proof. intros ND I. unfold info. rewrite find_in by assumption. reflexivity. Qed.
Lemma find_some w a e : find_owner w a = Some e -> In e w /\ who e = a.
Proof. intros H. apply find_some in H. destruct H as (I & E). apply Nat.eqb_eq in E. split; assumption. Qed.
Lemma in_info w a g p : info w a = Some (g, p) -> exists e, In e w /\ who e = a /\ group e = g /\ obj e = p.
Proof. unfold info. destruct (find_owner w a) as [e|] eqn:F; [|discriminate]. intros H. injection H as <- <-. apply find_some in F. destruct F. exists e. auto. Qed.
Lemma nodup_without w x : NoDup (map who w) -> NoDup (map who (without x w)) /\ ~ In x (map who (without x w)).
Proof.
  intros ND. split.
  - induction w as [|e w IH]; [exact ND|]. cbn in *. inversion ND as [|? ? N1 N2]; subst. destruct (Nat.eqb (who e) x); cbn; [apply IH; exact N2|]. constructor; [|apply IH; exact N2]. intros I. apply N1. apply in_map_iff in I. destruct I as (f & <- & F). apply filter_In in F. apply in_map. apply F.
  - intros I. apply in_map_iff in I. destruct I as (e & E & F). apply filter_In in F. destruct F as (_ & F). rewrite E, Nat.eqb_refl in F. discriminate.
Qed.
Lemma live_info w x : live w x <-> info w x <> None.
Proof. unfold live, info. destruct (find_owner w x); split; intros; try discriminate; congruence. Qed.
Lemma dead_in w x : ~ live w x -> ~ In x (map who w).
Proof. intros N I. apply N. unfold live. intros F. apply in_map_iff in I. destruct I as (e & <- & I). pose proof (find_none _ _ F e I) as Q. cbn in Q. rewrite Nat.eqb_refl in Q. discriminate. Qed.
Lemma owned_info w o : NoDup (map who w) -> owned w o = true <-> exists a g, info w a = Some (g, Some o).
Proof.
  intros ND. unfold owned. rewrite existsb_exists. split.
  - intros (e & I & E). destruct (obj e) as [o'|] eqn:O; [|discriminate]. apply Nat.eqb_eq in E. subst o'. exists (who e), (group e). rewrite info_in by assumption. rewrite O. reflexivity.
  - intros (a & g & H). apply in_info in H. destruct H as (e & I & _ & _ & O). exists e. split; [exact I|]. rewrite O. apply Nat.eqb_refl.
Qed.
Lemma owns_info w x : owns w x = match info w x with Some (_, p) => p | None => None end.
Proof. unfold owns, info. destruct (find_owner w x); reflexivity. Qed.
Lemma inv_ext h f f' k : (forall a, f' a = f a) -> inv h f k -> inv h f' k.
Proof.
  intros E V. constructor.
  - intros x. rewrite E. apply (i_live _ _ _ V x).
  - apply (i_next _ _ _ V).
  - apply (i_prev _ _ _ V).
  - intros x c H. rewrite !E. apply (i_group _ _ _ V x c H).
  - intros x y g p q. rewrite !E. apply (i_reach _ _ _ V).
  - intros x y g g' o. rewrite !E. apply (i_obj _ _ _ V).
Qed.
(** Alone in the ring, alone in the group. *)
Lemma reach_alone h x cx y : h x = Some cx -> next cx = x -> reach h x y -> y = x.
Proof. intros H N R. remember x as a eqn:A in R. revert A. induction R as [a|a c b Ha R IH]; intros ->; [reflexivity|]. rewrite H in Ha. injection Ha as <-. apply IH. exact N. Qed.
Lemma alone h f k x cx g p : inv h f k -> h x = Some cx -> f x = Some (g, p) -> next cx = x <-> (forall y q, f y = Some (g, q) -> y = x).
Proof.
  intros V H F. split.
  - intros N y q Fy. apply (reach_alone h x cx y H N). apply (i_reach _ _ _ V x y g p q F Fy).
  - intros A. pose proof (i_group _ _ _ V x cx H) as G. rewrite F in G. destruct (f (next cx)) as [(g1, q)|] eqn:Fn; [|discriminate]. injection G as ->. apply (A _ q Fn).
Qed.
Definition good (h : heap) (w : owners) : Prop := inv h (info (now w)) (made w) /\ NoDup (map who (now w)).
Lemma lets_go_spec h w x cx : good h w -> h x = Some cx -> lets_go (now w) x = if Nat.eqb (next cx) x then freed (ptr cx) else [].
Proof.
  intros (V & ND) H. destruct (f_live _ _ _ _ _ V H) as (g & F & _). unfold lets_go. rewrite owns_info, F. destruct (ptr cx) as [o|] eqn:P; [|destruct (Nat.eqb (next cx) x); reflexivity].
  pose proof (alone _ _ _ _ _ _ _ V H F) as A. destruct (owned (without x (now w)) o) eqn:O.
  - apply owned_info in O; [|apply nodup_without; exact ND]. destruct O as (a & g' & Fa). rewrite info_without in Fa. destruct (Nat.eqb_spec a x) as [|AX]; [discriminate|].
    pose proof (i_obj _ _ _ V x a g g' o F Fa) as <-. destruct (Nat.eqb_spec (next cx) x) as [E|_]; [|reflexivity]. exfalso. apply AX. apply (proj1 A E a _ Fa).
  - destruct (Nat.eqb_spec (next cx) x) as [E|N]; [reflexivity|]. exfalso. apply N. apply A. intros y q Fy. destruct (Nat.eq_dec y x) as [->|Y]; [reflexivity|]. exfalso.
    destruct (i_reach _ _ _ V x y g _ q F Fy) as (<- & _). assert (T : owned (without x (now w)) o = true); [|congruence]. apply owned_info; [apply nodup_without; exact ND|]. exists y, g. rewrite info_without. destruct (Nat.eqb_spec y x); [contradiction|exact Fy].
Qed.
Lemma fresh_inv h f k x p v : inv h f k -> h x = None -> match p with None => True | Some o => forall a g, f a <> Some (g, Some o) end -> (forall a, v a = if Nat.eqb a x then Some (Cell p x x) else h a) ->
  inv v (fun a => if Nat.eqb a x then Some (k, p) else f a) (S k).
Proof.
  intros V X P E. assert (Fx : f x = None). { pose proof (i_live _ _ _ V x) as L. rewrite X in L. destruct (f x); [contradiction|reflexivity]. }
  assert (K : forall a g q, f a = Some (g, q) -> g < k). { intros a g q Fa. pose proof (i_live _ _ _ V a) as L. rewrite Fa in L. destruct (h a); [apply L|contradiction]. }
  constructor.
  - intros a. rewrite E. destruct (Nat.eqb_spec a x) as [->|A]; [cbn; auto|]. pose proof (i_live _ _ _ V a) as L. destruct (h a), (f a) as [(g, q)|]; try contradiction; try exact L. split; [apply L|]. destruct L. lia.
  - intros a c. rewrite E. destruct (Nat.eqb_spec a x) as [->|A].
    + intros Q. injection Q as <-. cbn. rewrite E, Nat.eqb_refl. eexists. split; reflexivity.
    + intros Q. destruct (i_next _ _ _ V a c Q) as (cn & Hn & R). rewrite E. destruct (Nat.eqb_spec (next c) x); [congruence|]. eauto.
  - intros a c. rewrite E. destruct (Nat.eqb_spec a x) as [->|A].
    + intros Q. injection Q as <-. cbn. rewrite E, Nat.eqb_refl. eexists. split; reflexivity.
    + intros Q. destruct (i_prev _ _ _ V a c Q) as (cn & Hn & R). rewrite E. destruct (Nat.eqb_spec (prev c) x); [congruence|]. eauto.
  - intros a c. rewrite E. destruct (Nat.eqb_spec a x) as [->|A].
    + intros Q. injection Q as <-. cbn. rewrite Nat.eqb_refl. reflexivity.
    + intros Q. destruct (i_next _ _ _ V a c Q) as (cn & Hn & R). destruct (Nat.eqb_spec (next c) x); [congruence|]. apply (i_group _ _ _ V a c Q).
  - intros a b g q r. destruct (Nat.eqb_spec a x) as [->|A]; destruct (Nat.eqb_spec b x) as [->|B]; intros Fa Fb.
    + split; [congruence|apply reach_refl].
    + injection Fa as <- <-. apply K in Fb. lia.
    + injection Fb as <- <-. apply K in Fa. lia.
    + destruct (i_reach _ _ _ V a b g q r Fa Fb) as (Q & R). split; [exact Q|]. clear - R A X E V. revert A. induction R as [a|a c b Ha R IH]; intros A; [apply reach_refl|].
      eapply reach_step; [rewrite E; destruct (Nat.eqb_spec a x); [contradiction|exact Ha]|]. apply IH. destruct (i_next _ _ _ V a c Ha) as (q & Q & _). congruence.
  - intros a b g g' o. destruct (Nat.eqb_spec a x) as [->|A]; destruct (Nat.eqb_spec b x) as [->|B]; intros Fa Fb.
    + congruence.
    + injection Fa as <- ->. exfalso. apply (P b g' Fb).
    + injection Fb as <- ->. exfalso. apply (P a g Fa).
    + apply (i_obj _ _ _ V a b g g' o Fa Fb).
Qed.
Lemma fresh_info w p : NoDup (map who w) -> fresh w p -> match p with None => True | Some o => forall a g, info w a <> Some (g, Some o) end.
Proof. intros ND F. destruct p as [o|]; [|exact Logic.I]. intros a g H. cbn in F. assert (T : owned w o = true) by (apply owned_info; eauto). congruence. Qed.
Lemma live_heap h w x : good h w -> live (now w) x -> exists c, h x = Some c.
Proof. intros (V & _) L. apply live_info in L. destruct (info (now w) x) as [e|] eqn:F; [|contradiction]. apply (h_live _ _ _ _ _ V F). Qed.
Lemma dead_heap h w x : good h w -> ~ live (now w) x -> h x = None.
Proof. intros (V & _) L. rewrite live_info in L. pose proof (i_live _ _ _ V x) as Q. destruct (h x); [|reflexivity]. destruct (info (now w) x); [|contradiction]. exfalso. apply L. discriminate. Qed.

Lemma leave_good h w x cx : good h w -> h x = Some cx ->
  exists h', leave h x = Some (h', lets_go (now w) x) /\ h' x = Some cx /\ good (put h' x None) (Owners (made w) (without x (now w))) /\ (next cx = x -> forall a, h' a = h a).
Proof.
  intros G H. destruct G as (V & ND) eqn:GE. clear GE. destruct (leave_spec _ _ _ _ _ V H) as (h' & L & HX & HO). exists h'.
  rewrite (lets_go_spec h w x cx (conj V ND) H). split; [exact L|]. split; [rewrite HX; exact H|]. split.
  - split; [|apply nodup_without; exact ND]. cbn [now made]. apply inv_ext with (f := fun a => if Nat.eqb a x then None else info (now w) a); [intros a; apply info_without|].
    apply (skip_inv _ _ _ x cx (put h' x None) V H). intros a. unfold put. destruct (Nat.eqb_spec a x) as [->|A]; [unfold skip; rewrite Nat.eqb_refl; reflexivity|]. apply HO. exact A.
  - intros E a. unfold leave in L. rewrite H, E, Nat.eqb_refl in L. injection L as <-. reflexivity.
Qed.
Lemma join_good h h' w x y : good h w -> ~ live (now w) x -> live (now w) y -> (forall a, a <> x -> h' a = h a) ->
  exists h2, join h' x y = Some h2 /\ good h2 (Owners (made w) (joins (now w) x y)).
Proof.
  intros G NX LY E. pose proof (dead_heap h w x G NX) as X. destruct (live_heap h w y G LY) as (cy & Y). destruct G as (V & ND).
  destruct (join_spec h' h _ _ x y cy V X Y E) as (h2 & J & A). exists h2. split; [exact J|]. destruct (f_live _ _ _ _ _ V Y) as (g & F & _).
  assert (JE : joins (now w) x y = Owner x g (ptr cy) :: now w). { unfold joins. unfold info in F. destruct (find_owner (now w) y) as [e|]; [|discriminate]. injection F as <- <-. reflexivity. }
  rewrite JE. split.
  - cbn [now made]. apply inv_ext with (f := fun a => if Nat.eqb a x then Some (g, ptr cy) else info (now w) a); [intros a; rewrite info_cons; reflexivity|]. apply (attach_inv h _ _ x y cy h2 g (ptr cy) V X Y F A).
  - cbn. constructor; [apply dead_in; exact NX|exact ND].
Qed.
Lemma not_live_without w x : ~ live (without x w) x.
Proof. unfold live. rewrite find_without, Nat.eqb_refl. intros H. apply H. reflexivity. Qed.
Lemma step_good h w o : good h w -> allowed (now w) o -> exists h', step h o = Some (h', snd (spec w o)) /\ good h' (fst (spec w o)).
Proof.
  intros G A. destruct o as [x p|x y|x y|x p|x]; cbn [allowed] in A.
  - destruct A as (N & P). cbn [step spec fst snd]. eexists. split; [reflexivity|]. pose proof (dead_heap h w x G N) as X. destruct G as (V & ND). split; cbn [now made].
    + apply inv_ext with (f := fun a => if Nat.eqb a x then Some (made w, p) else info (now w) a); [intros a; rewrite info_cons; reflexivity|]. apply (fresh_inv h _ _ x p _ V X (fresh_info _ _ ND P)). intros a. reflexivity.
    + constructor; [apply dead_in; exact N|exact ND].
  - destruct A as (N & L). cbn [step spec fst snd]. destruct (join_good h h w x y G N L (fun _ _ => eq_refl)) as (h2 & J & G2). rewrite J. eauto.
  - destruct A as (LX & LY). cbn [step spec]. destruct (Nat.eqb_spec y x) as [->|D]; [cbn; eauto|]. cbn [fst snd]. destruct (live_heap h w x G LX) as (cx & X). destruct (leave_good h w x cx G X) as (h' & L & HX & G2 & _). rewrite L.
    destruct (join_good _ h' _ x y G2) as (h2 & J & G3).
    + apply not_live_without.
    + unfold live. cbn [now]. rewrite find_without. destruct (Nat.eqb_spec y x); [contradiction|]. exact LY.
    + intros a N. rewrite put_other by exact N. reflexivity.
    + rewrite J. eauto.
  - destruct A as (LX & P & NS). cbn [step spec fst snd]. destruct (live_heap h w x G LX) as (cx & X). destruct (leave_good h w x cx G X) as (h' & L & HX & G2 & _). rewrite L, HX. eexists. split; [reflexivity|].
    assert (E : next cx = x).
    { destruct G as (V & ND). destruct (f_live _ _ _ _ _ V X) as (g & F & _). apply (alone _ _ _ _ _ _ _ V X F). intros y q Fy. destruct (Nat.eq_dec y x) as [|Y]; [assumption|]. exfalso. apply NS.
      apply in_info in Fy. destruct Fy as (f & I & W & GF & _). unfold info in F. destruct (find_owner (now w) x) as [e|] eqn:FE; [|discriminate]. injection F as E1 _. exists e, f. repeat split; congruence. }
    assert (E' : prev cx = x). { destruct G as (V & _). destruct (i_next _ _ _ V x cx X) as (q & Q & R). rewrite E, X in Q. injection Q as <-. exact R. }
    rewrite E, E'. destruct G2 as (V2 & ND2). cbn [now made] in *. split; cbn [now made].
    + apply inv_ext with (f := fun a => if Nat.eqb a x then Some (made w, p) else info (without x (now w)) a); [intros a; rewrite info_cons; reflexivity|].
      apply (fresh_inv (put h' x None) _ _ x p _ V2); [apply put_same| |intros a; unfold put; destruct (Nat.eqb a x); reflexivity].
      destruct G as (_ & ND). pose proof (fresh_info _ _ ND P) as Q. destruct p as [o|]; [|exact Logic.I]. intros a g H. rewrite info_without in H. destruct (Nat.eqb a x); [discriminate|]. exact (Q a g H).
    + constructor; [|exact ND2]. destruct G as (_ & ND). apply nodup_without. exact ND.
  - cbn [step spec fst snd]. destruct (live_heap h w x G A) as (cx & X). destruct (leave_good h w x cx G X) as (h' & L & HX & G2 & _). rewrite L. eauto.
Qed.
Lemma good0 : good heap0 owners0.
Proof. split; [|constructor]. constructor; try discriminate. intros x. exact Logic.I. Qed.
Lemma good_get h w x : good h w -> get h x = owns (now w) x.
Proof. intros (V & _). unfold get. rewrite owns_info. pose proof (i_live _ _ _ V x) as L. destruct (h x), (info (now w) x) as [(g, p)|]; try contradiction; [apply L|reflexivity]. Qed.
Lemma play_good os : forall h w, good h w -> all_allowed w os ->
  exists h', play h os = Some (h', run_outs spec w os) /\ good h' (run_state spec w os).
Proof.
  induction os as [|o os IH]; intros h w G A; [exists h; split; [reflexivity|exact G]|]. destruct A as (A & B). destruct (step_good h w o G A) as (h1 & E & G1).
  destruct (IH h1 _ G1 B) as (h2 & E2 & G2). exists h2. cbn [play]. rewrite E, E2. cbn [run_outs run_state]. destruct (spec w o) as (w1, f1). split; [reflexivity|exact G2].
Qed.
Definition held (w : list owner) (o : nat) : nat := if owned w o then 1 else 0.
Lemma held_cons e w o : held (e :: w) o = match obj e with Some o' => if Nat.eqb o' o then 1 else held w o | None => held w o end.
Proof. unfold held, owned. cbn. destruct (obj e) as [o'|]; [|reflexivity]. destruct (Nat.eqb o' o); reflexivity. Qed.
Lemma owned_split w x o : NoDup (map who w) -> owned w o = (match owns w x with Some o' => Nat.eqb o' o | None => false end) || owned (without x w) o.
Proof.
  intros ND. apply Bool.eq_iff_eq_true. rewrite orb_true_iff, !owned_info by (try apply nodup_without; exact ND). rewrite owns_info. split.
  - intros (a & g & H). destruct (Nat.eq_dec a x) as [->|N]; [left; rewrite H; apply Nat.eqb_refl|]. right. exists a, g. rewrite info_without. destruct (Nat.eqb_spec a x); [contradiction|exact H].
  - intros [H|(a & g & H)].
    + destruct (info w x) as [(g, [o'|])|] eqn:F; try discriminate. apply Nat.eqb_eq in H. subst o'. eauto.
    + rewrite info_without in H. destruct (Nat.eqb a x); [discriminate|]. eauto.
Qed.
Lemma lets_go_held w x o : NoDup (map who w) -> count_occ Nat.eq_dec (lets_go w x) o + held (without x w) o = held w o.
Proof.
  intros ND. unfold lets_go, held at 2. rewrite (owned_split w x o ND). destruct (owns w x) as [o'|]; [|reflexivity]. destruct (Nat.eqb_spec o' o) as [->|N].
  - cbn [orb]. unfold held. destruct (owned (without x w) o); cbn; [reflexivity|]. destruct (Nat.eq_dec o o); [reflexivity|contradiction].
  - cbn [orb]. fold (held (without x w) o). destruct (owned (without x w) o'); cbn; [reflexivity|]. destruct (Nat.eq_dec o' o); [contradiction|reflexivity].
Qed.
Lemma joins_held w x y o : live w y -> held (joins w x y) o = held w o.
Proof.
  intros L. unfold joins. unfold live in L. destruct (find_owner w y) as [e|] eqn:F; [|reflexivity]. rewrite held_cons. cbn [obj]. destruct (obj e) as [o'|] eqn:O; [|reflexivity].
  destruct (Nat.eqb_spec o' o) as [->|]; [|reflexivity]. unfold held, owned. replace (existsb _ w) with true; [reflexivity|]. symmetry. apply existsb_exists. exists e. apply find_some in F. split; [apply F|]. rewrite O. apply Nat.eqb_refl.
Qed.
Lemma nodup_joins w x y : ~ live w x -> NoDup (map who w) -> NoDup (map who (joins w x y)).
Proof. intros N ND. unfold joins. destruct (find_owner w y); [|exact ND]. cbn. constructor; [apply dead_in; exact N|exact ND]. Qed.
Lemma spec_nodup w o : NoDup (map who (now w)) -> allowed (now w) o -> NoDup (map who (now (fst (spec w o)))).
Proof.
  intros ND A. destruct o as [x p|x y|x y|x p|x]; cbn [allowed spec fst now] in *.
  - cbn. constructor; [apply dead_in; apply A|exact ND].
  - apply nodup_joins; [apply A|exact ND].
  - destruct (Nat.eqb y x); [exact ND|]. cbn [fst now]. apply nodup_joins; [apply not_live_without|apply nodup_without; exact ND].
  - cbn. constructor; apply nodup_without; exact ND.
  - apply nodup_without; exact ND.
Qed.
Lemma spec_held w op o : NoDup (map who (now w)) -> allowed (now w) op ->
  count_occ Nat.eq_dec (snd (spec w op)) o + held (now (fst (spec w op))) o = held (now w) o + count_occ Nat.eq_dec (given1 op) o.
Proof.
  intros ND A. assert (FR : forall w0 p, fresh w0 p -> held (Owner 0 0 p :: w0) o = held w0 o + count_occ Nat.eq_dec (match p with Some q => [q] | None => [] end) o).
  { intros w0 p F. rewrite held_cons. cbn [obj]. destruct p as [q|]; [|cbn; lia]. cbn [fresh count_occ] in *. destruct (Nat.eqb_spec q o) as [E|N]; destruct (Nat.eq_dec q o) as [E2|E2]; try lia; try contradiction.
    subst o. unfold held. rewrite F. reflexivity. }
  destruct op as [x p|x y|x y|x p|x]; cbn [allowed spec fst snd now] in *.
  - destruct A as (_ & F). specialize (FR _ _ F). rewrite held_cons in FR |- *. cbn [obj] in *. cbn [count_occ]. unfold given1. destruct p; cbn in *; lia.
  - rewrite joins_held by apply A. cbn. lia.
  - destruct (Nat.eqb_spec y x) as [->|D]; [cbn; lia|]. cbn [fst snd now]. rewrite joins_held.
    + rewrite lets_go_held by exact ND. cbn. lia.
    + unfold live. rewrite find_without. destruct (Nat.eqb_spec y x); [contradiction|]. apply A.
  - destruct A as (_ & F & _). assert (F2 : fresh (without x (now w)) p). { destruct p as [q|]; [|exact Logic.I]. cbn in *. rewrite (owned_split (now w) x q ND) in F. apply orb_false_iff in F. apply F. }
    specialize (FR _ _ F2). pose proof (lets_go_held (now w) x o ND) as L. rewrite held_cons in FR |- *. cbn [obj] in *. unfold given1. destruct p; cbn in *; lia.
  - rewrite lets_go_held by exact ND. cbn. lia.
Qed.
Lemma history_held os : forall w o, NoDup (map who (now w)) -> all_allowed w os ->
  count_occ Nat.eq_dec (concat (run_outs spec w os)) o + held (now (run_state spec w os)) o = held (now w) o + count_occ Nat.eq_dec (given os) o.
Proof.
  induction os as [|p os IH]; intros w o ND A; [cbn; lia|]. destruct A as (A & B). pose proof (spec_held w p o ND A) as H. specialize (IH _ o (spec_nodup w p ND A) B). unfold given in *. cbn [run_outs run_state map concat]. destruct (spec w p) as (w1, f). cbn [fst snd concat] in *. rewrite !count_occ_app. lia.
Qed.
