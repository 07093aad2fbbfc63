(** Lemmas about transitions. *)
From Coq Require Import ZArith List Bool Lia ZifyBool ZifyNat.
From Verif Require Import Machine ArithModel ArithProofs TransModel TransSpec.
Import ListNotations.
Open Scope Z_scope.

Lemma tr_rect' (P : tr -> Prop)
  (H1 : P Instant) (H2 : forall m b, P (Delay m b)) (H3 : forall m b x, P (Fade m b x)) (H4 : forall m b x, P (SmoothFade m b x))
  (H5 : forall n m b x, P (Boing n m b x)) (H6 : forall n w m b x, P (Blink n w m b x)) (H7 : forall m b x, P (Wipe m b x)) (H8 : forall m b x, P (WipeIn m b x))
  (H9 : forall p m b x, P (CenterWipe p m b x)) (H10 : forall p m b x, P (CenterWipeIn p m b x))
  (H11 : forall a b r, P a -> P b -> P (Concat2 a b r)) (H12 : forall a c b r, P a -> P b -> P (Concat3 a c b r))
  (H13 : forall a b, P a -> P b -> P (Join a b)) (H14 : forall a b, P a -> P b -> P (JoinR a b))
  (H15 : forall k ts s g, Forall P ts -> P (Alt k ts s g)) (H16 : forall m b e t, P t -> P (Extend m b e t))
  (H17 : forall t, P t -> P (Loop t)) (H18 : forall n l t, P t -> P (LoopN n l t)) (H19 : forall p q t o, P t -> P o -> P (LoopUntil p q t o))
  (H20 : forall al g d k t, P t -> P (DoEffect al g d k t)) : forall t, P t.
Proof.
  fix IH 1. intros t. destruct t.
  - exact H1. - apply H2. - apply H3. - apply H4. - apply H5. - apply H6. - apply H7. - apply H8. - apply H9. - apply H10.
  - apply H11; apply IH. - apply H12; apply IH. - apply H13; apply IH. - apply H14; apply IH.
  - apply H15. induction ts as [|t ts IHts]; constructor; [apply IH|exact IHts].
  - apply H16; apply IH. - apply H17; apply IH. - apply H18; apply IH. - apply H19; apply IH. - apply H20; apply IH.
Qed.

Lemma begin_begin t : begin (begin t) = begin t.
Proof. induction t using tr_rect'; cbn; auto; try congruence. rewrite IHt. destruct al; reflexivity. Qed.
Lemma on_nth_ext f g l n : (forall t, In t l -> f t = g t) -> on_nth f l n = on_nth g l n.
Proof. revert n; induction l as [|t l IH]; intros n E; cbn; [reflexivity|]. destruct n; rewrite ?(E t) by (left; reflexivity); [reflexivity|]. rewrite IH; [reflexivity|]. intros; apply E; right; assumption. Qed.
(** [go true] is begin followed by run. *)
Lemma go_begin2 f t : go true f t = go false f (begin t) /\ go true f (begin t) = go true f t.
Proof.
  induction t using tr_rect'; cbn [begin go began orb andb negb]; rewrite ?orb_true_r, ?orb_false_r; auto.
  - destruct IHt1 as (A & B). rewrite B, <- A. destruct (done (go true f t1)); auto.
  - destruct IHt1 as (A & B). rewrite B, <- A. destruct (done (go true f t1)); auto.
  - destruct IHt1 as (A & B), IHt2 as (C & D). rewrite B, D, <- A, <- C. auto.
  - destruct IHt1 as (A & B), IHt2 as (C & D). rewrite B, D, <- A, <- C. auto.
  - destruct IHt as (A & B). rewrite B, <- A. auto.
  - destruct IHt as (A & B). rewrite B, <- A. destruct (done (begin t)); auto.
  - destruct IHt as (A & B). rewrite begin_begin, B, <- A. change (-1 <? 0) with true. cbn [orb]. destruct (Z.gtb_spec (val f n + 1) 1); auto. 
  - destruct IHt1 as (A & B). rewrite B, <- A. destruct (done (begin t1)); auto.
  - destruct IHt as (A & B). rewrite B, <- A. destruct al; cbn; auto.
Qed.
Lemma go_begin f t : go true f t = run f (begin t).
Proof. apply go_begin2. Qed.
(** The bodies of the C++ run() functions of the composite transitions. *)
Lemma run_eq f t : run f t =
  match t with
  | Concat2 a b ra =>
    if ra then let a := run f a in if done a then Concat2 a (run f (begin b)) false else Concat2 a b true
    else Concat2 a (run f b) false
  | Concat3 a c b ra =>
    if ra then let a := run f a in if done a then Concat3 a c (run f (begin b)) false else Concat3 a c b true
    else Concat3 a c (run f b) false
  | Join a b => Join (run f a) (run f b)
  | JoinR a b => JoinR (run f a) (run f b)
  | Alt k ts s bg =>
    if bg then let s := choose f k (length ts) s in Alt k (on_nth (fun t => run f (begin t)) ts (slot ts s)) s false
    else Alt k (on_nth (run f) ts (slot ts s)) s false
  | Extend m b ex t =>
    let t := run f t in
    let '(b, ex) := if negb ex && done t then (b_begin b, true) else (b, ex) in
    let b := b_run f m b in
    Extend m (if ex then fst (b_update f m b 0) else b) ex t
  | Loop t => Loop (run f (if done t then begin t else t))
  | LoopN n loops t =>
    let loops := if loops <? 0 then val f n + 1 else loops in
    if (loops >? 0) && done t then LoopN n (loops - 1) (run f (if loops >? 1 then begin t else t))
    else LoopN n loops (run f t)
  | LoopUntil p pulsed t o =>
    let t := run f (if done t then begin t else t) in
    if pulsed then LoopUntil p true t (run f o)
    else if negb (val f p =? 0) then LoopUntil p true t (run f (begin o))
    else LoopUntil p false t o
  | DoEffect al bg d k t =>
    DoEffect al false (if al then d else d || (negb (is_on f) && negb (is_powered f))) (if bg && (al || is_on f) then S k else k) (run f t)
  | _ => run f t
  end.
Proof.
  destruct t; try reflexivity; unfold run at 1; cbn [go orb negb andb].
  - rewrite go_begin. reflexivity.
  - rewrite go_begin. reflexivity.
  - destruct begin_; [|reflexivity]. cbv zeta. f_equal. apply on_nth_ext. intros. apply go_begin.
  - rewrite go_begin. destruct (done t); reflexivity.
  - rewrite go_begin. destruct (Z.gtb_spec (if loops <? 0 then val f n + 1 else loops) 1); reflexivity.
  - rewrite !go_begin. destruct (done t1); reflexivity.
Qed.

(** ** Finished transitions stay finished and show the new color *)
Definition b_idle (b : base) : bool := negb (restart b) && (len b =? 0).
(** Done, with no begin() waiting for its first frame. *)
Fixpoint idle (t : tr) : bool :=
  match t with
  | Instant => true
  | Delay _ b | Fade _ b _ | SmoothFade _ b _ | Boing _ _ b _ | Blink _ _ _ b _ | Wipe _ b _ | WipeIn _ b _ | CenterWipe _ _ b _ | CenterWipeIn _ _ b _ => b_idle b
  | Concat2 _ b ra | Concat3 _ _ b ra => negb ra && idle b
  | Join a b | JoinR a b => idle a && idle b
  | Alt k ts s bg => negb bg && at_nth true idle ts (slot ts s)
  | Extend _ b ex t => ex && b_idle b && idle t
  | Loop _ => false
  | LoopN _ loops t => (loops =? 0) && idle t
  | LoopUntil _ p _ o => p && idle o
  | DoEffect al _ d _ t => (if al then false else d) || idle t
  end.
Fixpoint wf (t : tr) : Prop :=
  match t with
  | Concat2 a b ra | Concat3 a _ b ra => if ra then wf a else wf b
  | Join a b | JoinR a b => wf a /\ wf b
  | Alt k ts s bg => if bg then True else at_nth True wf ts (slot ts s)
  | Extend _ _ ex t => wf t /\ (ex = true -> idle t = true)
  | Loop t => wf t
  | LoopN _ loops t => wf t /\ (loops = 0 -> idle t = true) /\ (0 < loops -> done t = true -> idle t = true)
  | LoopUntil _ p t o => wf t /\ (p = true -> wf o)
  | DoEffect _ _ _ _ t => wf t
  | _ => True
  end.
Lemma wf_begin t : wf (begin t).
Proof. induction t using tr_rect'; cbn [begin wf]; auto; repeat split; auto; intros; try discriminate; try lia. Qed.
Lemma at_nth_on_nth {A} (d : A) g h l n : at_nth d g (on_nth h l n) n = at_nth d (fun t => g (h t)) l n.
Proof. revert n; induction l as [|t l IH]; intros [|n]; cbn; auto. Qed.
Lemma on_nth_length h l n : length (on_nth h l n) = length l.
Proof. revert n; induction l as [|t l IH]; intros [|n]; cbn; auto. Qed.
Lemma slot_on_nth h l n s : slot (on_nth h l n) s = slot l s.
Proof. unfold slot. rewrite on_nth_length. reflexivity. Qed.
Lemma b_update_restart f m b s : restart (fst (b_update f m b s)) = restart b.
Proof. unfold b_update. destruct (b_done b); [reflexivity|]. cbv zeta. destruct (_ >? _); reflexivity. Qed.
Lemma b_run_restart f m b : restart (b_run f m b) = false.
Proof. unfold b_run. destruct (restart b) eqn:E; [reflexivity|exact E]. Qed.
Lemma b_run_idle f m b : b_idle b = true -> b_run f m b = b.
Proof. unfold b_idle, b_run. destruct (restart b); [discriminate|reflexivity]. Qed.
Lemma b_update_idle f m b s : b_idle b = true -> b_update f m b s = (b, s).
Proof. unfold b_idle, b_update, b_done. rewrite andb_true_iff. intros (_ & ->). reflexivity. Qed.
Lemma b_after f m b s : let b' := fst (b_update f m (b_run f m b) s) in b_idle b' = b_done b'.
Proof. cbv zeta. unfold b_idle. rewrite b_update_restart, b_run_restart. reflexivity. Qed.
Lemma b_keep f m b s : b_idle b = true -> b_idle (fst (b_update f m (b_run f m b) s)) = true.
Proof. intros I. rewrite b_run_idle, b_update_idle by exact I. exact I. Qed.
Lemma b_full f m b s : let '(b', x) := b_update f m b s in b_done b' = true -> x = s.
Proof. unfold b_update. destruct (b_done b) eqn:E; [reflexivity|]. cbv zeta. destruct (_ >? _); [reflexivity|]. rewrite E. discriminate. Qed.
(** The same for the two updates of the center wipes. *)
Lemma b_full2 f m b s1 s2 : let '(b', x) := b_update f m b s1 in let '(b'', y) := b_update f m b' s2 in b_done b'' = true -> x = s1 /\ y = s2.
Proof.
  unfold b_update at 1. destruct (b_done b) eqn:E.
  - unfold b_update. rewrite E. auto.
  - cbv zeta. destruct (_ >? _) eqn:G; [unfold b_update; cbn; auto|]. unfold b_update. rewrite E. cbv zeta. rewrite G. rewrite E. discriminate.
Qed.
Lemma counts_all f ts : (fix all l := match l with [] => True | t :: l => counts_ok f t /\ all l end) ts <-> Forall (counts_ok f) ts.
Proof. induction ts as [|t ts IH]; cbn; [split; auto|]. rewrite IH. split; [intros (A & B); constructor; auto|intros H; inversion H; auto]. Qed.
Lemma positions_all f ts : (fix all l := match l with [] => True | t :: l => positions_ok f t /\ all l end) ts <-> Forall (positions_ok f) ts.
Proof. induction ts as [|t ts IH]; cbn; [split; auto|]. rewrite IH. split; [intros (A & B); constructor; auto|intros H; inversion H; auto]. Qed.
Lemma ends_all ts : (fix all l := match l with [] => True | t :: l => ends_at_new t /\ all l end) ts <-> Forall ends_at_new ts.
Proof. induction ts as [|t ts IH]; cbn; [split; auto|]. rewrite IH. split; [intros (A & B); constructor; auto|intros H; inversion H; auto]. Qed.
Lemma at_nth_Forall (P : tr -> Prop) (Q : tr -> Prop) ts n : Forall P ts -> (forall t, P t -> Q t) -> at_nth True Q ts n.
Proof. intros F I. revert n; induction F as [|t ts T F IH]; intros [|n]; cbn; auto. Qed.

Definition good (f : frame) (t : tr) : Prop :=
  (wf (go true f t) /\ (done (go true f t) = true -> idle (go true f t) = true)) /\
  (wf t -> wf (go false f t) /\ (done (go false f t) = true -> idle (go false f t) = true) /\ (idle t = true -> idle (go false f t) = true)).
Lemma idle_done t : idle t = true -> done t = true.
Proof.
  induction t using tr_rect'; cbn [idle done]; unfold b_idle, b_done; auto; try (rewrite ?andb_true_iff, ?orb_true_iff; intuition; fail).
  rewrite andb_true_iff. intros (B & I). destruct g; [discriminate|]. replace (match k with Random _ => false | _ => false end) with false by (destruct k; reflexivity).
  revert I. generalize (slot ts s). induction H as [|t ts T F IH]; intros [|n]; cbn; auto.
Qed.
Lemma good_leaf f t m b sc : (forall bg, exists b', b' = fst (b_update f m (b_run f m (began bg b)) sc) /\ done (go bg f t) = b_done b' /\ idle (go bg f t) = b_idle b' /\ wf (go bg f t)) -> idle t = b_idle b -> good f t.
Proof.
  intros H I. split.
  - destruct (H true) as (b' & E & D & J & W). split; [exact W|]. rewrite D, J, E, b_after. auto.
  - intros _. destruct (H false) as (b' & E & D & J & W). split; [exact W|]. rewrite D, J, E, b_after. split; [auto|]. rewrite I, <- b_after. apply b_keep.
Qed.
Lemma good_Alt f k ts s g : Forall (good f) ts -> good f (Alt k ts s g).
Proof.
  intros F.
  assert (N : forall n, at_nth True wf (on_nth (go true f) ts n) n /\ (at_nth true done (on_nth (go true f) ts n) n = true -> at_nth true idle (on_nth (go true f) ts n) n = true)).
  { induction F as [|t ts ((A & B) & _) F IH]; intros [|n]; cbn; auto. }
  assert (M : forall n, at_nth True wf ts n -> at_nth True wf (on_nth (go false f) ts n) n /\ (at_nth true done (on_nth (go false f) ts n) n = true -> at_nth true idle (on_nth (go false f) ts n) n = true) /\ (at_nth true idle ts n = true -> at_nth true idle (on_nth (go false f) ts n) n = true)).
  { clear N. induction F as [|t ts (_ & A) F IH]; intros [|n]; cbn; auto. }
  split.
  - cbn [go orb]. cbv zeta. cbn [wf done idle negb andb]. rewrite slot_on_nth. destruct (N (slot ts (choose f k (length ts) s))) as (A & B). split; [exact A|]. destruct k; exact B.
  - cbn [wf go orb]. destruct g; intros W.
    + cbv zeta. cbn [wf done idle negb andb]. rewrite slot_on_nth. destruct (N (slot ts (choose f k (length ts) s))) as (A & B). split; [exact A|]. split; [destruct k; exact B|discriminate].
    + cbn [wf done idle negb andb]. rewrite slot_on_nth. destruct (M _ W) as (A & B & D). split; [exact A|]. split; [destruct k; exact B|exact D].
Qed.
Lemma good_all f t : counts_ok f t -> good f t.
Proof.
  induction t using tr_rect'; intros C.
  - split; cbn; auto.
  - apply (good_leaf f _ m b 0); [|reflexivity]. intros bg. eexists. split; [reflexivity|]. cbn [go done idle wf]. auto.
  - apply (good_leaf f _ m b 16384); [|reflexivity]. intros bg. eexists. split; [reflexivity|]. cbn [go]. destruct (b_update _ _ _ _). cbn. auto.
  - apply (good_leaf f _ m b 32768); [|reflexivity]. intros bg. eexists. split; [reflexivity|]. cbn [go]. destruct (b_update _ _ _ _). cbn. auto.
  - apply (good_leaf f _ m b (16384 * (n * 2 + 1))); [|reflexivity]. intros bg. eexists. split; [reflexivity|]. cbn [go]. destruct (b_update _ _ _ _). cbn. auto.
  - apply (good_leaf f _ m b (32768 * n)); [|reflexivity]. intros bg. eexists. split; [reflexivity|]. cbn [go]. destruct (b_update _ _ _ _). cbn. auto.
  - apply (good_leaf f _ m b (256 * leds f)); [|reflexivity]. intros bg. eexists. split; [reflexivity|]. cbn [go]. destruct (b_update _ _ _ _). cbn. auto.
  - apply (good_leaf f _ m b (256 * leds f)); [|reflexivity]. intros bg. eexists. split; [reflexivity|]. cbn [go]. destruct (b_update _ _ _ _). cbn. auto.
  - set (cn := u32 (Z.shiftr (val f p * leds f) 7)). apply (good_leaf f _ m b 0); [|reflexivity]. intros bg. eexists. split; [reflexivity|]. cbn [go]. cbv zeta. fold cn.
    assert (E : forall bb s1 s2, fst (b_update f m (fst (b_update f m bb s1)) s2) = fst (b_update f m bb 0)).
    { intros bb s1 s2. unfold b_update. destruct (b_done bb) eqn:DD; cbn [fst]; [rewrite DD; reflexivity|]. cbv zeta. destruct (_ >? _) eqn:G; cbn [fst]; [reflexivity|]. rewrite DD, G. reflexivity. }
    specialize (E (b_run f m (began bg b)) (u32 (256 * leds f - cn)) cn). destruct (b_update f m (b_run f m (began bg b)) (u32 (256 * leds f - cn))) as [b1 x1]. cbn [fst] in E. destruct (b_update f m b1 cn) as [b2 x2]. cbn [fst] in E. subst b2. cbn [done idle wf]. auto.
  - set (cn := u32 (Z.shiftr (val f p * leds f) 7)). apply (good_leaf f _ m b 0); [|reflexivity]. intros bg. eexists. split; [reflexivity|]. cbn [go]. cbv zeta. fold cn.
    assert (E : forall bb s1 s2, fst (b_update f m (fst (b_update f m bb s1)) s2) = fst (b_update f m bb 0)).
    { intros bb s1 s2. unfold b_update. destruct (b_done bb) eqn:DD; cbn [fst]; [rewrite DD; reflexivity|]. cbv zeta. destruct (_ >? _) eqn:G; cbn [fst]; [reflexivity|]. rewrite DD, G. reflexivity. }
    specialize (E (b_run f m (began bg b)) (u32 (256 * leds f - cn)) cn). destruct (b_update f m (b_run f m (began bg b)) (u32 (256 * leds f - cn))) as [b1 x1]. cbn [fst] in E. destruct (b_update f m b1 cn) as [b2 x2]. cbn [fst] in E. subst b2. cbn [done idle wf]. auto.
  - destruct C as (C1 & C2). destruct (IHt1 C1) as ((A1 & A2) & A3), (IHt2 C2) as ((B1 & B2) & B3). split.
    + cbn [go orb]. cbv zeta. destruct (done (go true f t1)); cbn [wf done idle negb andb]; auto.
    + cbn [wf go orb]. destruct r; intros W; cbn [negb andb idle].
      * cbv zeta. destruct (A3 W) as (W1 & _). destruct (done (go false f t1)); cbn [wf done idle negb andb]; repeat split; auto; discriminate.
      * destruct (B3 W) as (W1 & W2 & W3). cbn [wf done idle negb andb]. auto.
  - destruct C as (C1 & C2). destruct (IHt1 C1) as ((A1 & A2) & A3), (IHt2 C2) as ((B1 & B2) & B3). split.
    + cbn [go orb]. cbv zeta. destruct (done (go true f t1)); cbn [wf done idle negb andb]; auto.
    + cbn [wf go orb]. destruct r; intros W; cbn [negb andb idle].
      * cbv zeta. destruct (A3 W) as (W1 & _). destruct (done (go false f t1)); cbn [wf done idle negb andb]; repeat split; auto; discriminate.
      * destruct (B3 W) as (W1 & W2 & W3). cbn [wf done idle negb andb]. auto.
  - destruct C as (C1 & C2). destruct (IHt1 C1) as ((A1 & A2) & A3), (IHt2 C2) as ((B1 & B2) & B3). split; cbn [go wf done idle]; rewrite ?andb_true_iff; [tauto|]. rewrite ?andb_true_iff in *. intros (W1 & W2). specialize (A3 W1). specialize (B3 W2). tauto.
  - destruct C as (C1 & C2). destruct (IHt1 C1) as ((A1 & A2) & A3), (IHt2 C2) as ((B1 & B2) & B3). split; cbn [go wf done idle]; rewrite ?andb_true_iff; [tauto|]. rewrite ?andb_true_iff in *. intros (W1 & W2). specialize (A3 W1). specialize (B3 W2). tauto.
  - apply good_Alt. cbn [counts_ok] in C. apply counts_all in C. rewrite Forall_forall in *. intros t I. apply (H t I). apply C. exact I.
  - destruct (IHt C) as ((A1 & A2) & A3). split.
    + cbn [go]. cbn [negb andb]. destruct (done (go true f t)) eqn:D.
      * cbn [wf done idle andb]. split; [auto|]. rewrite b_after, (A2 eq_refl). intros ->. reflexivity.
      * cbn [wf done idle andb]. split; [split; [auto|discriminate]|discriminate].
    + cbn [wf go negb andb]. intros (W & E). destruct (A3 W) as (W1 & W2 & W3). destruct e; cbn [negb andb].
      * pose proof (W3 (E eq_refl)) as J. cbn [wf done idle andb]. rewrite b_after, J, !andb_true_r. split; [split; [exact W1|auto]|]. split; [auto|]. rewrite andb_true_iff, <- b_after. intros (K & _). apply b_keep. exact K.
      * destruct (done (go false f t)) eqn:D; cbn [wf done idle andb]; (split; [split; [assumption|auto; discriminate]|split; [|discriminate]]); [|discriminate]. rewrite b_after. rewrite (W2 eq_refl). intros ->. reflexivity.
  - destruct (IHt C) as ((A1 & A2) & A3). split; cbn [go orb wf done idle]; [split; [exact A1|discriminate]|]. intros W. destruct (A3 W) as (W1 & W2 & W3). split; [destruct (done t); assumption|]. split; discriminate.
  - destruct C as (N1 & C). destruct (IHt C) as ((A1 & A2) & A3). split.
    + cbn [go orb]. cbv zeta. destruct (Z.gtb_spec (val f n + 1) 0); [|lia]. cbn [andb]. destruct (done (begin t)); cbn [wf done idle]; repeat split; auto; intros; try lia.
    + cbn [wf go orb]. cbv zeta. intros (W & E0 & E1). destruct (A3 W) as (W1 & W2 & W3). destruct (Z.ltb_spec l 0).
      * destruct (Z.gtb_spec (val f n + 1) 0); [|lia]. cbn [andb]. destruct (Z.gtb_spec (val f n + 1) 1); [|lia]. destruct (done t); cbn [wf done idle]; repeat split; auto; intros; try lia.
      * destruct (Z.gtb_spec l 0); cbn [andb].
        -- destruct (done t) eqn:D.
           ++ destruct (Z.gtb_spec l 1).
              ** cbn [wf done idle]; repeat split; auto; intros; try lia.
              ** assert (l = 1) by lia. subst l. specialize (E1 ltac:(lia) eq_refl). cbn [wf done idle]; repeat split; auto; intros; try lia.
           ++ cbn [wf done idle]; repeat split; auto; intros; try lia.
        -- assert (l = 0) by lia. subst l. specialize (E0 eq_refl). cbn [wf done idle]; repeat split; auto; intros; try lia.
  - destruct C as (C1 & C2). destruct (IHt1 C1) as ((A1 & A2) & A3), (IHt2 C2) as ((B1 & B2) & B3). split.
    + cbn [go orb negb andb]. destruct (val f p =? 0); cbn [negb wf done idle andb]; repeat split; auto; discriminate.
    + cbn [wf go orb negb andb]. intros (W & V). destruct (A3 W) as (W1 & W2 & W3).
      assert (X : wf (if done t1 then go true f t1 else go false f t1)) by (destruct (done t1); assumption).
      destruct q; cbn [wf done idle andb].
      * destruct (B3 (V eq_refl)) as (V1 & V2 & V3). auto.
      * destruct (val f p =? 0); cbn [negb wf done idle andb]; repeat split; auto; discriminate.
  - destruct (IHt C) as ((A1 & A2) & A3). split.
    + cbn [go wf done idle]. split; [exact A1|]. destruct al; cbn [negb andb orb]; [exact A2|]. destruct (negb (is_on f) && negb (is_powered f)); cbn; auto.
    + cbn [go wf done idle]. intros W. destruct (A3 W) as (W1 & W2 & W3). split; [exact W1|]. destruct al; cbn [negb andb orb]; [auto|]. destruct d; cbn [orb]; [auto|]. destruct (negb (is_on f) && negb (is_powered f)); cbn; auto.
Qed.

Definition leds_ok (f : frame) (led : Z) : Prop := 0 <= led < leds f /\ leds f <= 8388607.
Lemma i32_small x : -2147483648 <= x <= 2147483647 -> i32 x = x.
Proof. intros. unfold i32. rewrite Z.mod_small; lia. Qed.
Lemma covered_in lo hi led : 0 <= led -> 0 <= lo <= led * 256 -> led * 256 + 256 <= hi -> hi < 4294967296 -> covered (Range lo hi) led = 256.
Proof.
  intros L A B C. unfold covered, r_and, r_size. cbn [r_start r_end]. rewrite !u32_small by lia. replace (Z.max lo (led * 256)) with (led * 256) by lia. replace (Z.min hi (led * 256 + 256)) with (led * 256 + 256) by lia.
  destruct (Z.geb_spec (led * 256) (led * 256 + 256)); lia.
Qed.
Lemma covered_empty x led : 0 <= x < 4294967296 -> covered (Range x x) led = 0.
Proof. intros X. unfold covered, r_and, r_size. cbn [r_start r_end]. destruct (Z.geb_spec (Z.max x (u32 (led * 256))) (Z.min x (u32 (led * 256 + 256)))); [reflexivity|lia]. Qed.
Lemma center_range f p : 0 <= val f p <= 32768 -> 0 <= leds f <= 8388607 -> 0 <= u32 (Z.shiftr (val f p * leds f) 7) <= 256 * leds f.
Proof.
  intros P L. rewrite Z.shiftr_div_pow2 by lia. change (2 ^ 7) with 128.
  assert (0 <= val f p * leds f / 128 <= 256 * leds f). { split; [apply Z.div_pos; nia|]. apply Z.div_le_upper_bound; nia. }
  rewrite u32_small by lia. assumption.
Qed.
Lemma boing_full n : 0 <= n -> 16384 * (n * 2 + 1) < 4294967296 -> boing (u32 (16384 * (n * 2 + 1))) = 16384.
Proof.
  intros N B. rewrite u32_small by lia. unfold boing. replace (16384 * (n * 2 + 1)) with (16384 + n * 2 ^ 15) by lia.
  assert (X : Z.land (16384 + n * 2 ^ 15) 16383 = 0). { change 16383 with (Z.ones 14). rewrite Z.land_ones by lia. replace (16384 + n * 2 ^ 15) with ((1 + 2 * n) * 2 ^ 14) by lia. apply Z.mod_mul. lia. }
  assert (Y : Z.land (16384 + n * 2 ^ 15) 16384 = 16384).
  { change 16384 with (Z.shiftl 1 14) at 2. change 16384 with (2 ^ 14) at 1. apply Z.bits_inj'. intros i I. rewrite Z.land_spec. change (Z.shiftl 1 14) with (2 ^ 14). rewrite Z.pow2_bits_eqb by lia. change 16384 with (2 ^ 14). rewrite Z.pow2_bits_eqb by lia.
    destruct (Z.eqb_spec 14 i); [|apply andb_false_r]. subst i. rewrite andb_true_r. replace (2 ^ 14 + n * 2 ^ 15) with ((1 + 2 * n) * 2 ^ 14) by lia. rewrite Z.mul_pow2_bits by lia. change (14 - 14) with 0. rewrite Z.bit0_odd. rewrite Z.odd_add_mul_2. reflexivity. }
  rewrite X, Y. reflexivity.
Qed.
(** Boings are few enough that their scale fits. *)
Fixpoint boings_ok (t : tr) : Prop :=
  match t with
  | Boing n _ _ _ => 0 <= n /\ 16384 * (n * 2 + 1) < 4294967296
  | Concat2 a b _ | Concat3 a _ b _ | Join a b | JoinR a b | LoopUntil _ _ a b => boings_ok a /\ boings_ok b
  | Alt _ ts _ _ => (fix all l := match l with [] => True | t :: l => boings_ok t /\ all l end) ts
  | Extend _ _ _ t | Loop t | DoEffect _ _ _ _ t | LoopN _ _ t => boings_ok t
  | _ => True
  end.
Lemma boings_all ts : (fix all l := match l with [] => True | t :: l => boings_ok t /\ all l end) ts <-> Forall boings_ok ts.
Proof. induction ts as [|t ts IH]; cbn; [split; auto|]. rewrite IH. split; [intros (A & B); constructor; auto|intros H; inversion H; auto]. Qed.
Lemma new_color {C} (ok : C -> Prop) mix colors f led (b : C) t : mixes ok mix -> ok b -> leds_ok f led -> ends_at_new t -> positions_ok f t -> boings_ok t ->
  forall bg a, idle (go bg f t) = true -> getColor mix colors (go bg f t) a b led = b.
Proof.
  intros (FULL & NONE) OK (L1 & L2).
  assert (LE : forall m bb s, b_idle (fst (b_update f m bb s)) = true -> snd (b_update f m bb s) = s).
  { intros m bb s I. pose proof (b_full f m bb s) as F. destruct (b_update f m bb s) as [b' x]. apply F. unfold b_idle in I. rewrite andb_true_iff in I. apply I. }
  assert (M14 : forall a x, x = 16384 -> mix a b x 14 = b) by (intros a x ->; apply (FULL a b 14); auto).
  assert (M8 : forall a x, x = 256 -> mix a b x 8 = b) by (intros a x ->; apply (FULL a b 8); auto).
  induction t using tr_rect'; intros EN PO BO bg a.
  - reflexivity.
  - cbn [go idle getColor]. unfold b_idle. rewrite andb_true_iff. intros (_ & D). unfold b_done. rewrite D. reflexivity.
  - cbn [go]. intros I. specialize (LE m (b_run f m (began bg b0)) 16384). destruct (b_update _ _ _ _) as [b' y]. cbn [fst snd idle getColor] in *. rewrite (LE I). apply M14. reflexivity.
  - cbn [go]. intros I. specialize (LE m (b_run f m (began bg b0)) 32768). destruct (b_update _ _ _ _) as [b' y]. cbn [fst snd idle getColor] in *. rewrite (LE I). apply M14. reflexivity.
  - cbn [go]. intros I. specialize (LE m (b_run f m (began bg b0)) (16384 * (n * 2 + 1))). destruct (b_update _ _ _ _) as [b' y]. cbn [fst snd idle getColor] in *. rewrite (LE I). apply M14. apply boing_full; apply BO.
  - destruct EN.
  - cbn [go]. intros I. specialize (LE m (b_run f m (began bg b0)) (256 * leds f)). destruct (b_update _ _ _ _) as [b' y]. cbn [fst snd idle getColor] in *. rewrite (LE I). apply M8. rewrite u32_small by lia. apply covered_in; lia.
  - cbn [go]. intros I. specialize (LE m (b_run f m (began bg b0)) (256 * leds f)). destruct (b_update _ _ _ _) as [b' y]. cbn [fst snd idle getColor] in *. rewrite (LE I). apply M8. rewrite !u32_small by lia. apply covered_in; lia.
  - cbn [go]. cbv zeta. pose proof (center_range f p PO ltac:(lia)) as CR. set (cn := u32 (Z.shiftr (val f p * leds f) 7)) in *.
    pose proof (b_full2 f m (b_run f m (began bg b0)) (u32 (256 * leds f - cn)) cn) as F2. destruct (b_update f m (b_run f m (began bg b0)) (u32 (256 * leds f - cn))) as [b1 x1]. destruct (b_update f m b1 cn) as [b2 x2]. cbn [idle getColor]. intros I.
    destruct F2 as (-> & ->); [unfold b_idle in I; rewrite andb_true_iff in I; apply I|]. apply M8. rewrite (u32_small (256 * leds f - cn)) by lia. rewrite !i32_small by lia. unfold clampi32.
    destruct (Z.ltb_spec (cn - cn) 0); [lia|]. destruct (Z.gtb_spec (cn - cn) cn); [lia|]. destruct (Z.ltb_spec (cn + (256 * leds f - cn)) cn); [lia|]. destruct (Z.gtb_spec (cn + (256 * leds f - cn)) (256 * leds f)); [lia|]. rewrite !u32_small by lia. apply covered_in; lia.
  - cbn [go]. cbv zeta. pose proof (center_range f p PO ltac:(lia)) as CR. set (cn := u32 (Z.shiftr (val f p * leds f) 7)) in *.
    pose proof (b_full2 f m (b_run f m (began bg b0)) (u32 (256 * leds f - cn)) cn) as F2. destruct (b_update f m (b_run f m (began bg b0)) (u32 (256 * leds f - cn))) as [b1 x1]. destruct (b_update f m b1 cn) as [b2 x2]. cbn [idle getColor]. intros I.
    destruct F2 as (-> & ->); [unfold b_idle in I; rewrite andb_true_iff in I; apply I|]. rewrite (u32_small (256 * leds f - cn)) by lia. rewrite !i32_small by lia. unfold clampi32.
    destruct (Z.ltb_spec cn 0); [lia|]. destruct (Z.gtb_spec cn cn); [lia|]. destruct (Z.ltb_spec (256 * leds f - (256 * leds f - cn)) cn); [lia|]. destruct (Z.gtb_spec (256 * leds f - (256 * leds f - cn)) (256 * leds f)); [lia|]. replace (256 * leds f - (256 * leds f - cn)) with cn by lia. rewrite !u32_small by lia. rewrite covered_empty by lia. apply (NONE b a 8); auto.
  - cbn [go]. destruct PO as (P1 & P2), BO as (B1 & B2). destruct (bg || r); [cbv zeta; destruct (done (go bg f t1)); cbn [idle getColor negb andb]; [|discriminate]|cbn [idle getColor negb andb]]; intros I; apply IHt2; auto.
  - cbn [go]. destruct (bg || r); [cbv zeta; destruct (done (go bg f t1)); cbn [idle getColor negb andb]; [|discriminate]|cbn [idle getColor negb andb]]; intros I; rewrite (idle_done _ I); reflexivity.
  - cbn [go idle getColor]. rewrite andb_true_iff. intros (I1 & I2). destruct PO as (P1 & P2), BO as (B1 & B2), EN as (E1 & E2). rewrite IHt1 by auto. apply IHt2; auto.
  - cbn [go idle getColor]. rewrite andb_true_iff. intros (I1 & I2). destruct PO as (P1 & P2), BO as (B1 & B2), EN as (E1 & E2). rewrite IHt1 by auto. apply IHt2; auto.
  - cbn [ends_at_new positions_ok boings_ok] in *. destruct EN as (_ & EN). apply ends_all in EN. apply positions_all in PO. apply boings_all in BO.
    assert (N : forall bg n, at_nth true idle (on_nth (go bg f) ts n) n = true -> at_nth b (fun t => getColor mix colors t a b led) (on_nth (go bg f) ts n) n = b).
    { clear bg. intros bg n. rewrite !at_nth_on_nth. revert n. induction H as [|t ts T F IH]; intros [|n]; cbn; auto; inversion EN; inversion PO; inversion BO; subst; auto. }
    cbn [go]. destruct (bg || g); cbv zeta; cbn [idle getColor negb andb]; rewrite slot_on_nth; apply N.
  - cbn [go]. destruct (negb (if bg then false else e) && done (go bg f t)); cbn [idle getColor]; rewrite !andb_true_iff; intros (_ & I); apply IHt; auto.
  - discriminate.
  - cbn [go]. cbv zeta. destruct (_ && done _); cbn [idle getColor]; rewrite andb_true_iff; [|intros (_ & I); apply IHt; auto].
    match goal with |- context [if bg || ?c then go true f t else _] => destruct (bg || c) end; intros (_ & I); apply IHt; auto.
  - cbn [go]. cbv zeta. destruct PO as (P1 & P2), BO as (B1 & B2). destruct (negb bg && q); [|destruct (negb (val f p =? 0))]; cbn [idle getColor andb]; try discriminate; intros I; apply IHt2; auto.
  - cbn [go idle getColor]. destruct al; cbn [negb andb orb].
    + intros I. apply IHt; auto.
    + rewrite orb_true_iff. destruct (if bg && true then false else d); cbn [orb]; [reflexivity|]. destruct (negb (is_on f) && negb (is_powered f)); [reflexivity|]. intros [I|I]; [discriminate|]. apply IHt; auto.
Qed.
(** The structure of a transition does not change. *)
Fixpoint shape (t : tr) : tr :=
  match t with
  | Instant => Instant
  | Delay m _ => Delay m base0
  | Fade m _ _ => Fade m base0 0
  | SmoothFade m _ _ => SmoothFade m base0 0
  | Boing n m _ _ => Boing n m base0 0
  | Blink n w m _ _ => Blink n w m base0 false
  | Wipe m _ _ => Wipe m base0 0
  | WipeIn m _ _ => WipeIn m base0 (Range 0 0)
  | CenterWipe p m _ _ => CenterWipe p m base0 (Range 0 0)
  | CenterWipeIn p m _ _ => CenterWipeIn p m base0 (Range 0 0)
  | Concat2 a b _ => Concat2 (shape a) (shape b) false
  | Concat3 a c b _ => Concat3 (shape a) c (shape b) false
  | Join a b => Join (shape a) (shape b)
  | JoinR a b => JoinR (shape a) (shape b)
  | Alt k ts _ _ => Alt k (map shape ts) 0 false
  | Extend m _ _ t => Extend m base0 false (shape t)
  | Loop t => Loop (shape t)
  | LoopN n _ t => LoopN n 0 (shape t)
  | LoopUntil p _ t o => LoopUntil p false (shape t) (shape o)
  | DoEffect al _ _ _ t => DoEffect al false false 0 (shape t)
  end.
Lemma begin_shape t : shape (begin t) = shape t.
Proof. induction t using tr_rect'; cbn [begin shape]; congruence. Qed.
Lemma go_shape bg f t : shape (go bg f t) = shape t.
Proof.
  revert bg. induction t using tr_rect'; intros bg; cbn [go shape]; try (repeat match goal with |- context [let '(_, _) := b_update ?a ?b ?c ?d in _] => destruct (b_update a b c d) end; reflexivity).
  - destruct (bg || r); cbv zeta; [destruct (done _)|]; cbn [shape]; rewrite ?IHt1, ?IHt2; reflexivity.
  - destruct (bg || r); cbv zeta; [destruct (done _)|]; cbn [shape]; rewrite ?IHt1, ?IHt2; reflexivity.
  - rewrite IHt1, IHt2. reflexivity.
  - rewrite IHt1, IHt2. reflexivity.
  - assert (G : forall bg n, map shape (on_nth (go bg f) ts n) = map shape ts). { clear bg. intros bg. induction H as [|t ts T H IH]; intros [|n]; cbn; rewrite ?T, ?IH; reflexivity. }
    destruct (bg || g); cbv zeta; cbn [shape]; rewrite G; reflexivity.
  - destruct (negb (if bg then false else e) && done (go bg f t)); cbn [shape]; rewrite IHt; reflexivity.
  - destruct (bg || done t); rewrite IHt; reflexivity.
  - cbv zeta. destruct (_ && done _); cbn [shape]; [|rewrite IHt; reflexivity]. match goal with |- context [if bg || ?c then go true f t else _] => destruct (bg || c) end; rewrite IHt; reflexivity.
  - cbv zeta. assert (X : shape (if bg || done t1 then go true f t1 else go false f t1) = shape t1) by (destruct (bg || done t1); auto). destruct (negb bg && q); [|destruct (negb (val f p =? 0))]; cbn [shape]; rewrite X, ?IHt2; reflexivity.
  - rewrite IHt. reflexivity.
Qed.
Lemma shape_counts f t : counts_ok f t <-> counts_ok f (shape t).
Proof.
  induction t using tr_rect'; cbn [shape counts_ok]; try tauto. rewrite !counts_all. induction H as [|t ts T H IH]; cbn; [split; auto|].
  split; intros F; inversion F; subst; constructor; tauto.
Qed.
Lemma shape_positions f t : positions_ok f t <-> positions_ok f (shape t).
Proof.
  induction t using tr_rect'; cbn [shape positions_ok]; try tauto. rewrite !positions_all. induction H as [|t ts T H IH]; cbn; [split; auto|].
  split; intros F; inversion F; subst; constructor; tauto.
Qed.
Lemma shape_boings t : boings_ok t <-> boings_ok (shape t).
Proof.
  induction t using tr_rect'; cbn [shape boings_ok]; try tauto. rewrite !boings_all. induction H as [|t ts T H IH]; cbn; [split; auto|].
  split; intros F; inversion F; subst; constructor; tauto.
Qed.
Lemma shape_ends t : ends_at_new t <-> ends_at_new (shape t).
Proof.
  induction t using tr_rect'; cbn [shape ends_at_new]; try tauto. rewrite !ends_all. assert (N : ts <> [] <-> map shape ts <> []) by (destruct ts; cbn; split; congruence). rewrite N. clear N.
  assert (E : Forall ends_at_new ts <-> Forall ends_at_new (map shape ts)); [|tauto]. induction H as [|t ts T H IH]; cbn; [split; auto|].
  split; intros F; inversion F; subst; constructor; tauto.
Qed.
Lemma counts_same f t u : shape u = shape t -> counts_ok f t -> counts_ok f u.
Proof. intros E H. apply (proj2 (shape_counts f u)). rewrite E. apply (proj1 (shape_counts f t)). exact H. Qed.
Lemma positions_same f t u : shape u = shape t -> positions_ok f t -> positions_ok f u.
Proof. intros E H. apply (proj2 (shape_positions f u)). rewrite E. apply (proj1 (shape_positions f t)). exact H. Qed.
Lemma boings_same t u : shape u = shape t -> boings_ok t -> boings_ok u.
Proof. intros E H. apply (proj2 (shape_boings u)). rewrite E. apply (proj1 (shape_boings t)). exact H. Qed.
Lemma ends_same t u : shape u = shape t -> ends_at_new t -> ends_at_new u.
Proof. intros E H. apply (proj2 (shape_ends u)). rewrite E. apply (proj1 (shape_ends t)). exact H. Qed.
Lemma step_shape t o : shape (step t o) = shape t.
Proof. destruct o; [apply begin_shape|apply go_shape]. Qed.
Lemma steps_shape os : forall t, shape (fold_left step os t) = shape t.
Proof. induction os as [|o os IH]; intros t; cbn; [reflexivity|]. rewrite IH, step_shape. reflexivity. Qed.
Lemma steps_wf os : forall t, wf t -> Forall (fun o => match o with Begin => True | Run f => counts_ok f t end) os -> wf (fold_left step os t).
Proof.
  induction os as [|o os IH]; intros t W F; cbn; [exact W|]. inversion F as [|? ? F1 F2]; subst. apply IH.
  - destruct o; cbn [step]; [apply wf_begin|]. apply (good_all f t F1). exact W.
  - rewrite Forall_forall in *. intros x I. specialize (F2 x I). destruct x; [exact Logic.I|]. apply (counts_same f t); [apply step_shape|exact F2].
Qed.
(** Any history after a begin(): when the transition says it is done, it shows the new color. *)
Lemma end_color {C} (ok : C -> Prop) mix colors (t : tr) os f (a b : C) led :
  mixes ok mix -> ok b -> leds_ok f led -> ends_at_new t -> positions_ok f t -> boings_ok t ->
  Forall (fun o => match o with Begin => True | Run f => counts_ok f t end) (os ++ [Run f]) ->
  let u := fold_left step (os ++ [Run f]) (begin t) in
  done u = true -> getColor mix colors u a b led = b.
Proof.
  intros M OK L EN PO BO F u D. unfold u in *. clear u. rewrite fold_left_app in *. cbn [fold_left] in *. set (v := fold_left step os (begin t)) in *. apply Forall_app in F. destruct F as (F1 & F2). apply Forall_inv in F2.
  assert (SV : shape v = shape t) by (unfold v; rewrite steps_shape, begin_shape; reflexivity).
  assert (WV : wf v). { apply steps_wf; [apply wf_begin|]. rewrite Forall_forall in *. intros x I. specialize (F1 x I). destruct x; [exact Logic.I|]. apply (counts_same f0 t); [apply begin_shape|exact F1]. }
  assert (CV : counts_ok f v) by (apply (counts_same f t); assumption).
  cbn [step] in *. destruct (good_all f v CV) as (_ & G). destruct (G WV) as (_ & G2 & _). unfold run in *.
  apply (new_color ok); auto; [apply (ends_same t)|apply (positions_same f t)|apply (boings_same t)]; assumption.
Qed.
(** And it stays done until it is begun again. *)
Lemma stays_done (t : tr) os f fs :
  Forall (fun o => match o with Begin => True | Run f => counts_ok f t end) (os ++ Run f :: map Run fs) ->
  done (fold_left step (os ++ [Run f]) (begin t)) = true -> done (fold_left step (os ++ Run f :: map Run fs) (begin t)) = true.
Proof.
  intros F D. rewrite fold_left_app in *. cbn [fold_left] in *. set (v := fold_left step os (begin t)) in *. apply Forall_app in F. destruct F as (F1 & F2). inversion F2 as [|? ? F3 F4]; subst.
  assert (SV : shape v = shape t) by (unfold v; rewrite steps_shape, begin_shape; reflexivity).
  assert (WV : wf v). { apply steps_wf; [apply wf_begin|]. rewrite Forall_forall in *. intros x I. specialize (F1 x I). destruct x; [exact Logic.I|]. apply (counts_same f0 t); [apply begin_shape|exact F1]. }
  assert (CV : counts_ok f v) by (apply (counts_same f t); assumption).
  cbn [step] in *. destruct (good_all f v CV) as (_ & G). destruct (G WV) as (W2 & G2 & _). fold (run f v) in *. specialize (G2 D).
  assert (SU : shape (run f v) = shape t) by (unfold run; rewrite go_shape; exact SV). clear G F1 F2 F3 WV CV. clearbody v. generalize dependent (run f v). clear - F4.
  induction fs as [|g fs IH]; intros u D W I SS; cbn [map fold_left step] in *; [exact D|]. inversion F4 as [|? ? F5 F6]; subst.
  assert (CU : counts_ok g u) by (apply (counts_same g t); assumption).
  destruct (good_all g u CU) as (_ & G). destruct (G W) as (W2 & G2 & G3). apply IH; auto; [apply idle_done; apply G3; exact I|]. unfold run. rewrite go_shape. exact SS.
Qed.

(** ** Progress over time *)
Lemma clock_diff T T0 : 0 <= T - T0 < 4294967296 -> u32 (clock T - clock T0) = T - T0.
Proof. intros H. unfold u32, clock. rewrite <- Zminus_mod. apply Z.mod_small. exact H. Qed.
(** A frame at moment T; the rest of the frame does not matter to a running timed transition. *)
Definition at_time (f : frame) (T : Z) : Prop := now f = clock T.
Lemma update_running f m T T0 L scale : at_time f T -> 0 < L < 4294967296 -> 0 <= scale -> scale * L < 2147483648 -> T0 <= T < T0 + 4294967296 ->
  b_update f (Plain m) (Base false (clock T0) L) scale =
  if L <? T - T0 then (Base false (clock T0) 0, scale) else (Base false (clock T0) L, scale * (T - T0) / L).
Proof.
  intros A HL S0 SL TT. unfold at_time in A. unfold b_update, b_done. cbn [len start restart]. cbv zeta. destruct (Z.eqb_spec L 0); [lia|]. rewrite !A, !clock_diff by lia. destruct (Z.gtb_spec (T - T0) L), (Z.ltb_spec L (T - T0)); try lia; [reflexivity|].
  cbn [bend]. assert (E : 0 <= scale * (T - T0) < 2147483648) by nia. rewrite (u32_small (scale * (T - T0))) by (clear - E; lia). assert (L1 : 0 <= scale * (T - T0) / L) by (apply Z.div_pos; lia). assert (L2 : scale * (T - T0) / L <= scale * (T - T0)) by (apply Z.div_le_upper_bound; nia). rewrite i32_small by lia. reflexivity.
Qed.
Definition b_frame (m : ms) (scale : Z) (b : base) (f : frame) : base * (Z * bool) :=
  let '(b, x) := b_update f m (b_run f m b) scale in (b, (x, b_done b)).
Lemma over_forever m scale fs : forall b, b_idle b = true -> run_outs (b_frame m scale) b fs = map (fun _ => (scale, true)) fs.
Proof.
  induction fs as [|f fs IH]; intros b I; cbn; [reflexivity|]. unfold b_frame at 1. rewrite b_run_idle, b_update_idle by exact I. rewrite IH by exact I. f_equal. unfold b_idle in I. rewrite andb_true_iff in I. unfold b_done. destruct I as (_ & ->). reflexivity.
Qed.
Lemma shown_over scale L T0 Ts : shown scale L T0 true Ts = map (fun _ => (scale, true)) Ts.
Proof. induction Ts; cbn; [reflexivity|]. rewrite IHTs. reflexivity. Qed.
Lemma progress_running m L T0 scale fs : 0 < L < 4294967296 -> 0 <= scale -> scale * L < 2147483648 -> forall Ts, Forall2 at_time fs Ts -> timely L T0 Ts ->
  run_outs (b_frame (Plain m) scale) (Base false (clock T0) L) fs = shown scale L T0 false Ts.
Proof.
  intros HL S0 SL. induction fs as [|f fs IH]; intros Ts F2 TM; inversion F2 as [|? T ? Ts' A F]; subst; cbn [run_outs shown orb]; [reflexivity|]. destruct TM as (T1 & T2).
  unfold b_frame at 1. unfold b_run. cbn [restart]. rewrite (update_running f m T T0 L scale A HL S0 SL T1). destruct (Z.ltb_spec L (T - T0)).
  - rewrite shown_over, over_forever by reflexivity. cbn. f_equal. clear - F. induction F; cbn; [reflexivity|]. rewrite IHF. reflexivity.
  - rewrite (IH Ts' F (T2 ltac:(lia))). unfold b_done. cbn [len]. destruct (Z.eqb_spec L 0); [lia|reflexivity].
Qed.
Lemma progress_begun m T0 scale f fs L b : at_time f T0 -> val f m = L -> 0 < L < 2147483648 -> 0 <= scale -> scale * L < 2147483648 -> forall Ts, Forall2 at_time fs Ts -> timely L T0 Ts ->
  run_outs (b_frame (Plain m) scale) (b_begin b) (f :: fs) = shown scale L T0 false (T0 :: Ts).
Proof.
  intros A V HL S0 SL Ts F TM. rewrite <- (progress_running m L T0 scale (f :: fs) ltac:(lia) S0 SL (T0 :: Ts)); [|constructor; assumption|cbn; split; [lia|intros; assumption]].
  cbn [run_outs]. unfold b_frame at 1 3. unfold b_run, b_begin. cbn [restart ms_value]. unfold at_time in A. rewrite V, A, (u32_small L) by lia. reflexivity.
Qed.
(** Properties of what is shown. *)
Lemma progress_mono scale L T0 T T' : 0 < L -> 0 <= scale -> T0 <= T <= T' -> progress scale L T0 T <= progress scale L T0 T'.
Proof.
  intros HL S0 TT. unfold progress. destruct (Z.leb_spec (T - T0) L), (Z.leb_spec (T' - T0) L); try lia.
  - apply Z.div_le_mono; nia.
  - apply Z.div_le_upper_bound; nia.
Qed.
Lemma progress_range scale L T0 T : 0 < L -> 0 <= scale -> T0 <= T -> 0 <= progress scale L T0 T <= scale.
Proof. intros HL S0 TT. unfold progress. destruct (Z.leb_spec (T - T0) L); [|lia]. split; [apply Z.div_pos; nia|]. apply Z.div_le_upper_bound; nia. Qed.

(** The cubic curve *)
Lemma smooth_exact x : 0 <= x <= 32768 -> smooth x = (x * x / 16384) * (49152 - x) / 65536.
Proof.
  intros X. unfold smooth. rewrite (u32_small (x * x)) by nia. rewrite !Z.shiftr_div_pow2 by lia. change (2 ^ 14) with 16384. change (2 ^ 16) with 65536.
  assert (0 <= x * x / 16384 <= 65536). { split; [apply Z.div_pos; nia|]. apply Z.div_le_upper_bound; nia. }
  rewrite (u32_small (49152 - x)) by lia. rewrite u32_small by nia. reflexivity.
Qed.
(** Within two steps below the exact cubic x^2 (49152 - x) / 2^30. *)
Lemma smooth_near x : 0 <= x <= 32768 -> smooth x * 1073741824 <= x * x * (49152 - x) < (smooth x + 2) * 1073741824.
Proof.
  intros X. rewrite smooth_exact by exact X. pose proof (Z.div_mod (x * x) 16384 ltac:(lia)) as D1. pose proof (Z.mod_pos_bound (x * x) 16384 ltac:(lia)) as M1. set (q := x * x / 16384) in *. set (r := (x * x) mod 16384) in *. clearbody r.
  pose proof (Z.div_mod (q * (49152 - x)) 65536 ltac:(lia)) as D2. pose proof (Z.mod_pos_bound (q * (49152 - x)) 65536 ltac:(lia)) as M2. set (p := q * (49152 - x) / 65536) in *. clearbody p. clearbody q.
  replace (x * x * (49152 - x)) with (16384 * (q * (49152 - x)) + r * (49152 - x)) by (rewrite D1; ring). rewrite D2. set (s := (q * (49152 - x)) mod 65536) in *. clearbody s. nia.
Qed.
Lemma cubic_mono x y : 0 <= x <= y -> y <= 32768 -> x * x * (49152 - x) <= y * y * (49152 - y).
Proof. intros X Y. assert (0 <= (y - x) * (49152 * (x + y) - (x * x + x * y + y * y))); [|nia]. apply Z.mul_nonneg_nonneg; [lia|]. nia. Qed.

(** ** Composite transitions *)
Lemma runs_app t a b : runs t (a ++ b) = runs (runs t a) b. Proof. apply fold_left_app. Qed.
Lemma runs_cons t f fs : runs t (f :: fs) = runs (run f t) fs. Proof. reflexivity. Qed.
Definition never_done (t : tr) (fs : list frame) : Prop := forall k, (0 < k <= length fs)%nat -> done (runs t (firstn k fs)) = false.
Lemma never_done_cons t f fs : never_done t (f :: fs) -> done (run f t) = false /\ never_done (run f t) fs.
Proof. intros N. split; [apply (N 1%nat); cbn; lia|]. intros k K. apply (N (S k)). cbn. lia. Qed.
Lemma concat2_first a b fs : never_done a fs -> runs (Concat2 a b true) fs = Concat2 (runs a fs) b true.
Proof. revert a; induction fs as [|f fs IH]; intros a N; [reflexivity|]. apply never_done_cons in N. destruct N as (D & N). rewrite !runs_cons, run_eq. cbv zeta. rewrite D. apply IH. exact N. Qed.
Lemma concat2_second a b fs : runs (Concat2 a b false) fs = Concat2 a (runs b fs) false.
Proof. revert b; induction fs as [|f fs IH]; intros b; [reflexivity|]. rewrite !runs_cons, run_eq. apply IH. Qed.
Lemma concat3_first a c b fs : never_done a fs -> runs (Concat3 a c b true) fs = Concat3 (runs a fs) c b true.
Proof. revert a; induction fs as [|f fs IH]; intros a N; [reflexivity|]. apply never_done_cons in N. destruct N as (D & N). rewrite !runs_cons, run_eq. cbv zeta. rewrite D. apply IH. exact N. Qed.
Lemma concat3_second a c b fs : runs (Concat3 a c b false) fs = Concat3 a c (runs b fs) false.
Proof. revert b; induction fs as [|f fs IH]; intros b; [reflexivity|]. rewrite !runs_cons, run_eq. apply IH. Qed.
Lemma just_done_split t fs : just_done t fs -> exists fs1 f, fs = fs1 ++ [f] /\ never_done t fs1 /\ done (run f (runs t fs1)) = true.
Proof.
  intros (fs1 & f & -> & D & N). exists fs1, f. split; [reflexivity|]. rewrite runs_app in D. split; [|exact D]. intros k K. specialize (N k K). rewrite firstn_app in N. replace (k - length fs1)%nat with 0%nat in N by lia. rewrite firstn_O, app_nil_r in N. exact N.
Qed.
Lemma concat2_handover a b fs1 f gs : never_done a fs1 -> done (run f (runs a fs1)) = true ->
  runs (Concat2 a b true) (fs1 ++ f :: gs) = Concat2 (run f (runs a fs1)) (runs (begin b) (f :: gs)) false.
Proof. intros N D. rewrite runs_app, concat2_first, runs_cons, run_eq by exact N. cbv zeta. rewrite D, concat2_second. reflexivity. Qed.
Lemma concat3_handover a c b fs1 f gs : never_done a fs1 -> done (run f (runs a fs1)) = true ->
  runs (Concat3 a c b true) (fs1 ++ f :: gs) = Concat3 (run f (runs a fs1)) c (runs (begin b) (f :: gs)) false.
Proof. intros N D. rewrite runs_app, concat3_first, runs_cons, run_eq by exact N. cbv zeta. rewrite D, concat3_second. reflexivity. Qed.
Lemma join_runs a b fs : runs (Join a b) fs = Join (runs a fs) (runs b fs).
Proof. revert a b; induction fs as [|f fs IH]; intros a b; [reflexivity|]. rewrite !runs_cons, run_eq. apply IH. Qed.
Lemma joinR_runs a b fs : runs (JoinR a b) fs = JoinR (runs a fs) (runs b fs).
Proof. revert a b; induction fs as [|f fs IH]; intros a b; [reflexivity|]. rewrite !runs_cons, run_eq. apply IH. Qed.
Lemma extend_first m b t fs : never_done t fs -> exists b', runs (Extend m b false t) fs = Extend m b' false (runs t fs).
Proof.
  revert b t; induction fs as [|f fs IH]; intros b t N; [eexists; reflexivity|]. apply never_done_cons in N. destruct N as (D & N). rewrite !runs_cons, run_eq. cbv zeta. rewrite D. cbn [negb andb]. apply IH. exact N.
Qed.
Lemma extend_second m b t fs : runs (Extend m b true t) fs = Extend m (fold_left (fun b f => fst (b_frame m 0 b f)) fs b) true (runs t fs).
Proof.
  revert b t; induction fs as [|f fs IH]; intros b t; [reflexivity|]. rewrite !runs_cons, run_eq. cbv zeta. cbn [negb andb fold_left]. rewrite IH. unfold b_frame at 3. destruct (b_update f m (b_run f m b) 0). reflexivity.
Qed.
(** A loop of n passes, seen from inside: [l] passes are left, the current one included. *)
Lemma loopn_pass n l t fs1 : 0 < l -> never_done t fs1 -> done t = false -> runs (LoopN n l t) fs1 = LoopN n l (runs t fs1).
Proof.
  intros L. revert t; induction fs1 as [|f fs IH]; intros t N D; [reflexivity|]. apply never_done_cons in N. destruct N as (D1 & N). rewrite !runs_cons, run_eq. cbv zeta. destruct (Z.ltb_spec l 0); [lia|]. rewrite D, andb_false_r. apply IH; assumption.
Qed.
Lemma loopn_next n l t fs : 1 < l -> done t = true -> just_done (begin t) fs ->
  runs (LoopN n l t) fs = LoopN n (l - 1) (runs (begin t) fs) /\ (forall k, (0 < k <= length fs)%nat -> done (runs (LoopN n l t) (firstn k fs)) = false).
Proof.
  intros L D J. apply just_done_split in J. destruct J as (fs1 & f & -> & N & DD).
  assert (B : forall g, run g (LoopN n l t) = LoopN n (l - 1) (run g (begin t))). { intros g. rewrite run_eq. cbv zeta. destruct (Z.ltb_spec l 0); [lia|]. rewrite D. destruct (Z.gtb_spec l 0); [|lia]. destruct (Z.gtb_spec l 1); [|lia]. reflexivity. }
  assert (C : forall gs t', never_done t' gs -> done t' = false \/ gs = [] -> runs (LoopN n (l - 1) t') gs = LoopN n (l - 1) (runs t' gs)).
  { intros gs t' NG [H| ->]; [|reflexivity]. apply loopn_pass; auto; lia. }
  destruct fs1 as [|g gs]; cbn [app].
  - split; [cbn [runs fold_left]; rewrite B; reflexivity|]. intros k K. cbn in K. replace k with 1%nat by lia. cbn [firstn runs fold_left]. rewrite B. cbn. lia.
  - apply never_done_cons in N. destruct N as (N1 & N2). rewrite !runs_cons, B. split.
    + rewrite !runs_app, (C gs) by auto. rewrite !runs_cons in *. cbn [runs fold_left]. rewrite run_eq. cbv zeta. destruct (Z.ltb_spec (l - 1) 0); [lia|].
      assert (DG : done (runs (run g (begin t)) gs) = false). { destruct gs as [|g' gs']; [exact N1|]. specialize (N2 (length (g' :: gs')) ltac:(cbn; lia)). rewrite firstn_all in N2. exact N2. }
      change (fold_left (fun t f => run f t) gs (run g (begin t))) with (runs (run g (begin t)) gs). rewrite DG, andb_false_r. reflexivity.
    + intros [|k] K; [lia|]. cbn [firstn]. rewrite runs_cons, B. cbn [length] in K. rewrite app_length in K. cbn [length] in K.
      destruct (Nat.le_gt_cases k (length gs)).
      * rewrite firstn_app. replace (k - length gs)%nat with 0%nat by lia. rewrite firstn_O, app_nil_r. rewrite C; [cbn; lia| |auto]. intros j J. specialize (N2 j). rewrite firstn_length in J. rewrite firstn_firstn. replace (Nat.min j k) with j by lia. apply N2. lia.
      * rewrite firstn_all2 by (rewrite app_length; cbn; lia). rewrite runs_app, C by auto. rewrite runs_cons, run_eq. cbv zeta. destruct (Z.ltb_spec (l - 1) 0); [lia|].
        assert (DG : done (runs (run g (begin t)) gs) = false). { destruct gs as [|g' gs']; [exact N1|]. specialize (N2 (length (g' :: gs')) ltac:(cbn; lia)). rewrite firstn_all in N2. exact N2. }
        rewrite DG, andb_false_r. cbn. lia.
Qed.
Lemma just_done_done t fs : just_done t fs -> done (runs t fs) = true.
Proof. intros (? & ? & _ & D & _). exact D. Qed.
Lemma never_app (P : list frame -> Prop) a b : (forall k, (0 < k <= length a)%nat -> P (firstn k a)) -> (forall k, (0 < k <= length b)%nat -> P (a ++ firstn k b)) -> forall k, (0 < k <= length (a ++ b))%nat -> P (firstn k (a ++ b)).
Proof.
  intros A B k K. rewrite app_length in K. rewrite firstn_app. destruct (Nat.le_gt_cases k (length a)).
  - replace (k - length a)%nat with 0%nat by lia. rewrite firstn_O, app_nil_r. apply A. lia.
  - rewrite (firstn_all2 a) by lia. apply B. lia.
Qed.
Lemma loopn_passes n t k fs u : passes t k fs u -> forall l, done t = true -> Z.of_nat k < l ->
  runs (LoopN n l t) fs = LoopN n (l - Z.of_nat k) u /\ done u = true /\ forall j, (0 < j <= length fs)%nat -> done (runs (LoopN n l t) (firstn j fs)) = false.
Proof.
  induction 1 as [t|t k fs gs u J P IH]; intros l D L.
  - cbn [runs fold_left]. rewrite Z.sub_0_r. split; [reflexivity|]. split; [exact D|]. intros j K. cbn in K. lia.
  - destruct (loopn_next n l t fs ltac:(lia) D J) as (E & N). destruct (IH (l - 1) (just_done_done _ _ J) ltac:(lia)) as (E2 & D2 & N2).
    rewrite runs_app, E. split; [rewrite E2; f_equal; lia|]. split; [exact D2|].
    apply (never_app (fun h => done (runs (LoopN n l t) h) = false)); [exact N|]. intros j K. rewrite runs_app, E. apply N2. exact K.
Qed.
(** First frame of a begun loop whose part reports done before its first frame. *)
Lemma loopn_start n l t f : done (begin t) = true -> 1 <= val f n -> run f (begin (LoopN n l t)) = run f (LoopN n (val f n + 1) (begin t)).
Proof. intros D V. cbn [begin]. rewrite !(run_eq f (LoopN _ _ _)). cbv zeta. change (-1 <? 0) with true. cbv iota. destruct (Z.ltb_spec (val f n + 1) 0); [lia|]. reflexivity. Qed.

(** Which alternative is chosen *)
Lemma slot_in ts s : 0 <= s < Z.of_nat (length ts) -> slot ts s = Z.to_nat s \/ 4294967296 <= s.
Proof. intros S. destruct (Z.lt_ge_cases s 4294967296); [left|right; assumption]. unfold slot. rewrite u32_small by lia. destruct (Nat.ltb_spec (Z.to_nat s) (length ts)); lia. Qed.
Lemma alt_run_selected k ts s fs : exists ts', runs (Alt k ts s false) fs = Alt k ts' s false /\ length ts' = length ts.
Proof.
  revert ts; induction fs as [|f fs IH]; intros ts; [exists ts; auto|]. rewrite runs_cons, run_eq. destruct (IH (on_nth (run f) ts (slot ts s))) as (ts' & E & L). exists ts'. rewrite on_nth_length in L. auto.
Qed.
Fixpoint cycles (t : tr) (css : list (list frame)) : tr := match css with [] => t | fs :: css => cycles (runs (begin t) fs) css end.
Lemma sequence_cycles css : forall ts s g, 0 <= s < Z.of_nat (length ts) -> Z.of_nat (length ts) <= 4294967295 -> Forall (fun fs => fs <> []) css ->
  exists ts' g', cycles (Alt Sequence ts s g) css = Alt Sequence ts' ((s + Z.of_nat (length css)) mod Z.of_nat (length ts)) g' /\ length ts' = length ts.
Proof.
  induction css as [|fs css IH]; intros ts s g S0 S1 F; cbn [cycles length].
  - exists ts, g. rewrite Z.add_0_r, Z.mod_small by lia. auto.
  - inversion F as [|? ? NE F']; subst. destruct fs as [|f fs]; [congruence|]. cbn [begin]. rewrite runs_cons, run_eq. cbv zeta. cbn [choose].
    set (s' := u32 (s + 1) mod Z.of_nat (length ts)). destruct (alt_run_selected Sequence (on_nth (fun t => run f (begin t)) ts (slot ts s')) s' fs) as (ts2 & E & L). rewrite E. rewrite on_nth_length in L.
    assert (S' : s' = (s + 1) mod Z.of_nat (length ts)) by (unfold s'; rewrite u32_small by lia; reflexivity).
    destruct (IH ts2 s' false) as (ts3 & g3 & E3 & L3); [rewrite L, S'; apply Z.mod_pos_bound; lia|rewrite L; lia|exact F'|].
    exists ts3, g3. rewrite E3, L, S'. split; [|lia]. rewrite Zplus_mod_idemp_l. f_equal. f_equal. lia.
Qed.
(** Wipes *)
Lemma covered_prefix x led : 0 <= led -> led * 256 + 256 < 4294967296 -> 0 <= x < 4294967296 -> covered (Range 0 x) led = Z.max 0 (Z.min 256 (x - led * 256)).
Proof.
  intros L B X. unfold covered, r_and, r_size. cbn [r_start r_end]. rewrite (u32_small (led * 256)), (u32_small (led * 256 + 256)) by lia. replace (Z.max 0 (led * 256)) with (led * 256) by lia.
  destruct (Z.geb_spec (led * 256) (Z.min x (led * 256 + 256))); [lia|]. rewrite u32_small; lia.
Qed.
(** Effects triggered by a transition *)
Lemma fired_runs al d k t fs : exists d' t', runs (DoEffect al false d k t) fs = DoEffect al false d' k t'.
Proof. revert d k t; induction fs as [|f fs IH]; intros d k t; [eexists _, _; reflexivity|]. rewrite runs_cons, run_eq. cbn [andb]. apply IH. Qed.
(** A reversed time: the same ends, the progress taken from full scale. *)
Lemma reverse_frames m scale fs : forall b, run_outs (b_frame (Reverse m) scale) b fs = map (fun p : Z * bool => if snd p then p else (i32 (scale - fst p), false)) (run_outs (b_frame m scale) b fs).
Proof.
  induction fs as [|f fs IH]; intros b; cbn [run_outs map]; [reflexivity|]. unfold b_frame at 1 3. assert (R : b_run f (Reverse m) b = b_run f m b) by reflexivity. rewrite R. set (b1 := b_run f m b). unfold b_update. destruct (b_done b1) eqn:D.
  - rewrite D. cbn [map fst snd]. f_equal. apply IH.
  - destruct (_ >? _); cbn [bend fst snd map]; [rewrite IH; reflexivity|]. rewrite D. cbn [map fst snd]. f_equal. apply IH.
Qed.
