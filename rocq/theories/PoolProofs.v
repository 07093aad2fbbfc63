From Coq Require Import ZArith List Bool Lia ZifyBool ZifyNat.
From Verif Require Import ArithModel PoolModel PoolSpec.
Import ListNotations.
Local Open Scope Z_scope.

Lemma set_nth_length : forall A (x : A) l i, length (set_nth i x l) = length l.
Proof. intros A x l. induction l as [|y l IH]; intros [|i]; cbn; auto. Qed.
Lemma set_nth_same : forall A (x y : A) l i, nth_error l i = Some y -> nth_error (set_nth i x l) i = Some x.
Proof. intros A x y l. induction l as [|z l IH]; intros [|i]; cbn; try discriminate; auto. Qed.
Lemma set_nth_other : forall A (x : A) l i j, i <> j -> nth_error (set_nth i x l) j = nth_error l j.
Proof.
  intros A x l. induction l as [|z l IH]; intros [|i] [|j] H; cbn; auto; try congruence.
Qed.

Definition one (b : bool) : Z := if b then 1 else 0.
Lemma holders_cons : forall p v vs, holders p (v :: vs) = one (holds p v) + holders p vs.
Proof. intros p v vs. unfold holders, one. cbn [filter]. destruct (holds p v); cbn [length]; lia. Qed.
Lemma holders_set : forall p vs i x y, nth_error vs i = Some y ->
  holders p (set_nth i x vs) = holders p vs - one (holds p y) + one (holds p x).
Proof.
  intros p vs. induction vs as [|v vs IH]; intros [|i] x y H; cbn [nth_error set_nth] in *; try discriminate.
  - injection H as ->. rewrite !holders_cons. lia.
  - rewrite !holders_cons, (IH i x y H). lia.
Qed.

Lemma on_length : forall g p l, length (on_player g p l) = length l.
Proof. intros g p l. unfold on_player. destruct (nth_error l p); auto using set_nth_length. Qed.
Lemma on_nth : forall g p l q, nth_error (on_player g p l) q =
  if (q =? p)%nat then option_map g (nth_error l q) else nth_error l q.
Proof.
  intros g p l q. unfold on_player. destruct (q =? p)%nat eqn:E.
  - apply Nat.eqb_eq in E. subst q. destruct (nth_error l p) eqn:N; cbn [option_map].
    + rewrite (set_nth_same _ _ _ _ _ N). reflexivity.
    + exact N.
  - apply Nat.eqb_neq in E. destruct (nth_error l p); auto. apply set_nth_other. congruence.
Qed.

Definition is (p : option nat) (q : nat) : bool := match p with Some p => (q =? p)%nat | None => false end.
Lemma add_nth : forall p l q, nth_error (add p l) q = if is p q then option_map AddRef (nth_error l q) else nth_error l q.
Proof. intros [p|] l q; cbn [add is]; auto using on_nth. Qed.
Lemma sub_nth : forall p l q, nth_error (sub p l) q = if is p q then option_map SubRef (nth_error l q) else nth_error l q.
Proof. intros [p|] l q; cbn [sub is]; auto using on_nth. Qed.
Lemma add_length : forall p l, length (add p l) = length l.
Proof. intros [p|] l; cbn [add]; auto using on_length. Qed.
Lemma sub_length : forall p l, length (sub p l) = length l.
Proof. intros [p|] l; cbn [sub]; auto using on_length. Qed.
Lemma holds_is : forall p q, holds q (Some p) = is p q.
Proof. intros [p|] q; cbn; auto using Nat.eqb_sym. Qed.

(** Every count is the number of variables that point there. *)
Definition counted (ps : list player) (vs : list (option (option nat))) : Prop :=
  forall q x, nth_error ps q = Some x -> refs x = u32 (holders q vs).
Definition inside (ps : list player) (vs : list (option (option nat))) : Prop :=
  forall i p, nth_error vs i = Some (Some (Some p)) -> (p < length ps)%nat.
Definition good (s : st) : Prop := counted (players s) (vars s) /\ inside (players s) (vars s).

Lemma u32_add : forall a b, u32 (u32 a + b) = u32 (a + b).
Proof. intros a b. unfold u32. apply Zplus_mod_idemp_l. Qed.
Lemma u32_sub : forall a b, u32 (u32 a - b) = u32 (a - b).
Proof. intros a b. unfold u32. apply Zminus_mod_idemp_l. Qed.

Lemma counted_add : forall ps vs i y p, nth_error vs i = Some y -> (forall q, holds q y = false) ->
  counted ps vs -> counted (add p ps) (set_nth i (Some p) vs).
Proof.
  intros ps vs i y p N H C q x. rewrite add_nth, (holders_set q vs i (Some p) y N), H, holds_is.
  destruct (is p q); cbn [one].
  - destruct (nth_error ps q) as [z|] eqn:E; cbn [option_map]; [|discriminate]. intros X. injection X as <-.
    unfold AddRef. cbn [refs]. rewrite (C q z E), u32_add. f_equal. lia.
  - intros X. rewrite (C q x X). f_equal. lia.
Qed.
Lemma counted_sub : forall ps vs i y p, nth_error vs i = Some (Some p) -> (forall q, holds q y = false) ->
  counted ps vs -> counted (sub p ps) (set_nth i y vs).
Proof.
  intros ps vs i y p N H C q x. rewrite sub_nth, (holders_set q vs i y (Some p) N), H, holds_is.
  destruct (is p q); cbn [one].
  - destruct (nth_error ps q) as [z|] eqn:E; cbn [option_map]; [|discriminate]. intros X. injection X as <-.
    unfold SubRef. cbn [refs]. rewrite (C q z E), u32_sub. f_equal. lia.
  - intros X. rewrite (C q x X). f_equal. lia.
Qed.
Lemma inside_set : forall ps ps' vs i y, length ps' = length ps ->
  (forall p, y = Some (Some p) -> (p < length ps)%nat) -> inside ps vs -> inside ps' (set_nth i y vs).
Proof.
  intros ps ps' vs i y L H I j p N. rewrite L. destruct (Nat.eq_dec i j) as [->|D].
  - destruct (nth_error vs j) as [z|] eqn:E.
    + rewrite (set_nth_same _ _ _ _ _ E) in N. injection N as ->. auto.
    + apply nth_error_None in E. assert (X : (j < length (set_nth j y vs))%nat) by (apply nth_error_Some; congruence).
      rewrite set_nth_length in X. lia.
  - rewrite set_nth_other in N by auto. eapply I. exact N.
Qed.
Lemma keep : forall g p s, (forall x, refs (g x) = refs x) -> good s -> good (St (on_player g p (players s)) (vars s)).
Proof.
  intros g p s H [C I]. split; cbn [players vars].
  - intros q x. rewrite on_nth. destruct (q =? p)%nat; [|apply C].
    destruct (nth_error (players s) q) as [z|] eqn:E; cbn [option_map]; [|discriminate].
    intros X. injection X as <-. rewrite H. apply C. exact E.
  - intros i q N. rewrite on_length. eapply I. exact N.
Qed.

Lemma first_free_spec : forall l i p, first_free i l = Some p ->
  exists x, (i <= p < i + length l)%nat /\ nth_error l (p - i) = Some x /\ Available x = true.
Proof.
  intros l. induction l as [|y l IH]; intros i p; cbn [first_free]; [discriminate|].
  destruct (Available y) eqn:A.
  - intros X. injection X as <-. exists y. rewrite Nat.sub_diag. cbn [length nth_error]. repeat split; auto; lia.
  - intros X. destruct (IH _ _ X) as (x & R & N & B). exists x. cbn [length]. repeat split; auto; try lia.
    replace (p - i)%nat with (S (p - S i)) by lia. exact N.
Qed.
Lemma first_free_none : forall l i, first_free i l = None -> Forall (fun x => Available x = false) l.
Proof.
  intros l. induction l as [|y l IH]; intros i; cbn [first_free]; auto.
  destruct (Available y) eqn:A; [discriminate|]. intros X. constructor; eauto.
Qed.
Lemma first_playing_spec : forall e l i p, first_playing e i l = Some p ->
  exists x, (i <= p < i + length l)%nat /\ nth_error l (p - i) = Some x /\ playing x = true /\ eff x = e.
Proof.
  intros e l. induction l as [|y l IH]; intros i p; cbn [first_playing]; [discriminate|].
  destruct (playing y && (eff y =? e)%nat) eqn:A.
  - intros X. injection X as <-. exists y. rewrite Nat.sub_diag. cbn [length nth_error]. repeat split; auto; lia.
  - intros X. destruct (IH _ _ X) as (x & R & N & B). exists x. cbn [length]. repeat split; auto; try lia; try tauto.
    replace (p - i)%nat with (S (p - S i)) by lia. exact N.
Qed.
Lemma first_playing_none : forall e l i, first_playing e i l = None ->
  Forall (fun x => ~ (playing x = true /\ eff x = e)) l.
Proof.
  intros e l. induction l as [|y l IH]; intros i; cbn [first_playing]; auto.
  destruct (playing y && (eff y =? e)%nat) eqn:A; [discriminate|]. intros X. constructor; eauto. lia.
Qed.

(** Who is killed. *)
Definition may_die (x : player) : Prop := playing x = true /\ refs x = 0 /\ killable x = true.
Lemma oldest_spec : forall l i best r, oldest i l best = r ->
  snd r <= snd best /\
  (forall x, In x l -> may_die x -> snd r <= remaining x) /\
  (r = best \/ exists p x, r = (Some p, remaining x) /\ (i <= p < i + length l)%nat /\
     nth_error l (p - i) = Some x /\ may_die x /\ remaining x < snd best).
Proof.
  intros l. induction l as [|y l IH]; intros i best r; cbn [oldest].
  - intros <-. repeat split; try lia. { intros x []. } left. reflexivity.
  - destruct (playing y && (refs y =? 0) && killable y && (remaining y <? snd best)) eqn:E; intros R.
    + destruct (IH _ _ _ R) as (A & B & C). cbn [snd] in *. split; [lia|]. split.
      * intros x [<-|H] M; auto.
      * right. destruct C as [-> | (p & x & C1 & C2 & C3 & C4 & C5)].
        { exists i, y. rewrite Nat.sub_diag. cbn [length nth_error]. unfold may_die. repeat split; auto; lia. }
        { exists p, x. cbn [length]. repeat split; auto; try lia; try (apply C4).
          replace (p - i)%nat with (S (p - S i)) by lia. exact C3. }
    + destruct (IH _ _ _ R) as (A & B & C). split; [lia|]. split.
      * intros x [<-|H] M; auto. unfold may_die in M. lia.
      * destruct C as [-> | (p & x & C1 & C2 & C3 & C4 & C5)]; [left; reflexivity|]. right.
        exists p, x. cbn [length]. repeat split; auto; try lia; try (apply C4).
        replace (p - i)%nat with (S (p - S i)) by lia. exact C3.
Qed.

Lemma construct_good : forall i p s, nth_error (vars s) i = Some None ->
  (forall q, p = Some q -> (q < length (players s))%nat) -> good s -> good (construct i p s).
Proof.
  intros i p s N H [C I]. split; cbn [construct players vars].
  - eapply counted_add; eauto.
  - apply (inside_set (players s)); auto using add_length. intros q X. injection X as ->. auto.
Qed.

Lemma step_good : forall s o, good s -> good (step s o).
Proof.
  intros s o G. destruct o; cbn [step].
  - destruct (nth_error (vars s) i) as [[v|]|] eqn:N; auto. destruct p as [q|].
    + destruct (q <? length (players s))%nat eqn:L; auto. apply construct_good; auto. intros q' X. injection X as <-. lia.
    + apply construct_good; auto. discriminate.
  - destruct (nth_error (vars s) i) as [[v|]|] eqn:N; auto.
    destruct (nth_error (vars s) j) as [[p|]|] eqn:M; auto. apply construct_good; auto.
    intros q ->. destruct G as [_ I]. eapply I. exact M.
  - destruct (nth_error (vars s) i) as [[v|]|] eqn:N; auto.
    destruct (nth_error (vars s) j) as [[p|]|] eqn:M; auto.
    assert (D : i <> j) by congruence. destruct G as [C I]. split; cbn [players vars].
    + intros q x X. rewrite (C q x X).
      rewrite (holders_set q _ j (Some None) (Some p)) by (rewrite set_nth_other by auto; exact M).
      rewrite (holders_set q _ i (Some p) None N). cbn [holds one]. f_equal. lia.
    + apply (inside_set (players s)); auto. { discriminate. }
      apply (inside_set (players s)); auto. intros q X. injection X as ->. eapply I. exact M.
  - destruct (nth_error (vars s) i) as [[p|]|] eqn:N; auto.
    destruct (nth_error (vars s) j) as [[q|]|] eqn:M; auto.
    match goal with |- good (if ?b then _ else _) => destruct b; auto end.
    destruct G as [C I]. split; cbn [players vars].
    + assert (S1 : counted (sub p (players s)) (set_nth i (Some None) (vars s))) by (eapply counted_sub; eauto).
      assert (S2 := counted_add _ _ i (Some None) q (set_nth_same _ (Some None) _ _ _ N) ltac:(reflexivity) S1).
      intros r x X. rewrite (S2 r x X).
      rewrite (holders_set r (set_nth i (Some None) (vars s)) i (Some q) (Some None) (set_nth_same _ _ _ _ _ N)).
      rewrite (holders_set r _ i (Some None) (Some p) N), (holders_set r _ i (Some q) (Some p) N).
      cbn [holds one]. f_equal. lia.
    + apply (inside_set (players s)); auto. { rewrite add_length, sub_length. reflexivity. }
      intros r X. injection X as ->. eapply I. exact M.
  - destruct (nth_error (vars s) i) as [[p|]|] eqn:N; auto. destruct G as [C I]. split; cbn [players vars].
    + eapply counted_sub; eauto.
    + apply (inside_set (players s)); auto using sub_length. discriminate.
  - destruct (nth_error (vars s) i) as [[p|]|] eqn:N; auto. destruct G as [C I]. split; cbn [players vars].
    + eapply counted_sub; eauto.
    + apply (inside_set (players s)); auto using sub_length. discriminate.
  - destruct (nth_error (vars s) i) as [[v|]|] eqn:N; auto. apply construct_good; auto.
    intros q X. apply first_free_spec in X. destruct X as (x & R & _). lia.
  - destruct (nth_error (vars s) i) as [[v|]|] eqn:N; auto. apply construct_good; auto.
    intros q X. apply first_playing_spec in X. destruct X as (x & R & _). lia.
  - destruct (nth_error (vars s) i) as [[v|]|] eqn:N; auto.
    destruct (first_free 0 (players s)) as [p|] eqn:F.
    + apply construct_good; auto. intros q X. injection X as <-. apply first_free_spec in F. destruct F as (x & R & _). lia.
    + destruct (fst (oldest 0 (players s) (None, 1000000))) as [p|] eqn:O.
      * apply construct_good; cbn [vars players]; auto using keep.
        intros q X. injection X as <-. rewrite on_length.
        destruct (oldest_spec (players s) 0 (None, 1000000) _ eq_refl) as (_ & _ & [E|(p' & x & E & R & _)]).
        { rewrite E in O. discriminate. } { rewrite E in O. cbn [fst] in O. injection O as <-. lia. }
      * apply construct_good; auto. discriminate.
  - apply keep; auto.
  - apply keep; auto.
  - apply keep; auto.
Qed.
Lemma run_good : forall ops s, good s -> good (run s ops).
Proof.
  intros ops. induction ops as [|o ops IH]; intros s G; cbn [run fold_left]; auto.
  apply IH. apply step_good. exact G.
Qed.
Lemma init_good : forall n k, good (init n k).
Proof.
  intros n k. assert (Z0 : forall p, holders p (repeat None k) = 0).
  { intros p. induction k as [|k IH]; [reflexivity|]. cbn [repeat]. rewrite holders_cons, IH. reflexivity. }
  split; cbn [init players vars].
  - intros q x N. apply nth_error_In, repeat_spec in N. subst x. rewrite Z0. reflexivity.
  - intros i p N. apply nth_error_In, repeat_spec in N. discriminate.
Qed.
Lemma step_vars : forall s o, length (vars (step s o)) = length (vars s).
Proof.
  intros s o. destruct o; cbn [step]; repeat match goal with
    | |- context[match ?x with _ => _ end] => destruct x
    end; cbn [construct vars]; rewrite ?set_nth_length; reflexivity.
Qed.
Lemma run_vars : forall ops s, length (vars (run s ops)) = length (vars s).
Proof.
  intros ops. induction ops as [|o ops IH]; intros s; cbn [run fold_left]; auto.
  unfold run in IH. rewrite IH. apply step_vars.
Qed.
Lemma holders_range : forall p vs, 0 <= holders p vs <= Z.of_nat (length vs).
Proof.
  intros p vs. induction vs as [|v vs IH]; [cbn; lia|]. rewrite holders_cons. cbn [length].
  unfold one. destruct (holds p v); lia.
Qed.
Lemma holder_some : forall p vs i, nth_error vs i = Some (Some (Some p)) -> 0 < holders p vs.
Proof.
  intros p vs. induction vs as [|v vs IH]; intros [|i] N; cbn [nth_error] in N; try discriminate;
    rewrite holders_cons; pose proof (holders_range p vs).
  - injection N as ->. cbn [holds]. rewrite Nat.eqb_refl. cbn [one]. lia.
  - specialize (IH i N). unfold one. destruct (holds p v); lia.
Qed.
Lemma no_holder : forall p vs, holders p vs = 0 -> forall i, nth_error vs i <> Some (Some (Some p)).
Proof. intros p vs H i N. pose proof (holder_some p vs i N). lia. Qed.

Lemma refs_exact : forall n k ops q x, Z.of_nat k < 4294967296 ->
  nth_error (players (run (init n k) ops)) q = Some x -> refs x = holders q (vars (run (init n k) ops)).
Proof.
  intros n k ops q x K N. destruct (run_good ops _ (init_good n k)) as [C _]. rewrite (C q x N).
  pose proof (holders_range q (vars (run (init n k) ops))) as R. rewrite run_vars in R.
  cbn [init vars] in R. rewrite repeat_length in R. unfold u32. apply Z.mod_small. lia.
Qed.
