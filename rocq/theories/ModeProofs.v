(** Proofs about menus. *)
From Coq Require Import ZArith List Bool PeanoNat Lia ZifyBool ZifyNat.
From Verif Require Import Machine ArithModel ArithProofs ModeModel ModeSpec.
Import ListNotations.
Open Scope Z_scope.

(** The stack as linked from the current mode. *)
Fixpoint linked (prev : nat -> option nat) (s : list nat) : Prop :=
  match s with
  | [] => True
  | m :: r => prev m = hd_error r /\ linked prev r
  end.
Definition mode_inv (s : modes) (st : list nat) : Prop :=
  current s = hd_error st /\ st <> [] /\ NoDup st /\ linked (previous s) st.
Lemma linked_ext p q s : (forall x, In x s -> q x = p x) -> linked p s -> linked q s.
Proof. induction s as [|m s IH]; [auto|]. intros E (H1 & H2). split; [rewrite E by (left; reflexivity); exact H1|]. apply IH; [|exact H2]. intros x I. apply E. right. exact I. Qed.
Lemma mode_step_ok s st o : mode_inv s st -> stack_allowed st o ->
  exists s', mode_step s o = Some (s', snd (stack_step st o)) /\ mode_inv s' (fst (stack_step st o)).
Proof.
  intros (C & N & ND & L) A. destruct o as [m|]; cbn [mode_step stack_step stack_allowed] in *.
  - eexists. split; [reflexivity|]. cbn [fst]. split; [reflexivity|]. split; [discriminate|]. split; [constructor; assumption|]. cbn [previous linked].
    split; [rewrite Nat.eqb_refl; exact C|]. apply linked_ext with (p := previous s); [|exact L]. intros x I. destruct (Nat.eqb_spec x m); [subst; contradiction|reflexivity].
  - destruct st as [|m [|p st]]; cbn in A; [lia|lia|]. rewrite C. cbn [hd_error]. destruct L as (L1 & L2). rewrite L1. cbn [hd_error]. eexists. split; [reflexivity|].
    cbn [fst]. split; [reflexivity|]. split; [discriminate|]. split; [inversion ND; assumption|exact L2].
Qed.
Lemma mode_play_ok os : forall s st, mode_inv s st -> stack_all_allowed st os ->
  exists s', mode_play s os = Some (s', run_outs stack_step st os) /\ mode_inv s' (run_state stack_step st os).
Proof.
  induction os as [|o os IH]; intros s st V A; [exists s; split; [reflexivity|exact V]|]. destruct A as (A & B). destruct (mode_step_ok s st o V A) as (s1 & E & V1).
  destruct (IH s1 _ V1 B) as (s2 & E2 & V2). exists s2. cbn [mode_play]. rewrite E, E2. cbn [run_outs run_state]. destruct (stack_step st o). split; [reflexivity|exact V2].
Qed.
Lemma mode_inv0 b : mode_inv (modes0 b) [b].
Proof. split; [reflexivity|]. split; [discriminate|]. split; [repeat constructor; auto|]. cbn. auto. Qed.

Lemma menu_play_ok n : 0 < n <= 65535 -> forall ts pos, 0 <= pos < n -> menu_play n pos ts = Some ((pos + turned ts) mod n).
Proof.
  intros N. induction ts as [|t ts IH]; intros pos P; cbn [menu_play turned].
  - rewrite Z.add_0_r, Z.mod_small by exact P. reflexivity.
  - unfold menu_step. destruct (Z.eqb_spec n 0) as [|_]; [lia|].
    assert (S1 : forall d, MOD (pos + d) n mod 65536 = (pos + d) mod n). { intros d. rewrite MOD_correct by lia. apply Z.mod_small. pose proof (Z.mod_pos_bound (pos + d) n). lia. }
    assert (S2 : forall d e, ((pos + d) mod n + e) mod n = (pos + (d + e)) mod n). { intros d e. rewrite Zplus_mod_idemp_l. f_equal. lia. }
    assert (B : forall d, 0 <= (pos + d) mod n < n) by (intros; apply Z.mod_pos_bound; lia).
    destruct t.
    + rewrite S1, IH by apply B. rewrite S2. reflexivity.
    + replace (pos - 1) with (pos + -1) by lia. rewrite S1, IH by apply B. rewrite S2. f_equal. f_equal. lia.
Qed.

Lemma head_list_ok {A} n : forall (l p : list A), (n <= length l)%nat -> head_list n l p = Some (p ++ firstn n l).
Proof. induction n as [|n IH]; intros [|x l] p L; cbn in *; try lia; try (rewrite app_nil_r; reflexivity). rewrite IH by lia. rewrite <- app_assoc. reflexivity. Qed.
Lemma tail_list_ok {A} n : forall (l : list A), (n <= length l)%nat -> tail_list n l = Some (skipn n l).
Proof. induction n as [|n IH]; intros [|x l] L; cbn in *; try lia; try reflexivity. apply IH. lia. Qed.
Lemma layout_app a b : layout (a ++ b) = layout a ++ layout b.
Proof. unfold layout. rewrite map_app, concat_app. reflexivity. Qed.
Definition laid (t : tree) (l : list (nat * nat)) : Prop :=
  tree_size t = length l /\ forall n, (n < length l)%nat -> nth_error l n = Some (tree_call t n).
Lemma laid_leaf e : laid (Leaf e) (layout [e]).
Proof.
  unfold layout. cbn [map concat]. rewrite app_nil_r. split; [rewrite map_length, seq_length; reflexivity|]. intros n. rewrite map_length, seq_length. intros L. cbn.
  erewrite map_nth_error; [reflexivity|]. rewrite nth_error_nth' with (d := 0%nat) by (rewrite seq_length; exact L). rewrite seq_nth by exact L. reflexivity.
Qed.
Lemma laid_concat a b la lb : laid a la -> laid b lb -> laid (Concat a b) (la ++ lb).
Proof.
  intros (A1 & A2) (B1 & B2). split; [cbn; rewrite app_length; lia|]. intros n. rewrite app_length. intros L. cbn [tree_call]. rewrite A1. destruct (Nat.ltb_spec n (length la)) as [Q|Q].
  - rewrite nth_error_app1 by exact Q. apply A2. exact Q.
  - rewrite nth_error_app2 by exact Q. apply B2. lia.
Qed.
Lemma menu_list_ok fuel : forall l, l <> [] -> (length l <= fuel)%nat -> exists t, menu_list fuel l = Some t /\ laid t (layout l).
Proof.
  induction fuel as [|fuel IH]; intros l N L; [destruct l; cbn in L; [contradiction|lia]|]. destruct l as [|e1 [|e2 [|e3 l]]].
  - contradiction.
  - exists (Leaf e1). split; [reflexivity|apply laid_leaf].
  - exists (Concat (Leaf e1) (Leaf e2)). split; [reflexivity|]. change [e1; e2] with ([e1] ++ [e2]). rewrite layout_app. apply laid_concat; apply laid_leaf.
  - cbn [menu_list]. set (w := e1 :: e2 :: e3 :: l) in *. assert (W : (3 <= length w)%nat) by (subst w; cbn; lia). clearbody w.
    assert (D : (1 <= length w / 2 /\ length w / 2 < length w)%nat). { split; [apply Nat.div_le_lower_bound; lia|apply Nat.div_lt; lia]. } set (n := (length w / 2)%nat) in *. clearbody n.
    rewrite head_list_ok, tail_list_ok by lia. cbn [app]. pose proof (firstn_length n w) as FL. pose proof (skipn_length n w) as SL.
    destruct (IH (firstn n w)) as (a & EA & LA); [intros E; rewrite E in FL; cbn in FL; lia|lia|]. destruct (IH (skipn n w)) as (b & EB & LB); [intros E; rewrite E in SL; cbn in SL; lia|lia|].
    rewrite EA, EB. exists (Concat a b). split; [reflexivity|]. rewrite <- (firstn_skipn n w), layout_app. apply laid_concat; assumption.
Qed.
