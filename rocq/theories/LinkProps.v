(** C56: background tasks (common/looper.h). *)
From Coq Require Import List Bool PeanoNat Lia.
From Verif Require Import LinkModel LinkSpec LinkProofs.
Import ListNotations.

Local Notation idle := (fun _ _ => []).
(** C56: after any history of linking and unlinking, with nothing linked twice, one pass of the loop
    calls exactly the linked tasks, each once, normal ones latest first and then high-frequency
    ones in the order they were linked; the high-frequency pass calls exactly the latter.
    (Calls are listed latest first.) *)
Theorem C56_linked : forall objs junk os, all_allowed objs ([], []) os ->
  let t := after_ops ([], []) os in
  exists s, do_ops objs (state0 junk) os = Some s /\
  DoLoop objs objs idle s = Some (rev (fst t ++ snd t), s) /\ DoHFLoop objs objs idle s = Some (rev (snd t), s) /\
  NoDup (fst t ++ snd t) /\ forall x, In x (fst t ++ snd t) <-> linked_by os x False.
Proof.
  intros objs junk os A t. destruct (ops_rep objs os _ _ (rep0 objs junk) A) as (s & D & R). exists s. split; [exact D|].
  pose proof (rep_length _ _ _ R) as L. destruct R as (C & H & N & _). fold t in C, H, N, L. unfold all in *. rewrite app_length in L.
  split; [unfold DoLoop; rewrite (walk_idle objs s _ objs _ [] C) by (rewrite app_length; lia); rewrite app_nil_r; reflexivity|]. split.
  - unfold DoHFLoop. rewrite H. rewrite (walk_idle objs s (snd t) objs _ [] (chain_suffix _ _ _ _ C)) by lia. rewrite app_nil_r. reflexivity.
  - split; [exact N|]. intros x. apply (members os ([], []) x ltac:(constructor) objs A).
Qed.
Example C56_ex : let os := [OLink 0; OHFLink 1; OLink 2; OHFLink 3; OUnlink 1; OUnlink 0; OLink 1] in
  all_allowed 4 ([], []) os /\ after_ops ([], []) os = ([1; 2], [3]).
Proof. split; [|reflexivity]. repeat split; cbn; try lia; intuition (try discriminate). Qed.

(** C56: also when tasks link and unlink others or themselves during the pass: every task that nobody
    touches is called once if it was linked (at or behind the entry point) and not at all otherwise, *)
Theorem C56_pass : forall objs junk os s b y fuel calls s', all_allowed objs ([], []) os -> do_ops objs (state0 junk) os = Some s -> untouched b y ->
  let t := after_ops ([], []) os in
  (well_behaved fuel objs b t (hd_error (fst t ++ snd t)) [] -> DoLoop fuel objs (body b) s = Some (calls, s') ->
   count_occ Nat.eq_dec calls y = if in_dec Nat.eq_dec y (fst t ++ snd t) then 1 else 0) /\
  (well_behaved fuel objs b t (hd_error (snd t)) [] -> DoHFLoop fuel objs (body b) s = Some (calls, s') ->
   count_occ Nat.eq_dec calls y = if in_dec Nat.eq_dec y (snd t) then 1 else 0).
Proof.
  intros objs junk os s b y fuel calls s' A D U t. destruct (ops_rep objs os _ _ (rep0 objs junk) A) as (s0 & D0 & R). rewrite D in D0. injection D0 as <-. fold t in R.
  pose proof R as (C & H & N & _). split.
  - intros W E. unfold DoLoop in E. fold (all t) in *. rewrite (chain_hd _ _ _ C) in E.
    assert (RS : rest t (hd_error (all t)) = all t) by (unfold rest; destruct (all t) as [|a l]; cbn; [reflexivity|]; rewrite Nat.eqb_refl; reflexivity).
    assert (P : present t (hd_error (all t))) by (unfold present; destruct (all t); cbn; auto).
    destruct (walk_once objs b y U fuel s t _ [] _ _ R P W E) as (X & Y & _). rewrite RS in *. destruct (in_dec _ _ _); auto.
  - intros W E. unfold DoHFLoop in E. rewrite H in E.
    assert (P : present t (hd_error (snd t))) by (unfold present, all; destruct (snd t); cbn; auto; apply in_or_app; right; left; reflexivity).
    assert (RS : rest t (hd_error (snd t)) = snd t).
    { unfold rest. destruct (snd t) as [|a l] eqn:ES; cbn [hd_error]; [reflexivity|]. f_equal. unfold all in *. rewrite ES in *. clear - N. induction (fst t) as [|c r IH]; cbn; [rewrite Nat.eqb_refl; reflexivity|].
      inversion N; subst. destruct (Nat.eqb_spec c a) as [->|]; [exfalso; apply H1; apply in_or_app; right; left; reflexivity|auto]. }
    destruct (walk_once objs b y U fuel s t _ [] _ _ R P W E) as (X & Y & _). rewrite RS in *. destruct (in_dec _ _ _); auto.
Qed.
(** and the pass ends unless high-frequency tasks are added during it. *)
Theorem C56_pass_ends : forall objs junk os s b, all_allowed objs ([], []) os -> do_ops objs (state0 junk) os = Some s -> no_hf b ->
  let t := after_ops ([], []) os in well_behaved objs objs b t (hd_error (fst t ++ snd t)) [] -> DoLoop objs objs (body b) s <> None.
Proof.
  intros objs junk os s b A D U t W. destruct (ops_rep objs os _ _ (rep0 objs junk) A) as (s0 & D0 & R). rewrite D in D0. injection D0 as <-. fold t in R.
  pose proof R as (C & _). pose proof (rep_length _ _ _ R) as L. unfold DoLoop. rewrite (chain_hd _ _ _ C). apply (walk_ends objs b U objs s t); [exact R| |exact W|].
  - unfold present. destruct (all t); cbn; auto.
  - unfold rest. destruct (all t) as [|a l]; cbn in *; [lia|]. rewrite Nat.eqb_refl. exact L.
Qed.
(** Task 1 unlinks task 2 and then itself. *)
Example C56_pass_ex : let os := [OLink 0; OLink 1; OLink 2; OLink 3] in let b := (fun (_ : list nat) x => if Nat.eqb x 1 then ([OUnlink 2; OLink 2], true) else ([], false)) : behaviour in
  all_allowed 4 ([], []) os /\ well_behaved 4 4 b (after_ops ([], []) os) (Some 3) [] /\ untouched b 0 /\
  exists s s', do_ops 4 (state0 (fun _ => None)) os = Some s /\ DoLoop 4 4 (body b) s = Some ([0; 1; 2; 3], s').
Proof.
  cbv zeta. split; [repeat split; cbn; try lia; intuition (try discriminate)|]. split.
  { cbn. repeat split; repeat constructor; cbn; try lia; try discriminate; intuition (try discriminate). }
  split. { intros calls x o. unfold body. destruct (Nat.eqb_spec x 1) as [->|]; cbn; intuition (subst; cbn; discriminate). }
  eexists. eexists. split; reflexivity.
Qed.

(** Linking a task that is already linked makes the loop endless. *)
Theorem C56_double_link_refuted : exists s, do_ops 2 (state0 (fun _ => None)) [OLink 0; OLink 0] = Some s /\ forall fuel, DoLoop fuel 2 idle s = None.
Proof.
  eexists. split; [reflexivity|]. intros fuel. unfold DoLoop. cbn [loopers]. generalize (@nil nat). induction fuel as [|fuel IH]; intros calls; [reflexivity|]. cbn. apply IH.
Qed.
(** A task that unlinks and relinks itself in its Loop() sends the pass back to the start: task 1 is
    called twice; *)
Theorem C56_relink_refuted : exists s s', do_ops 2 (state0 (fun _ => None)) [OLink 0; OLink 1] = Some s /\
  DoLoop 3 2 (fun _ x => if Nat.eqb x 0 then [OUnlink 0; OLink 0] else []) s = Some ([1; 0; 1], s').
Proof. eexists. eexists. split; reflexivity. Qed.
(** if two tasks do, the pass never ends. *)
Theorem C56_relink_endless_refuted : exists s, do_ops 2 (state0 (fun _ => None)) [OLink 0; OLink 1] = Some s /\
  forall fuel, DoLoop fuel 2 (fun _ x => [OUnlink x; OLink x]) s = None.
Proof.
  eexists. split; [reflexivity|]. set (s0 := Link (Link (state0 (fun _ => None)) 0) 1).
  set (two := fun s x y => loopers s = Some x /\ next s x = Some y /\ next s y = None /\ hf_loopers s = None).
  assert (K : forall fuel s calls x y, (x = 0 /\ y = 1 \/ x = 1 /\ y = 0) -> two s x y \/ two s y x -> walk fuel 2 (fun _ x => [OUnlink x; OLink x]) s (Some x) calls = None).
  { induction fuel as [|fuel IH]; intros s calls x y XY H; [reflexivity|]. cbn [walk do_ops do_op]. unfold Unlink.
    destruct XY as [(-> & ->)|(-> & ->)], H as [(A & B & C & D)|(A & B & C & D)]; rewrite D; cbn [is unlink_from deref]; rewrite A; cbn [Nat.eqb unlink_from deref]; rewrite ?B; cbn [Nat.eqb store];
      cbn [Link next loopers hf_loopers set_next Nat.eqb]; rewrite ?A, ?B; (eapply IH; [|right]; [auto|]); unfold two; cbn; rewrite ?A, ?B, ?C, ?D; auto. }
  intros fuel. apply (K fuel s0 [] 1 0); [auto|left]. repeat split.
Qed.
(** A task that unlinks itself and then its neighbour: the neighbour is still called. *)
Theorem C56_neighbour_refuted : exists s s', do_ops 2 (state0 (fun _ => None)) [OLink 0; OLink 1] = Some s /\
  DoLoop 2 2 (fun _ x => if Nat.eqb x 1 then [OUnlink 1; OUnlink 0] else []) s = Some ([0; 1], s') /\ loopers s' = None.
Proof. eexists. eexists. split; [reflexivity|]. split; reflexivity. Qed.

Print Assumptions C56_linked.
Print Assumptions C56_pass.
Print Assumptions C56_pass_ends.
Print Assumptions C56_double_link_refuted.
Print Assumptions C56_relink_refuted.
Print Assumptions C56_relink_endless_refuted.
Print Assumptions C56_neighbour_refuted.
