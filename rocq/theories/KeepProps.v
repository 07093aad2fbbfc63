(** Saved presets over the life of a saber. *)
From Coq Require Import ZArith List Bool Lia.
From Verif Require Import Machine KeepModel KeepSpec KeepProofs.
Import ListNotations.
Open Scope Z_scope.

(** Two blades: blade 0 with three compiled-in presets and blade 1 with two, saved in directories 0 and 1. *)
Definition ex_rom (b : nat) : list preset :=
  match b with O => [Preset 10 0; Preset 11 0; Preset 12 0] | _ => [Preset 20 0; Preset 21 0] end.
Definition ex_cfg : cfg := Cfg ex_rom (fun b => b) true true (Preset 99 0).
Definition ex_disk (k : nat) : dir := Dir NoFile NoFile 0.
Definition ex_run (ops : list op) : list (list out) := run_outs (step ex_cfg) (boot ex_cfg ex_disk 0) ops.
Definition ex_bodies (ops : list op) : list Z := map body (presets ex_cfg (reach ex_cfg ex_disk 0 ops)).
Lemma ex_has : has_presets ex_cfg.
Proof. intros [|b]; discriminate. Qed.
Ltac no_inserts := repeat constructor; try discriminate; try exact I.

(** ** C103: the presets saved are one list, and survive power cuts *)
(** Whatever is on the disk, whatever is done (choosing, editing, moving, copying, deleting,
    colour changes, changes of blade, power cuts in the middle of a save) is seen as on plain lists. *)
Theorem C103_one_list : forall c g b ops, has_presets c -> Forall no_insert ops ->
  run_outs (step c) (boot c g b) ops = run_outs (astep c) (start c g b) ops.
Proof. intros c g b ops HP F. exact (proj1 (R_run c HP ops _ _ (R_start c g b) F)). Qed.
(** The presets offered are those of that list, and the one in use is the same. *)
Theorem C103_state : forall c g b ops, has_presets c -> Forall no_insert ops ->
  let s := reach c g b ops in let a := run_state (astep c) (start c g b) ops in
  presets c s = offered c (ablade a) (here c a) /\ cur (main s) = current a /\ num (main s) = position a /\ blade s = ablade a /\ shown s = color a.
Proof.
  intros c g b ops HP F. cbn zeta. pose proof (reach_R c g b ops HP F) as K. unfold areach in K.
  refine (conj (R_presets c _ _ K) _). destruct K as (_&_&K1&K2&K3&K4&_). auto.
Qed.
(** Switching off and on again changes no list. *)
Theorem C103_reboot : forall c g b ops, has_presets c -> Forall no_insert ops ->
  let s := reach c g b ops in presets c (reach c g b (ops ++ [Boot (blade s)])) = presets c s.
Proof.
  intros c g b ops HP F. cbn zeta. rewrite reach_snoc.
  exact (reboot_list c _ _ (reach_R c g b ops HP F)).
Qed.
(** Power lost at any point of a save: afterwards there are the presets from before or those from after. *)
Theorem C103_cut_edit : forall c g b ops x h1 h2, has_presets c -> Forall no_insert ops ->
  let s := reach c g b ops in let n := num (main s) in
  let l := presets c (reach c g b (ops ++ [CutEdit x h1 h2 (blade s)])) in
  l = presets c s \/ l = insert_at n (Preset x (variation (cur (main s)))) (remove_at n (presets c s)).
Proof.
  intros c g b ops x h1 h2 HP F. cbn zeta. rewrite reach_snoc.
  exact (cut_list c _ _ x h1 h2 (reach_R c g b ops HP F)).
Qed.
Theorem C103_cut_move : forall c g b ops pos h1 h2, has_presets c -> Forall no_insert ops ->
  let s := reach c g b ops in let n := num (main s) in
  let l := presets c (reach c g b (ops ++ [CutMove pos h1 h2 (blade s)])) in
  l = presets c s \/ l = insert_at pos (cur (main s)) (remove_at n (presets c s)).
Proof.
  intros c g b ops pos h1 h2 HP F. cbn zeta. rewrite reach_snoc.
  exact (cut_move_list c _ _ pos h1 h2 (reach_R c g b ops HP F)).
Qed.
(** An edit is seen at its place and nowhere else, also after switching off and on. *)
Theorem C103_edit : forall c g b ops x l p r, has_presets c -> Forall no_insert ops ->
  let s := reach c g b ops in
  presets c s = l ++ p :: r -> num (main s) = Z.of_nat (length l) ->
  presets c (reach c g b (ops ++ [Edit x; Boot (blade s)])) = l ++ Preset x (variation (cur (main s))) :: r.
Proof.
  intros c g b ops x l p r HP F. cbn zeta. intros L N. set (s := reach c g b ops) in *.
  replace (ops ++ [Edit x; Boot (blade s)]) with ((ops ++ [Edit x]) ++ [Boot (blade s)]) by now rewrite <- app_assoc.
  assert (F' : Forall no_insert (ops ++ [Edit x])) by (apply Forall_app; split; [exact F|no_inserts]).
  pose proof (C103_reboot c g b (ops ++ [Edit x]) HP F') as Q. cbn zeta in Q.
  pose proof (reach_R c g b ops HP F) as K. fold s in K.
  pose proof (R_step c s _ (Edit x) HP K ltac:(discriminate)) as [K1 _].
  assert (E : reach c g b (ops ++ [Edit x]) = fst (step c s (Edit x))) by (unfold reach; rewrite run_state_app; reflexivity).
  assert (B : blade (reach c g b (ops ++ [Edit x])) = blade s).
  { rewrite E. pose proof K1 as (_&_&X&_). pose proof K as (_&_&Y&_). rewrite <- X, <- Y. reflexivity. }
  rewrite B in Q. rewrite Q, E. exact (edit_at c s _ x l p r K L N).
Qed.
Example C103_ex : 
  ex_run [Set_ 1; Edit 5; List_ 10; Move 0; List_ 10; Boot 1; List_ 10; Boot 0; Set_ 0; CutEdit 7 Complete Useless 0; List_ 10; CutEdit 8 Complete Complete 0; List_ 10] =
  [[]; []; [Presets [Preset 10 0; Preset 5 0; Preset 12 0]]; []; [Presets [Preset 5 0; Preset 10 0; Preset 12 0]]; []; [Presets [Preset 20 0; Preset 21 0]]; []; [];
   []; [Presets [Preset 5 0; Preset 10 0; Preset 12 0]]; []; [Presets [Preset 8 0; Preset 10 0; Preset 12 0]]] /\
  has_presets ex_cfg.
Proof. split; [vm_compute; reflexivity|exact ex_has]. Qed.

(** ** C104: the preset menu *)
(** Moving up exchanges the preset in use with the one before; moving down with the one after. *)
Theorem C104_up : forall c g b ops l x r, has_presets c -> Forall no_insert ops ->
  let s := reach c g b ops in
  presets c s = l ++ x :: cur (main s) :: r -> num (main s) = Z.of_nat (S (length l)) ->
  let s' := fst (step c s MUp) in
  presets c s' = l ++ cur (main s) :: x :: r /\ num (main s') = Z.of_nat (length l) /\ cur (main s') = cur (main s) /\ snd (step c s MUp) = [Selected].
Proof. intros c g b ops l x r HP F. cbn zeta. exact (menu_up c _ _ l x r (reach_R c g b ops HP F)). Qed.
Theorem C104_down : forall c g b ops l x r, has_presets c -> Forall no_insert ops ->
  let s := reach c g b ops in
  presets c s = l ++ cur (main s) :: x :: r -> num (main s) = Z.of_nat (length l) ->
  let s' := fst (step c s MDown) in
  presets c s' = l ++ x :: cur (main s) :: r /\ num (main s') = Z.of_nat (S (length l)) /\ cur (main s') = cur (main s) /\ snd (step c s MDown) = [Selected].
Proof. intros c g b ops l x r HP F. cbn zeta. exact (menu_down c _ _ l x r (reach_R c g b ops HP F)). Qed.
(** At the ends there is a beep and nothing moves. *)
Theorem C104_ends : forall c g b ops, has_presets c -> Forall no_insert ops ->
  let s := reach c g b ops in
  (num (main s) = 0 -> presets c (fst (step c s MUp)) = presets c s /\ snd (step c s MUp) = [Buzz]) /\
  (num (main s) + 1 = Z.of_nat (length (presets c s)) -> presets c (fst (step c s MDown)) = presets c s /\ snd (step c s MDown) = [Buzz]).
Proof. intros c g b ops HP F. cbn zeta. exact (menu_ends c _ _ HP (reach_R c g b ops HP F)). Qed.
(** The only preset cannot be deleted; otherwise the one in use is, and no other. *)
Theorem C104_delete : forall c g b ops, has_presets c -> Forall no_insert ops ->
  let s := reach c g b ops in
  let only := (num (main s) = 0 /\ length (presets c s) = 1%nat) in
  let r := step c s MDelete in
  (only -> r = (s, [CantDelete])) /\
  (~ only -> presets c s <> [] -> presets c (fst r) = remove_at (num (main s)) (presets c s) /\ snd r = [Selected]).
Proof. intros c g b ops HP F. cbn zeta. exact (menu_delete c _ _ HP (reach_R c g b ops HP F)). Qed.
(** The menu never leaves a saber without presets. *)
Theorem C104_never_empty : forall c g b ops, has_presets c -> (forall k, stored (g k) <> Some []) -> Forall mild ops ->
  presets c (reach c g b ops) <> [].
Proof. exact never_empty. Qed.
(** Inserting works as long as nothing has been saved for the blade: then, and afterwards, all is as on plain lists. *)
Theorem C104_insert_first : forall c g b ops ops', has_presets c -> Forall no_insert ops -> Forall no_insert ops' ->
  stored (at_ (reach c g b ops) c) = None ->
  run_outs (step c) (boot c g b) (ops ++ MInsert :: ops') = run_outs (astep c) (start c g b) (ops ++ MInsert :: ops').
Proof.
  intros c g b ops ops' HP F F' N. rewrite !run_outs_app. f_equal; [exact (C103_one_list c g b ops HP F)|].
  pose proof (reach_R c g b ops HP F) as K. unfold reach, areach in K. destruct (R_insert c _ _ K N) as [K1 K2].
  rewrite !run_outs_cons. f_equal; [exact K2|]. exact (proj1 (R_run c HP ops' _ _ K1 F')).
Qed.
Example C104_ex :
  ex_run [Set_ 2; MUp; Show; List_ 10; MDown; MDown; List_ 10; MDelete; List_ 10; Set_ 0; MDelete; Set_ 0; MDelete; List_ 10] =
  [[]; [Selected]; [Current (Preset 12 0) 1]; [Presets [Preset 10 0; Preset 12 0; Preset 11 0]]; [Selected]; [Buzz]; [Presets [Preset 10 0; Preset 11 0; Preset 12 0]];
   [Selected]; [Presets [Preset 10 0; Preset 11 0]]; []; [Selected]; []; [CantDelete]; [Presets [Preset 11 0]]] /\
  Forall mild [Set_ 2; MUp; MDown; MDelete] /\
  ex_run [MSelect; Set_ 1; MInsert; List_ 10; Show] =
  [[Selected]; []; [Inserted]; [Presets [Preset 10 0; Preset 10 0; Preset 11 0; Preset 12 0]]; [Current (Preset 10 0) 1]] /\
  stored (at_ (reach ex_cfg ex_disk 0 [MSelect; Set_ 1]) ex_cfg) = None.
Proof. repeat split; vm_compute; auto. Qed.

(** Once something was saved, what was inserted may not be there: the saber goes on with the
    list it had, shows the old preset at that place, and its next save drops what was inserted. *)
Theorem C104_insert_refuted :
  exists ops ops', Forall no_insert ops /\ Forall no_insert ops' /\
    snd (step ex_cfg (reach ex_cfg ex_disk 0 ops) MInsert) = [Inserted] /\
    ex_bodies (ops ++ [MInsert]) = [50; 10; 11; 50] /\
    cur (main (reach ex_cfg ex_disk 0 (ops ++ [MInsert]))) = Preset 10 0 /\
    ex_bodies (ops ++ MInsert :: ops') = [60; 11; 50].
Proof.
  exists [Set_ 2; Edit 50; MSelect; Set_ 0], [Edit 60]. refine (conj _ (conj _ _)); [no_inserts|no_inserts|]. vm_compute. auto.
Qed.
(** After two such insertions an edit of the preset in use is not kept: after the next power-on it is gone. *)
Theorem C104_lost_edit_refuted :
  exists ops, let s := reach ex_cfg ex_disk 0 ops in let s' := reach ex_cfg ex_disk 0 (ops ++ [Edit 60]) in
    num (main s') = 0 /\ body (cur (main s')) = 60 /\ ~ In 60 (map body (presets ex_cfg s')) /\
    ~ In 60 (ex_bodies (ops ++ [Edit 60; Boot 0])).
Proof.
  exists [Edit 50; MSelect; MInsert; MInsert]. vm_compute. intuition discriminate.
Qed.
(** After a deletion another preset than the selected one is inserted. *)
Theorem C104_selected_refuted :
  exists ops, let s := reach ex_cfg ex_disk 0 (ops ++ [MSelect]) in
    body (cur (main s)) = 11 /\
    ex_bodies (ops ++ [MSelect; Set_ 0; MDelete; Boot 0]) = [11; 12] /\
    ex_bodies (ops ++ [MSelect; Set_ 0; MDelete; Set_ 0; MInsert]) = [12; 11; 12].
Proof. exists [Set_ 1]. vm_compute. auto. Qed.
(** After a deletion, moving down puts the deleted preset back; the previous preset is a compiled-in one
    which is not in the list, and an edit of it overwrites a saved one. *)
Theorem C104_after_delete_refuted :
  exists ops, ex_bodies ops = [50; 11; 12] /\
    ex_bodies (ops ++ [MDelete]) = [11; 12] /\
    ex_bodies (ops ++ [MDelete; MDown]) = [50; 11; 12] /\
    body (cur (main (reach ex_cfg ex_disk 0 (ops ++ [MDelete; Prev])))) = 11 /\
    ex_bodies (ops ++ [MDelete; Prev; Edit 70]) = [11; 70].
Proof. exists [Edit 50]. vm_compute. auto. Qed.

(** ** C105: the preset in use is found again; other blades' presets are left alone *)
Theorem C105_resume : forall c g b ops k es, has_presets c -> save_preset c = true -> Forall no_insert ops -> Forall calm es ->
  let s1 := fst (step c (reach c g b ops) (Set_ k)) in
  presets c s1 <> [] -> -1 <= k <= Z.of_nat (length (presets c s1)) ->
  let s2 := run_state (step c) s1 es in
  let s3 := fst (step c s2 (Boot (blade s2))) in
  cur (main s3) = cur (main s2) /\ num (main s3) = num (main s2).
Proof. exact resume_preset. Qed.
(** What is done with one blade never changes what is saved for a blade with another directory, if a changed
    colour is saved before the blade is changed. *)
Theorem C105_blade : forall c g b ops b', has_presets c -> Forall no_insert ops ->
  let s := reach c g b ops in
  save_color c = false \/ variation (cur (main s)) = shown s ->
  forall k, stored (disk (fst (step c s (Blade b'))) k) = stored (disk s k).
Proof. intros c g b ops b' HP F. cbn zeta. exact (blade_keeps c _ _ b' (reach_R c g b ops HP F)). Qed.
Theorem C105_others : forall c g b ops e, has_presets c -> Forall no_insert ops -> no_insert e ->
  let s := reach c g b ops in
  (forall b', e <> Blade b') ->
  forall k, k <> dir_of c (blade s) -> stored (disk (fst (step c s e)) k) = stored (disk s k).
Proof. intros c g b ops e HP F NI. cbn zeta. intros NB. exact (others_kept c _ _ e HP (reach_R c g b ops HP F) NI NB). Qed.
(** Rotating: the last preset becomes the first and is used; the others keep their order. *)
Theorem C105_rotate : forall c g b ops l x, has_presets c -> Forall no_insert ops ->
  let s := reach c g b ops in
  stored (at_ s c) = Some (l ++ [x]) ->
  let s' := fst (step c s Rotate) in map body (presets c s') = body x :: map body l /\ num (main s') = 0 /\ body (cur (main s')) = body x.
Proof. intros c g b ops l x HP F. cbn zeta. exact (rotate_body c _ _ l x (reach_R c g b ops HP F) HP). Qed.
Example C105_ex :
  ex_run [Set_ 1; Edit 5; Vary 3; Poll; Show; Blade 1; List_ 9; Boot 0; Show; Rotate; List_ 9; Show] =
  [[]; []; []; []; [Current (Preset 5 3) 1]; []; [Presets [Preset 20 0; Preset 21 0]]; []; [Current (Preset 5 3) 1];
   []; [Presets [Preset 12 3; Preset 10 0; Preset 5 3]]; [Current (Preset 12 3) 0]] /\
  Forall calm [Edit 5; Vary 3; Poll; Show].
Proof. split; [vm_compute; reflexivity|no_inserts]. Qed.
(** A colour changed just before the blade is changed is not saved with its preset; instead the
    preset is written over one of the new blade's presets. *)
Theorem C105_blade_refuted :
  exists ops, let s := reach ex_cfg ex_disk 0 ops in
    presets ex_cfg s = [Preset 10 0; Preset 11 0; Preset 12 0] /\
    presets ex_cfg (fst (step ex_cfg s (Blade 1))) = [Preset 20 0; Preset 11 4] /\
    ex_bodies (ops ++ [Blade 1; Boot 0]) = [10; 11; 12].
Proof. exists [Set_ 1; Vary 4]. vm_compute. auto. Qed.
(** Rotating gives the rotated preset the colour of the one in use before. *)
Theorem C105_rotate_colour_refuted :
  exists ops, let s := reach ex_cfg ex_disk 0 ops in
    presets ex_cfg s = [Preset 10 4; Preset 11 0; Preset 12 0] /\
    presets ex_cfg (fst (step ex_cfg s Rotate)) = [Preset 12 4; Preset 10 4; Preset 11 0].
Proof. exists [Vary 4; Poll]. vm_compute. auto. Qed.
(** As long as nothing was saved, rotating does not bring the last preset first but the one in use. *)
Theorem C105_rotate_first_refuted :
  exists ops, presets ex_cfg (reach ex_cfg ex_disk 0 ops) = [Preset 10 0; Preset 11 0; Preset 12 0] /\
    ex_bodies (ops ++ [Rotate]) = [11; 10; 12].
Proof. exists [Set_ 1]. vm_compute. auto. Qed.
(** After moving a preset the saber does not come back with it. *)
Theorem C105_move_refuted :
  exists ops, let s := reach ex_cfg ex_disk 0 ops in
    Current (cur (main s)) (num (main s)) = Current (Preset 12 0) 1 /\
    let s' := fst (step ex_cfg s (Boot 0)) in Current (cur (main s')) (num (main s')) = Current (Preset 11 0) 2.
Proof. exists [Set_ 2; MUp]. vm_compute. auto. Qed.

Print Assumptions C103_one_list.
Print Assumptions C103_state.
Print Assumptions C103_reboot.
Print Assumptions C103_cut_edit.
Print Assumptions C103_cut_move.
Print Assumptions C103_edit.
Print Assumptions C104_up.
Print Assumptions C104_down.
Print Assumptions C104_ends.
Print Assumptions C104_delete.
Print Assumptions C104_never_empty.
Print Assumptions C104_insert_first.
Print Assumptions C104_insert_refuted.
Print Assumptions C104_lost_edit_refuted.
Print Assumptions C104_selected_refuted.
Print Assumptions C104_after_delete_refuted.
Print Assumptions C105_resume.
Print Assumptions C105_blade.
Print Assumptions C105_others.
Print Assumptions C105_rotate.
Print Assumptions C105_blade_refuted.
Print Assumptions C105_rotate_colour_refuted.
Print Assumptions C105_rotate_first_refuted.
Print Assumptions C105_move_refuted.
