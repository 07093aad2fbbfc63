(** Menus. *)
From Coq Require Import ZArith List Bool PeanoNat Lia ZifyBool ZifyNat.
From Verif Require Import Machine ArithModel ModeModel ModeSpec ModeProofs.
Import ListNotations.
Open Scope Z_scope.

(** Entering and leaving modes behaves like a stack. *)
Theorem C58_nesting base os : stack_all_allowed [base] os ->
  exists s, mode_play (modes0 base) os = Some (s, run_outs stack_step [base] os) /\ current s = hd_error (run_state stack_step [base] os).
Proof. intros A. destruct (mode_play_ok os _ _ (mode_inv0 base) A) as (s & P & (C & _)). exists s. split; [exact P|exact C]. Qed.
Example C58_nesting_ex : stack_all_allowed [0%nat] [Push 1; Push 2; Pop; Push 3; Pop; Pop] /\
  concat (run_outs stack_step [0%nat] [Push 1; Push 2; Pop; Push 3; Pop; Pop]) =
  [Activate 1 false; Activate 2 false; Deactivate 2; Activate 1 true; Activate 3 false; Deactivate 3; Activate 1 true; Deactivate 1; Activate 0 true].
Proof. split; [cbn; intuition lia|reflexivity]. Qed.
(** Entering a mode that is already active makes it its own predecessor: it cannot be left any more.
    Leaving the outermost mode follows a null pointer. *)
Theorem C58_twice_refuted :
  exists s, mode_play (modes0 0) [Push 1; Push 2; Push 1; Pop; Pop; Pop; Pop] = Some (s, [[Activate 1 false]; [Activate 2 false]; [Activate 1 false]; [Deactivate 1; Activate 2 true]; [Deactivate 2; Activate 1 true]; [Deactivate 1; Activate 2 true]; [Deactivate 2; Activate 1 true]]) /\ current s = Some 1%nat.
Proof. eexists. split; [reflexivity|reflexivity]. Qed.
Theorem C58_outermost_refuted base : mode_play (modes0 base) [Pop] = None.
Proof. reflexivity. Qed.

(** Turning moves round the menu: the position stays inside, next and previous undo each other. *)
Theorem C58_turning n pos ts : 0 < n <= 65535 -> 0 <= pos < n -> menu_play n pos ts = Some ((pos + turned ts) mod n).
Proof. intros N. apply menu_play_ok. exact N. Qed.
Example C58_turning_ex : menu_play 3 1 [Next; Next; Next; Prev; Prev; Prev; Prev] = Some 0.
Proof. reflexivity. Qed.
(** An empty menu (for example a list of tracks without tracks) divides by zero. *)
Theorem C58_empty_refuted pos t ts : menu_play 0 pos (t :: ts) = None.
Proof. reflexivity. Qed.

(** Every position of a menu made of entries belongs to the entry it would belong to if the entries
    were laid out one after another, however many entries of whatever size there are. *)
Theorem C58_entries l fuel : l <> [] -> (length l <= fuel)%nat ->
  exists t, menu_list fuel l = Some t /\ tree_size t = length (layout l) /\ forall n, (n < length (layout l))%nat -> nth_error (layout l) n = Some (tree_call t n).
Proof. intros N L. destruct (menu_list_ok fuel l N L) as (t & E & (S1 & S2)). exists t. auto. Qed.
Example C58_entries_ex : layout [Entry 10 1; Entry 11 3; Entry 12 0; Entry 13 2] = [(10, 0); (11, 0); (11, 1); (11, 2); (13, 0); (13, 1)]%nat.
Proof. reflexivity. Qed.

Print Assumptions C58_nesting.
Print Assumptions C58_twice_refuted.
Print Assumptions C58_outermost_refuted.
Print Assumptions C58_turning.
Print Assumptions C58_empty_refuted.
Print Assumptions C58_entries.
