(** C08 argument lookup, C11 default wrappers, C12 argument sets. *)
From Coq Require Import ZArith List Bool Lia.
From Verif Require Import StrModel StrSpec ArgModel ArgSpec ArgProofs.
Import ListNotations.
Open Scope Z_scope.

(** C08.  GetArg returns a pointer to the n-th word, or the default. *)
Theorem C08_GetArg : forall s n d,
  match argument s n with
  | Some w => points_at (GetArg s n d) w
  | None => GetArg s n d = d
  end.
Proof. exact GetArg_points. Qed.
(* "ab ~ cd": argument 1 is "ab", 2 and 4 are missing, 3 is "cd" *)
Example C08_GetArg_ex : let s := [97; 98; 32; 126; 9; 99; 100] in
  argument s 1 = Some [97; 98] /\ argument s 2 = None /\ argument s 3 = Some [99; 100] /\
  argument s 4 = None /\ GetArg s 3 [120] = [99; 100] /\ GetArg s 2 [120] = [120].
Proof. repeat split; reflexivity. Qed.

Theorem C08_Shift : forall s k n, 0 <= k -> 1 <= n ->
  argument (Shift s k) n = argument s (n + k).
Proof. exact argument_Shift. Qed.
Example C08_Shift_ex : argument (Shift [97; 32; 98; 32; 99] 2) 1 = Some [99].
Proof. reflexivity. Qed.

(** C11.  With any nesting of default wrappers and any shifts, the first string that
    supplies the argument decides (the style string first, then wrappers from the
    innermost outwards). *)
Theorem C11_defaults : forall p ks n d, Forall (fun k => 0 <= k) ks -> 1 <= n ->
  match first_argument (p_strings p) (n + fold_right Z.add 0 ks) with
  | Some w => points_at (p_get (p_shifts p ks) n d) w
  | None => p_get (p_shifts p ks) n d = d
  end.
Proof. exact p_get_shifts. Qed.
(* style "~ b", defaults "c d e": argument 1 is c, 2 is b, 3 is e, 4 is the built-in *)
Example C11_defaults_ex : let p := PWrap (PArg [126; 32; 98]) [99; 32; 100; 32; 101] in
  map (first_argument (p_strings p)) [1; 2; 3; 4] = [Some [99]; Some [98]; Some [101]; None] /\
  p_strings p = [[126; 32; 98]; [99; 32; 100; 32; 101]] /\
  p_get (p_shifts p [1; 1]) 1 [122] = [101].
Proof. repeat split; reflexivity. Qed.

(** C12. *)
Theorem C12_popcount : forall size b, bs_count size b = Z.of_nat (length (members size b)).
Proof. exact bs_count_members. Qed.
Theorem C12_members : forall size b x,
  In x (members size b) <-> 0 <= x < Z.of_nat size /\ bs_get b x = true.
Proof. exact in_members. Qed.
Theorem C12_set_clear : forall size b i x, 0 <= i < Z.of_nat size ->
  (In x (members size (bs_set b i)) <-> x = i \/ In x (members size b)) /\
  (In x (members size (bs_clear b i)) <-> x <> i /\ In x (members size b)).
Proof. exact bs_set_clear_spec. Qed.
Example C12_members_ex : members 128 (bs_set (bs_set (bs_set 0 100) 3) 40) = [3; 40; 100] /\
  bs_count 128 (bs_set (bs_set 0 100) 3) = 2.
Proof. split; vm_compute; reflexivity. Qed.

Theorem C12_next : forall size b bit,
  (members size b = [] -> bs_next size b bit = bit) /\
  (members size b <> [] -> In (bs_next size b bit) (members size b) /\
     forall x, In x (members size b) ->
       ahead (Z.of_nat size) bit (bs_next size b bit) <= ahead (Z.of_nat size) bit x).
Proof. exact bs_next_spec. Qed.
Theorem C12_prev : forall size b bit,
  (members size b = [] -> bs_prev size b bit = bit) /\
  (members size b <> [] -> In (bs_prev size b bit) (members size b) /\
     forall x, In x (members size b) ->
       behind (Z.of_nat size) bit (bs_prev size b bit) <= behind (Z.of_nat size) bit x).
Proof. exact bs_prev_spec. Qed.
Theorem C12_prev_next : forall size b i, In i (members size b) ->
  bs_prev size b (bs_next size b i) = i /\ bs_next size b (bs_prev size b i) = i.
Proof. exact prev_next. Qed.
(** Repeated next reaches every member. *)
Theorem C12_next_visits_all : forall size b i j, In i (members size b) -> In j (members size b) ->
  exists k, (1 <= k <= size)%nat /\ Nat.iter k (bs_next size b) i = j.
Proof. exact next_cycle. Qed.
(** After as many steps as there are members one is back at the start. *)
Theorem C12_next_full_circle : forall size b i, In i (members size b) ->
  Nat.iter (Z.to_nat (bs_count size b)) (bs_next size b) i = i.
Proof. exact next_full_circle. Qed.
Example C12_next_ex : let b := bs_set (bs_set (bs_set 0 100) 3) 40 in
  In 100 (members 128 b) /\
  map (bs_next 128 b) [3; 40; 50; 100] = [40; 100; 100; 3] /\
  map (bs_prev 128 b) [3; 40; 50; 100] = [100; 3; 40; 40].
Proof. repeat split; vm_compute; auto. Qed.

(** nth is the n-th smallest; the finding: past the last member it reads outside the array. *)
Theorem C12_nth : forall size b n, 0 <= n ->
  bs_nth size b n = match nth_error (members size b) (Z.to_nat n) with
                    | Some x => NRes x | None => NOutOfBounds end.
Proof. exact bs_nth_spec. Qed.
Example C12_nth_ex : bs_nth 128 (bs_set (bs_set 0 100) 3) 1 = NRes 100 /\
  bs_nth 128 (bs_set (bs_set 0 100) 3) 2 = NOutOfBounds.
Proof. split; vm_compute; reflexivity. Qed.

Theorem C12_shift : forall size b bits x, 0 <= bits ->
  (In x (members size (bs_shift size b bits)) <-> 0 <= x /\ In (x + bits) (members size b)).
Proof. exact bs_shift_members. Qed.
Example C12_shift_ex : members 128 (bs_shift 128 (bs_set (bs_set 0 100) 3) 5) = [95].
Proof. vm_compute; reflexivity. Qed.

Print Assumptions C08_GetArg.
Print Assumptions C08_Shift.
Print Assumptions C11_defaults.
Print Assumptions C12_popcount.
Print Assumptions C12_set_clear.
Print Assumptions C12_next.
Print Assumptions C12_prev.
Print Assumptions C12_prev_next.
Print Assumptions C12_next_visits_all.
Print Assumptions C12_next_full_circle.
Print Assumptions C12_nth.
Print Assumptions C12_shift.
Print Assumptions C12_members.
