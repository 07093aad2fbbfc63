(** Picking lines out of the output of a command. *)
From Coq Require Import ZArith List Bool Permutation Sorted Lia ZifyBool ZifyNat.
From Verif Require Import StrModel StrSpec LineModel LineSpec LineProofs.
Import ListNotations.
Open Scope Z_scope.

(** Output is split into its lines: empty ones are dropped, long ones cut. *)
Theorem C79_lines maxline ls : 2 <= maxline -> Forall (fun l => printable (fst l)) ls ->
  capture maxline (printed ls) = map (firstn (Z.to_nat (maxline - 1))) (filter (fun l => match l with [] => false | _ => true end) (map fst ls)).
Proof. intros M F. unfold capture. rewrite capture_printed by assumption. reflexivity. Qed.
Example C79_lines_ex : capture 4 (printed [([97; 98; 99; 100], true); ([], false); ([101], false)]) = [[97; 98; 99]; [101]].
Proof. reflexivity. Qed.
(** Asking for line number [target] (from 1) gives that line, as much of it as fits, and the number of
    lines. *)
Theorem C79_single target bufsize ls : 0 <= bufsize -> 1 <= target -> Forall (fun l => printable (fst l)) ls ->
  get_single_line target bufsize (printed ls) =
  (match nth_error (map fst ls) (Z.to_nat (target - 1)) with Some l => firstn (Z.to_nat (bufsize - 1)) l | None => [] end, Z.of_nat (length ls)).
Proof.
  intros B T F. unfold get_single_line. rewrite catch_printed; [|exact B|exact F|reflexivity|cbn; lia]. cbn [fst snd]. destruct (Z.leb_spec 1 target); [|lia]. f_equal. lia.
Qed.
Example C79_single_ex : get_single_line 2 3 (printed [([97; 98; 99; 100], true); ([101; 102; 103], false)]) = ([101; 102], 2).
Proof. reflexivity. Qed.
(** The next line is the nearest one after (before) the previous one, in byte order. *)
Theorem C79_next reverse previous lines : is_next reverse previous lines (next_line reverse previous lines).
Proof. apply next_line_ok. Qed.
Example C79_next_ex : next_line false (Some [98]) [[99]; [97]; [98]; [98; 97]; [100]] = Some [98; 97] /\ next_line true (Some [97]) [[99]; [97]] = None.
Proof. split; reflexivity. Qed.

Lemma same_before x y a : same_nocase x y -> (before a x <-> before a y) /\ (before x a <-> before y a).
Proof. unfold before, same_nocase. intros ->. split; reflexivity. Qed.
Lemma listed_setup lines s1 x s2 cur : sorted_lines lines (s1 ++ x :: s2) -> same_nocase x cur -> (forall a, In a s1 -> before a cur) /\ (forall a, In a s2 -> before cur a).
Proof.
  intros (_ & S) E. apply sorted_app in S. destruct S as (S2 & _ & S3). split; intros a A.
  - apply (same_before x cur a E). apply S3; [exact A|left; reflexivity].
  - apply (same_before x cur a E). inversion S2 as [|? ? _ F]; subst. rewrite Forall_forall in F. apply F. exact A.
Qed.
(** The menu of lines shows the sorted lines, whatever order the command lists them in and whatever
    positions were visited before; the line that is the current value is shown as the current value
    is spelled, and the menu starts there. *)
Theorem C79_menu lines s1 x s2 cur ns : sorted_lines lines (s1 ++ x :: s2) -> same_nocase x cur -> Forall plain lines ->
  Forall (fun n => 0 <= n < Z.of_nat (length lines)) ns ->
  num_lines (init lines cur) = Z.of_nat (length lines) /\ cur_pos (init lines cur) = Z.of_nat (length s1) /\
  (forall ls, gets lines cur (init lines cur) ns = Some ls -> map (fun n => nth_error (s1 ++ cur :: s2) (Z.to_nat n)) ns = map Some ls) /\
  (Z.of_nat (length lines) <= 54 -> exists ls, gets lines cur (init lines cur) ns = Some ls).
Proof.
  intros S E P F. destruct (listed_setup lines s1 x s2 cur S E) as (H1 & H2). pose proof (init_ok lines s1 s2 cur (Some x) S E H1 H2) as IO. rewrite IO. split; [reflexivity|]. split; [reflexivity|]. rewrite <- IO.
  assert (L : length (shown s1 s2 cur) = length lines). { rewrite <- (Permutation_length (proj1 S)). unfold shown. rewrite !app_length. reflexivity. }
  pose proof (good_init lines s1 s2 cur (Some x) S E H1 H2) as G. rewrite <- L in F. split.
  - intros ls Q. apply (gets_never_wrong lines s1 s2 cur (Some x) S P E H1 H2 ns _ ls G F Q).
  - intros B. destruct (gets_ok lines s1 s2 cur (Some x) S P E H1 H2 ns _ G B F) as (ls & Q & _). exists ls. exact Q.
Qed.
Definition C79_L : list str := [[99]; [97]; [66]; [100]].
Example C79_menu_ex : sorted_lines C79_L ([[97]] ++ [66] :: [[99]; [100]]) /\ same_nocase [66] [98] /\ Forall plain C79_L /\
  gets C79_L [98] (init C79_L [98]) [3; 1; 0; 2; 3] = Some [[100]; [98]; [97]; [99]; [100]].
Proof.
  split; [split|].
  - unfold C79_L. cbn. apply perm_trans with (l' := [[97]; [99]; [66]; [100]]); [apply perm_skip, perm_swap|]. apply perm_swap.
  - cbn. repeat constructor.
  - split; [reflexivity|]. split; [|reflexivity]. unfold C79_L. repeat apply Forall_cons; try apply Forall_nil; cbn; lia.
Qed.
(** If the current value is not among the lines it is shown in its place among them. *)
Theorem C79_unlisted lines s1 s2 cur ns : sorted_lines (cur :: lines) (s1 ++ cur :: s2) -> Forall plain lines ->
  Forall (fun n => 0 <= n <= Z.of_nat (length lines)) ns ->
  num_lines (init lines cur) = Z.of_nat (length lines) /\ cur_pos (init lines cur) = Z.of_nat (length s1) /\
  (forall ls, gets lines cur (init lines cur) ns = Some ls -> map (fun n => nth_error (s1 ++ cur :: s2) (Z.to_nat n)) ns = map Some ls) /\
  (Z.of_nat (length lines) <= 54 -> exists ls, gets lines cur (init lines cur) ns = Some ls).
Proof.
  intros (SP & SS) P F. pose proof SS as SS'. apply sorted_app in SS'. destruct SS' as (S2 & S1 & S3). inversion S2 as [|? ? S2' SF]; subst. rewrite Forall_forall in SF.
  assert (H1 : forall a, In a s1 -> before a cur) by (intros a A; apply S3; [exact A|left; reflexivity]).
  assert (S : sorted_lines lines (ms s1 s2 None)).
  { split; [apply Permutation_sym; apply (Permutation_cons_app_inv s1 s2 (a := cur)); apply Permutation_sym; exact SP|]. unfold ms. clear - S1 S2' S3. induction S1 as [|a t Hs IH F]; [exact S2'|]. cbn. constructor; [apply IH; intros; apply S3; [right; assumption|assumption]|].
    apply Forall_app. split; [exact F|]. apply Forall_forall. intros y Y. apply S3; [left; reflexivity|right; exact Y]. }
  pose proof (init_ok lines s1 s2 cur None S Logic.I H1 SF) as IO. rewrite IO. split; [reflexivity|]. split; [reflexivity|]. rewrite <- IO.
  assert (L : length (shown s1 s2 cur) = Datatypes.S (length lines)). { unfold shown. rewrite (Permutation_length SP). reflexivity. }
  pose proof (good_init lines s1 s2 cur None S Logic.I H1 SF) as G.
  assert (F' : Forall (fun n => 0 <= n < Z.of_nat (length (shown s1 s2 cur))) ns) by (eapply Forall_impl; [|exact F]; cbn; intros; lia). split.
  - intros ls Q. apply (gets_never_wrong lines s1 s2 cur None S P Logic.I H1 SF ns _ ls G F' Q).
  - intros B. destruct (gets_ok lines s1 s2 cur None S P Logic.I H1 SF ns _ G B F') as (ls & Q & _). exists ls. exact Q.
Qed.
Example C79_unlisted_ex : sorted_lines ([98] :: [[99]; [97]]) ([[97]] ++ [98] :: [[99]]) /\ gets [[99]; [97]] [98] (init [[99]; [97]] [98]) [2; 1; 0] = Some [[99]; [98]; [97]].
Proof.
  split; [split|reflexivity].
  - cbn. apply Permutation_sym. apply perm_trans with (l' := [[98]; [97]; [99]]); [apply perm_skip, perm_swap|apply perm_swap].
  - cbn. repeat constructor.
Qed.
(** The menu has as many positions as there are lines, so in that case its last line is never shown. *)
Theorem C79_last_refuted : num_lines (init [[99]; [97]] [98]) = 2 /\ gets [[99]; [97]] [98] (init [[99]; [97]] [98]) [0; 1] = Some [[97]; [98]].
Proof. split; reflexivity. Qed.
(** Lines that differ only in case: an empty line is shown for one of them. *)
Theorem C79_duplicates_refuted : gets [[97]; [65]; [98]] [98] (init [[97]; [65]; [98]] [98]) [1] = Some [[]].
Proof. reflexivity. Qed.
(** A line starting with a character from 127 up (any UTF-8 letter) is shown as an empty line. *)
Theorem C79_high_refuted : gets [[200; 97]; [97]] [97] (init [[200; 97]; [97]] [97]) [0; 1] = Some [[97]; []].
Proof. reflexivity. Qed.
(** The limit of 54 lines is not far off: 81 lines can be listed in an order for which the search
    shifts out of an int. *)
Definition C79_name (k : nat) : str := [48 + Z.of_nat k / 10; 48 + Z.of_nat k mod 10].
Definition C79_bad : list str := map C79_name ([55] ++ seq 0 55 ++ seq 56 25)%nat.
Theorem C79_shift_refuted : gets C79_bad (C79_name 0) (init C79_bad (C79_name 0)) [28] = None /\ length C79_bad = 81%nat.
Proof. split; vm_compute; reflexivity. Qed.

Print Assumptions C79_lines.
Print Assumptions C79_single.
Print Assumptions C79_next.
Print Assumptions C79_menu.
Print Assumptions C79_unlisted.
Print Assumptions C79_last_refuted.
Print Assumptions C79_duplicates_refuted.
Print Assumptions C79_high_refuted.
Print Assumptions C79_shift_refuted.
