(** C01: an interrupted save never loses or mixes settings.  C02: damage is detected. *)
From Coq Require Import ZArith List Bool Lia.
From Verif Require Import Machine StrModel StrSpec FileModel FileSpec ConfigModel ConfigSpec SaveModel SaveSpec SaveProofs SaveSafety SaveWitness ChecksumProofs.
Import ListNotations.
Open Scope Z_scope.

(** C02: contents of equal length that differ in one byte have different checksums. *)
Theorem C02_checksum_single_byte : forall before b b' after,
  0 <= b < 256 -> 0 <= b' < 256 -> b <> b' ->
  checksum (before ++ b :: after) <> checksum (before ++ b' :: after).
Proof. exact checksum_single. Qed.
(** C02: a file that passes validation no longer does after any one byte of its data area
    is changed. *)
Theorem C02_damage_detected : forall install stale o o' i,
  validateChecksum install stale o = true ->
  0 <= i < s32 (g32 o 12) -> 512 + i < size o -> size o' = size o ->
  0 <= get o (512 + i) < 256 -> 0 <= get o' (512 + i) < 256 ->
  get o' (512 + i) <> get o (512 + i) ->
  (forall j, j <> 512 + i -> get o' j = get o j) ->
  validateChecksum install stale o' = false.
Proof. exact damaged_byte. Qed.

(* a concrete saved file, and one byte of it changed *)
Definition ex_install : list Z := repeat 74 20.
Definition ex_vars : vars := [([97], Dec 7 0); ([98], Dec 5 0)].
Definition ex_file : disk_file :=
  ini (fst (write 1024 ex_install ex_vars (Disk None None, Ram CONFIG_UNKNOWN 0) [Dec 1 0; Dec 25 1] 0)).
Example C02_ex :
  validateChecksum ex_install (fun _ => 0) ex_file = true /\ s32 (g32 ex_file 12) = 51 /\ size ex_file = 1024 /\
  validateChecksum ex_install (fun _ => 0) (do_op ex_file (Put 545 51)) = false.
Proof. vm_compute. auto. Qed.

(** C01.  On a card without saves of this build, play any history [es1] of starts,
    saves and interrupted saves, then complete one save of [v], then any history [es2].
    From then on the two files behave as one atomic cell: every start loads exactly the
    last completed save or the interrupted one.
    Proved if no interruption falls into the last seven bytes of the second copy of the header (21 to
    27 bytes unstored), or none into its first copy (37 to 51 bytes unstored); when all saves have
    the same size, for every interruption point (C01_atomic_equal_length).  With interruptions of
    both kinds and saves of different sizes the claim is false (C01_mixture_refuted). *)
Theorem C01_atomic : forall maxsz install vs stale d es1 v es2,
  512 <= maxsz -> build_ok install -> vars_ok vs ->
  not_ours install (ini d) -> not_ours install (tmp d) -> 0 <= size (ini d) -> 0 <= size (tmp d) ->
  (forall e, In e (es1 ++ Save v :: es2) -> event_ok vs e /\
     match saved e with Some w => Z.of_nat (length (config_text install vs w)) < 2 ^ 31 | None => True end) ->
  (forall w missing, In (Cut w missing) (es1 ++ Save v :: es2) -> ~ 21 <= Z.of_nat missing <= 27) \/
  (forall w missing, In (Cut w missing) (es1 ++ Save v :: es2) -> ~ 37 <= Z.of_nat missing <= 51) ->
  Z.of_nat (length (es1 ++ Save v :: es2)) + 1 < 2 ^ 31 ->
  atomic (map two_decimals v) es2
    (run_outs (step maxsz install vs stale)
      (run_state (step maxsz install vs stale) (d, Ram CONFIG_UNKNOWN 0) (es1 ++ [Save v])) es2).
Proof.
  intros maxsz install vs stale d es1 v es2 MS BO VO N1 N2 S1 S2 E [C|C] L; [apply save_safe_any|apply save_safe_first]; try assumption;
  intros e I; destruct (E e I) as (A & B); (split; [exact A|]); (split; [exact B|]); destruct e; auto; apply (C _ _ I).
Qed.

(** C01 for every interruption point, when all saves have the same size. *)
Theorem C01_atomic_equal_length : forall maxsz install vs stale d es1 v es2 L,
  512 <= maxsz -> build_ok install -> vars_ok vs ->
  not_ours install (ini d) -> not_ours install (tmp d) -> 0 <= size (ini d) -> 0 <= size (tmp d) ->
  L < 2 ^ 31 ->
  (forall e, In e (es1 ++ Save v :: es2) -> event_ok vs e /\
     match saved e with Some w => Z.of_nat (length (config_text install vs w)) = L | None => True end) ->
  Z.of_nat (length (es1 ++ Save v :: es2)) + 1 < 2 ^ 31 ->
  atomic (map two_decimals v) es2
    (run_outs (step maxsz install vs stale)
      (run_state (step maxsz install vs stale) (d, Ram CONFIG_UNKNOWN 0) (es1 ++ [Save v])) es2).
Proof. exact save_safe_fixed. Qed.

(* A concrete history: interrupted first save, completed save, a save cut off with 30
   bytes missing (old values stay), one cut off with none missing (new values). *)
Definition ex_es1 : list event := [Boot; Cut [Dec 9 0; Dec 9 0] 400].
Definition ex_es2 : list event := [Boot; Cut [Dec 3 0; Dec 4 0] 30; Cut [Dec 3 0; Dec 4 0] 0; Cut [Dec 6 0; Dec 6 0] 70].
Example C01_ex_outs :
  run_outs (step 1024 ex_install ex_vars (fun _ => 0))
    (run_state (step 1024 ex_install ex_vars (fun _ => 0)) (Disk None None, Ram CONFIG_UNKNOWN 0)
       (ex_es1 ++ [Save [Dec 1 0; Dec 25 1]])) ex_es2 =
  [Some [Dec 100 2; Dec 250 2]; Some [Dec 100 2; Dec 250 2]; Some [Dec 300 2; Dec 400 2]; Some [Dec 300 2; Dec 400 2]].
Proof. vm_compute. reflexivity. Qed.
Example C01_ex_hyps :
  build_ok ex_install /\ vars_ok ex_vars /\ not_ours ex_install None /\
  (forall e, In e (ex_es1 ++ Save [Dec 1 0; Dec 25 1] :: ex_es2) -> event_ok ex_vars e /\
     match saved e with Some w => Z.of_nat (length (config_text ex_install ex_vars w)) = 51 | None => True end /\
     match e with Cut _ missing => ~ 21 <= Z.of_nat missing <= 27 | _ => True end).
Proof.
  split; [|split; [|split]].
  - unfold build_ok, install_ok, in_line, ex_install, white. cbn [repeat].
    repeat match goal with |- Forall _ _ => constructor | |- _ /\ _ => split end; try lia; reflexivity.
  - unfold vars_ok, ex_vars, var_name, name_letter, same_nocase. split.
    + repeat match goal with |- Forall _ _ => constructor | |- _ /\ _ => split end; cbn; try lia; discriminate.
    + repeat constructor; cbn; intuition discriminate.
  - split; [intros i; cbn; lia|]. exists 0. split; [lia|]. cbn. lia.
  - intros e [<-|[<-|[<-|[<-|[<-|[<-|[<-|[]]]]]]]]; cbn [event_ok saved]; repeat split; cbn; try lia; repeat constructor; cbn; lia.
Qed.

(** C01 is false in general: with a cut in the second copy of the header, one in the first copy and
    one in the text, and two coincidences of the checksum, a start loads a mixture. *)
Theorem C01_mixture_refuted : exists maxsz install vs stale d v es2,
  512 <= maxsz /\ build_ok install /\ vars_ok vs /\
  not_ours install (ini d) /\ not_ours install (tmp d) /\ 0 <= size (ini d) /\ 0 <= size (tmp d) /\
  (forall e, In e ([] ++ Save v :: es2) -> event_ok vs e /\
     match saved e with Some w => Z.of_nat (length (config_text install vs w)) < 2 ^ 31 | None => True end) /\
  ~ atomic (map two_decimals v) es2
    (run_outs (step maxsz install vs stale)
      (run_state (step maxsz install vs stale) (d, Ram CONFIG_UNKNOWN 0) ([] ++ [Save v])) es2).
Proof.
  destruct w_hyps as (H1 & H2 & H3 & H4).
  exists 1300, w_install, w_vars, (fun _ => 0), (Disk (of_list w_blank) (of_list w_blank)), w_old, [Save w_other; Cut w_1 24; Cut w_2 39; Cut w_3 208].
  split; [lia|]. split; [exact H1|]. split; [exact H2|]. cbn [ini tmp]. split; [exact H3|]. split; [exact H3|]. rewrite H4. split; [lia|]. split; [lia|].
  split; [exact w_events|]. cbn [app]. rewrite w_run. exact w_not_atomic.
Qed.

(** Before the first completed save the claim is false: after two saves cut off on a new
    card (the first while the file was being sized) the next start loads a mixture of the
    second save and the defaults, because the files are then taken for hand-written ones. *)
Theorem C01_first_save_refuted : exists maxsz install vs v m1 m2 loaded,
  512 <= maxsz /\ build_ok install /\ vars_ok vs /\ event_ok vs (Cut v m1) /\
  run_outs (step maxsz install vs (fun _ => 0)) (Disk None None, Ram CONFIG_UNKNOWN 0)
    [Boot; Cut v m1; Cut v m2; Boot] =
  [Some (Defaults vs); Some (Defaults vs); Some loaded; Some loaded] /\
  loaded <> Defaults vs /\ loaded <> map two_decimals v.
Proof.
  exists 2048, ex_install, ex_vars, [Dec 1 0; Dec 2 0], 1126%nat, 65%nat, [Dec 100 2; Dec 5 0].
  split; [lia|]. split; [apply C01_ex_hyps|]. split; [apply C01_ex_hyps|].
  split; [split; [reflexivity|repeat constructor; cbn; lia]|].
  split; [vm_compute; reflexivity|]. split; discriminate.
Qed.

Print Assumptions C02_checksum_single_byte.
Print Assumptions C02_damage_detected.
Print Assumptions C01_atomic.
Print Assumptions C01_mixture_refuted.
Print Assumptions C01_atomic_equal_length.
Print Assumptions C01_first_save_refuted.
