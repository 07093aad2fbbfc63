(** Shared pointers. *)
From Coq Require Import List Bool PeanoNat Lia.
From Verif Require Import Machine OwnerModel OwnerSpec OwnerProofs.
Import ListNotations.

(** After any history in which pointers are constructed, copied, assigned and destroyed, each step
    freed exactly the object its last owner let go, every live pointer points at what it was given,
    and no destroyed pointer was touched. *)
Theorem C57_frees os : all_allowed owners0 os ->
  exists h, play heap0 os = Some (h, run_outs spec owners0 os) /\ forall x, get h x = owns (now (run_state spec owners0 os)) x.
Proof. intros A. destruct (play_good os heap0 owners0 good0 A) as (h & P & G). exists h. split; [exact P|]. intros x. apply good_get. exact G. Qed.
(** Every object is freed as often as it was handed over, but for once if somebody still owns it:
    never while it is owned, never twice, and none is forgotten. *)
Theorem C57_once os o : all_allowed owners0 os ->
  exists h fs, play heap0 os = Some (h, fs) /\
    count_occ Nat.eq_dec (concat fs) o + (if owned (now (run_state spec owners0 os)) o then 1 else 0) = count_occ Nat.eq_dec (given os) o.
Proof.
  intros A. destruct (play_good os heap0 owners0 good0 A) as (h & P & G). eexists h, _. split; [exact P|].
  apply (history_held os owners0 o); [constructor|exact A].
Qed.
Definition C57_fine : list op := [New 0 (Some 7); Copy 1 0; Copy 2 1; New 3 (Some 8); Assign 1 3; Destroy 0; Destroy 3; Destroy 2; AssignRaw 1 (Some 9); Destroy 1].
Example C57_ex : all_allowed owners0 C57_fine /\ run_outs spec owners0 C57_fine = [[]; []; []; []; []; []; []; [7]; [8]; [9]].
Proof.
  split; [|reflexivity]. cbn. unfold live, sharing, fresh. cbn. repeat split; try discriminate; try (intros H; apply H; reflexivity); try tauto.
  intros (e & f & H & [<-|[]] & N & _). apply N. reflexivity.
Qed.
(** The reservation "a pointer is overwritten by a plain pointer only while nobody shares with it" is
    needed: such a pointer keeps its links into the ring it left.  Its new object is never freed,
    and if the others have gone it is destroyed by writing into a pointer that no longer exists. *)
Theorem C57_raw_refuted :
  option_map snd (play heap0 [New 0 (Some 1); Copy 1 0; AssignRaw 0 (Some 2); Destroy 0; Destroy 1]) = Some [[]; []; []; []; [1]] /\
  play heap0 [New 0 (Some 1); Copy 1 0; AssignRaw 0 (Some 2); Destroy 1; Destroy 0] = None.
Proof. split; reflexivity. Qed.

Print Assumptions C57_frees.
Print Assumptions C57_once.
Print Assumptions C57_raw_refuted.
