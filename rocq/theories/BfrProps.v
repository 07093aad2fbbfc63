(** C151: reading a file through the buffer. *)
From Coq Require Import Arith List Bool ZArith Lia.
From Verif Require Import BfrModel BfrSpec BfrProofs.
Import ListNotations.
Local Open Scope nat_scope.

Definition start (seeking : bool) : bfr := Bfr true None 0 seeking 0 0 [].
Definition abc : list Z := [97; 98; 99]%Z.
Example start_told : forall s, told (start s).
Proof. intros s. split; reflexivity. Qed.

(** Whenever the buffer is filled and wherever the reader seeks, each character is the one at
    the reader's place in the file, and the place is what TELL says. *)
Theorem C151_stream : forall f b ss, told b ->
  let r := run (Some f) b (Fill :: ss) in
  follows f 0 (snd r) /\ TELL (fst r) = place 0 (snd r).
Proof.
  intros f b ss T r. destruct (opened f b T) as [G E]. unfold r. cbn [run].
  destruct (run_follows f ss _ G) as (A & _ & B). rewrite E in A, B. auto.
Qed.
Example C151_stream_ex :
  snd (run (Some abc) (start true) [Fill; Take; Fill; Fill; Take; Seek 2; Take; Seek 0; Take; Fill; Fill; Take; Take]) =
  [Got 97; Sought 2; Got 99; Sought 0; Got 97; Got 98]%Z.
Proof. vm_compute. reflexivity. Qed.

(** Without seeks: what was read at the end of the file is the file, whatever the schedule. *)
Theorem C151_whole : forall f b ss, told b -> no_seek ss ->
  let r := run (Some f) b (Fill :: ss) in
  (exists rest, f = text (snd r) ++ rest) /\ (ATEOF (fst r) = true <-> text (snd r) = f).
Proof.
  intros f b ss T N r. destruct (opened f b T) as [G E]. unfold r. cbn [run].
  destruct (run_follows f ss _ G) as (A & GG & B). rewrite E in A, B.
  destruct (follows_text f _ 0 A (run_no_seek (Some f) ss _ N)) as (X & Y & Z); [lia|].
  set (o := snd (run (Some f) (FillBuffer (Some f) b) ss)) in *. cbn [skipn] in X.
  split.
  - exists (skipn (length (text o)) f). rewrite X at 1. symmetry. apply firstn_skipn.
  - destruct GG as (O & S & _). unfold ATEOF. rewrite O, S, B, Y, Nat.eqb_eq. split; intros H.
    + rewrite X. replace (length (text o)) with (length f) by lia. apply firstn_all.
    + rewrite H. reflexivity.
Qed.
Example C151_whole_ex : let r := run (Some abc) (start false) [Fill; Fill; Take; Fill; Take; Take; Take] in
  text (snd r) = abc /\ ATEOF (fst r) = true.
Proof. vm_compute. split; reflexivity. Qed.

(** With seeks into the file: at the end exactly when the place is the end; otherwise something
    is there to be read after at most two fillings. *)
Theorem C151_progress : forall f b ss, told b -> seeks_inside f ss ->
  let b1 := fst (run (Some f) b (Fill :: ss)) in
  TELL b1 <= length f /\ (ATEOF b1 = true <-> TELL b1 = length f) /\
  (ATEOF b1 = true -> getc b1 = None) /\
  (ATEOF b1 = false -> exists c b2, getc (fst (run (Some f) b1 [Fill; Fill])) = Some (c, b2) /\ nth_error f (TELL b1) = Some c).
Proof.
  intros f b ss T I b1. destruct (opened f b T) as [G E]. unfold b1. cbn [run fst].
  destruct (run_follows f ss _ G) as (_ & GG & _).
  assert (P : TELL (fst (run (Some f) (FillBuffer (Some f) b) ss)) <= length f) by (apply place_inside; auto; lia).
  set (x := fst (run (Some f) (FillBuffer (Some f) b) ss)) in *. clearbody x.
  assert (AE : ATEOF x = (TELL x =? length f)) by (destruct GG as (O & S & _); unfold ATEOF; rewrite O, S; reflexivity).
  rewrite AE. repeat split; auto.
  - intros H. apply Nat.eqb_eq. exact H.
  - intros H. apply Nat.eqb_eq. exact H.
  - intros H. apply Nat.eqb_eq in H. pose proof (good_length f x GG P) as L. unfold getc. destruct (buf x); auto. cbn in L. lia.
  - intros H. apply Nat.eqb_neq in H.
    destruct (fill_good f x GG) as [G1 T1]. destruct (fill_good f _ G1) as [G2 T2].
    set (y := FillBuffer (Some f) (FillBuffer (Some f) x)) in *.
    assert (NE : buf y <> []).
    { destruct (buf x) as [|c r] eqn:BX; [apply fill_twice; auto; lia|].
      assert (K : forall z, good f z -> buf z <> [] -> buf (FillBuffer (Some f) z) <> []).
      { intros z (O & _) NZ. unfold FillBuffer. destruct (_ =? 0); auto. rewrite O. destruct (BUFATEOF z); auto.
        destruct (do_seek z); auto. cbn [buf]. destruct (buf z); [congruence|discriminate]. }
      apply K; auto. apply K; auto. rewrite BX. discriminate. }
    destruct (getc y) as [[c b2]|] eqn:EY; [|unfold getc in EY; destruct (buf y); [congruence|discriminate]].
    exists c, b2. split; auto. destruct (take_good f y c b2 G2 EY) as (N & _). rewrite T2, T1 in N. exact N.
Qed.
Example C151_progress_ex : seeks_inside abc [Fill; Take; Seek 3; Seek 1] /\
  getc (fst (run (Some abc) (fst (run (Some abc) (start true) (Fill :: [Fill; Take; Seek 3; Seek 1]))) [Fill; Fill])) <> None.
Proof. split; [intros p H; cbn in *; repeat destruct H as [H|H]; try discriminate; try contradiction; injection H as <-; lia|vm_compute; congruence]. Qed.

(** A file that is not there is at its end from the start. *)
Theorem C151_missing : forall b ss, told b -> no_seek ss ->
  let r := run None b (Fill :: ss) in snd r = [] /\ ATEOF (fst r) = true.
Proof.
  intros b ss [O B] N r. unfold r. cbn [run]. unfold FillBuffer. rewrite B, O. cbn [length Nat.sub Nat.eqb SIZE].
  clear - N. generalize (do_seek b). intros d. revert N. induction ss as [|s ss IH]; intros N; [split; reflexivity|].
  assert (N' : no_seek ss) by (intros p I; apply (N p); right; exact I).
  destruct s as [| |p]; cbn [run].
  - exact (IH N').
  - exact (IH N').
  - exfalso. apply (N p). left. reflexivity.
Qed.
Example C151_missing_ex : no_seek [Take; Fill] /\ ATEOF (fst (run None (start true) [Fill; Take; Fill])) = true.
Proof. split; [intros p [X|[X|[]]]; discriminate|reflexivity]. Qed.

(** A place past the end should be the end as well: there is nothing to read, and the end never
    comes, however often the buffer is filled. *)
Theorem C151_beyond_refuted : forall f b p n, told b -> length f < p ->
  let b1 := fst (run (Some f) b (Fill :: Seek p :: repeat Fill n)) in
  ATEOF b1 = false /\ getc b1 = None.
Proof.
  intros f b p n T L b1. destruct (opened f b T) as [G E].
  destruct (seek_good f _ p G) as [G2 E2].
  assert (B2 : buf (SEEK p (FillBuffer (Some f) b)) = []).
  { destruct G2 as (_ & _ & _ & B & _). rewrite E2 in B. rewrite B. rewrite skipn_all2 by lia. apply firstn_nil. }
  unfold b1. cbn [run]. set (x := SEEK p (FillBuffer (Some f) b)) in *. clearbody x.
  assert (K : forall n x, good f x -> TELL x = p -> buf x = [] ->
     ATEOF (fst (run (Some f) x (repeat Fill n))) = false /\ getc (fst (run (Some f) x (repeat Fill n))) = None).
  { clear - L. intros n. induction n as [|n IH]; intros x G T B; cbn [repeat run fst].
    - unfold ATEOF, getc. destruct G as (O & S & _). rewrite O, S, B, T. split; auto. apply Nat.eqb_neq. lia.
    - destruct (fill_good f x G) as [G1 T1]. apply IH; auto; [lia|].
      destruct G1 as (_ & _ & _ & B1 & _). rewrite T1, T in B1. rewrite B1. rewrite skipn_all2 by lia. apply firstn_nil. }
  specialize (K n x G2 E2 B2). destruct (run (Some f) x (repeat Fill n)) as [z o]. cbn [fst] in *. exact K.
Qed.

(** A seek should count before the file has been opened as well: opening forgets it. *)
Theorem C151_early_refuted : forall f b p, told b ->
  TELL (fst (run (Some f) b [Seek p; Fill])) = 0.
Proof.
  intros f b p [O B]. cbn [run]. unfold SEEK. rewrite B. cbn [length].
  replace (p - TELL b <? 0) with false by reflexivity. rewrite andb_false_r. unfold FillBuffer. cbn [buf length Nat.sub Nat.eqb SIZE opening].
  rewrite O. reflexivity.
Qed.

Print Assumptions C151_stream.
Print Assumptions C151_whole.
Print Assumptions C151_progress.
Print Assumptions C151_missing.
Print Assumptions C151_beyond_refuted.
Print Assumptions C151_early_refuted.
