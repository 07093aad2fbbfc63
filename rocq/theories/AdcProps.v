(** C143: several readers of one analog-digital converter. *)
From Coq Require Import ZArith List Bool Lia.
From Verif Require Import AdcModel AdcSpec AdcProofs.
Import ListNotations.
Local Open Scope Z_scope.

(** The value a reader gets was measured on its own pin and since it started, whatever
    other readers did meanwhile. *)
Theorem C143_value : forall s0 ops1 s1 o k s2 ops2 s3 s4, free s0 ->
  proper s0 ops1 -> run s0 ops1 = Some s1 ->
  o = OStart k \/ o = OTurn k -> step s1 o = Some (s2, true) ->
  proper s2 ops2 -> run s2 ops2 = Some s3 -> step s3 (ODone k) = Some (s4, true) ->
  measured (pin (readers s1 k)) (value (readers s4 k)) ops2.
Proof.
  intros s0 ops1 s1 o k s2 ops2 s3 s4 F P1 R1 OO E P2 R2 D.
  pose proof (reach_ok _ _ _ F P1 R1) as O1.
  assert (E' : step s1 (OStart k) = Some (s2, true)).
  { destruct OO as [->| ->]; auto. cbn [step] in *. f_equal. now apply turn_start. }
  destruct (start_true s1 k s2 O1 E') as (_ & O2 & S2).
  pose proof (run_seen ops2 s2 s3 k _ [] O2 P2 R2 S2) as S3.
  destruct (run_ok ops2 s2 O2 P2) as (x & R2' & O3).
  assert (x = s3) as -> by congruence.
  assert (NB : pc (readers s3 k) <> Begin) by (intros X; now apply S3 in X).
  pose proof (step_seen s3 (ODone k) s4 true k _ _ O3 NB D S3) as (_ & _ & _ & S4).
  apply (measured_done _ _ _ k). apply S4.
  cbn [step] in D. unfold Done in D. injection D as <- D.
  destruct (pc (readers (loop s3 k) k)); congruence.
Qed.

(** A reader can start exactly when no other has started without having got its value. *)
Theorem C143_turns : forall s0 ops s k, free s0 -> proper s0 ops -> run s0 ops = Some s ->
  (snd (Start s k) = true <-> forall j, ~ pending s j).
Proof.
  intros s0 ops s k F P R. destruct (reach_ok _ _ _ F P R) as [FR|(i & T)].
  - destruct (start_free s k FR) as (s' & E & _). rewrite E. split; [|reflexivity].
    intros _ j PJ. destruct FR as (_ & _ & _ & _ & X).
    destruct (X j) as [Y|Y], PJ as [Z|Z]; congruence.
  - rewrite start_busy by apply T. cbn [snd]. split; [discriminate|].
    intros X. exfalso. apply (X i). apply T.
Qed.

(** Two readers never read at the same time. *)
Theorem C143_alone : forall s0 ops s j k, free s0 -> proper s0 ops -> run s0 ops = Some s ->
  pending s j -> pending s k -> j = k.
Proof.
  intros s0 ops s j k F P R PJ PK. pose proof (reach_ok _ _ _ F P R) as O.
  apply (taken_one s); now apply pending_taken.
Qed.

(** Waiting for one's turn never uses a null pointer. *)
Theorem C143_null : forall s0 ops, free s0 -> proper s0 ops -> run s0 ops <> None.
Proof.
  intros s0 ops F P. destruct (run_ok ops s0 (or_introl F) P) as (s & E & _). congruence.
Qed.

(** And it ends: after four conversions at most the reader has started. *)
Theorem C143_wait : forall s0 ops s k v0 v1 v2 v3, free s0 -> proper s0 ops ->
  run s0 ops = Some s ->
  exists s', LoopUntilStart s k [v0; v1; v2; v3] = Some s' /\ pending s' k.
Proof.
  intros s0 ops s k v0 v1 v2 v3 F P R. pose proof (reach_ok _ _ _ F P R) as O.
  destruct (wait_ok s k v0 v1 v2 v3 O) as (s' & E & T). exists s'. split; auto. apply T.
Qed.

(** The first run of AnalogReadPinF gives eight times what its pin measures, if nobody
    reads. *)
Theorem C143_style : forall s k v0 v1, free s ->
  exists s' f, style_run s (Style (-1) false k) [v0; v1] = Some (s', f) /\
    level f = v1 (pin (readers s k)) * 8 /\ free s'.
Proof.
  intros s k v0 v1 F. destruct (style_ok s k _ v0 v1 F eq_refl) as (s' & f & E & L & _ & F').
  exists s', f. auto.
Qed.

(** If another reader has started, it never ends, however many conversions end. *)
Theorem C143_hang_refuted : forall s0 ops s j k times, free s0 -> proper s0 ops ->
  run s0 ops = Some s -> pending s j -> j <> k ->
  style_run s (Style (-1) false k) times = None.
Proof.
  intros s0 ops s j k times F P R PJ NE. apply (hang times s k j); auto.
  apply pending_taken; auto. exact (reach_ok _ _ _ F P R).
Qed.

(** A reader that is abandoned between starting and getting its value (as when the style
    it is part of is deleted) keeps all others from starting for ever. *)
Theorem C143_dead_refuted : forall s0 ops1 s j ops2, free s0 -> proper s0 ops1 ->
  run s0 ops1 = Some s -> pending s j -> proper s ops2 ->
  (forall o, In o ops2 ->
     match o with OTurn _ => False | ODone k => k <> j | _ => True end) ->
  exists s', run s ops2 = Some s' /\ forall k, snd (Start s' k) = false.
Proof.
  intros s0 ops1 s j ops2 F P R PJ P2 N.
  destruct (dead ops2 s j) as (s' & E & T); auto.
  { apply pending_taken; auto. exact (reach_ok _ _ _ F P R). }
  exists s'. split; auto. intros k. now rewrite start_busy by apply T.
Qed.

(** Two readers in turn. *)
Definition two : adc :=
  Adc false 0 false false 0 None
      (fun k => Reader (Z.of_nat k + 5) (Nat.eqb k 1) Begin 0).
Definition volts (x : Z) (c : Z) : Z := 100 * c + x.

Example C143_two_free : free two.
Proof. repeat split; auto. Qed.

Example C143_two_run : exists s1 s2 s3 s4,
  run two [OStart 0] = Some s1 /\ pending s1 0 /\
  step s1 (OStart 1) = Some (s1, false) /\
  run s1 [OTick (volts 1); ODone 0; OTick (volts 2); OTurn 1] = Some s2 /\
  value (readers s2 0) = 502 /\ (forall j, ~ pending s2 j) /\
  step s2 (OTurn 1) = Some (s3, true) /\
  run s3 [OTick (volts 3); ODone 1; ODone 0; OTick (volts 4); ODone 1] = Some s4 /\
  value (readers s4 1) = 604 /\ value (readers s4 0) = 502.
Proof.
  eexists _, _, _, _. split; [reflexivity|]. split; [left; reflexivity|].
  split; [reflexivity|]. split; [reflexivity|]. split; [reflexivity|].
  split. { intros [|[|j]] [H|H]; cbn in H; discriminate. }
  split; [reflexivity|]. split; [reflexivity|]. split; reflexivity.
Qed.

Example C143_two_proper :
  proper two [OStart 0; OStart 1; OTick (volts 1); ODone 0; OTick (volts 2); OTurn 1; ODone 0].
Proof.
  repeat match goal with
  | |- proper _ [] => exact I
  | |- proper _ (_ :: _) => split; [first [exact I | cbn; discriminate]|
      intros ? ? H; cbn in H; injection H as <- <-]
  end.
Qed.

Print Assumptions C143_value.
Print Assumptions C143_turns.
Print Assumptions C143_alone.
Print Assumptions C143_null.
Print Assumptions C143_wait.
Print Assumptions C143_style.
Print Assumptions C143_hang_refuted.
Print Assumptions C143_dead_refuted.
