(** C43: playing sound files. *)
From Coq Require Import ZArith List Bool Lia ZifyBool ZifyNat.
From Verif Require Import Machine ArithModel SoundModel SoundProofs WavModel WavSpec WavProofs.
Import ListNotations.
Open Scope Z_scope.

Lemma play_follows q2 q4 f q m d l : quad_ok q2 -> quad_ok q4 -> holds f m d -> queued q l -> follows (play q2 q4 f q) (sound (hist q2, hist q4) ((m, d) :: l)).
Proof. intros A B H Q. split; [split; assumption|]. exists l. split; [exact Q|]. cbn [play pc run_ cur em em_out]. split; [reflexivity|]. exists m, d. split; [exact H|reflexivity]. Qed.

(** C43: however the file system splits the reads and whatever numbers of samples are asked
    for, no call overruns an array or fails to return, no call delivers more than it was asked
    for, and the samples delivered so far are the beginning of the sound of the files. *)
Theorem C43_prefix : forall sizes q2 q4 f q m d l ns,
  quad_ok q2 -> quad_ok q4 -> holds f m d -> queued q l -> Forall (fun n => 0 <= n) ns ->
  exists p os rest, reads sizes (play q2 q4 f q) ns = Some (p, os) /\ concat os ++ rest = sound (hist q2, hist q4) ((m, d) :: l) /\
    Forall2 (fun n o => Z.of_nat (length o) <= n) ns os.
Proof.
  intros sizes q2 q4 f q m d l ns Q2 Q4 H Q N. destruct (reads_ok sizes ns _ _ (play_follows q2 q4 f q m d l Q2 Q4 H Q) N) as (p & os & fut & E & S & _ & L & _).
  exists p, os, fut. auto.
Qed.
(** C43: with enough calls all of it is delivered, and then the player is silent. *)
Theorem C43_all : forall sizes q2 q4 f q m d l, quad_ok q2 -> quad_ok q4 -> holds f m d -> queued q l ->
  exists K, forall ns, Forall (fun n => 0 < n) ns -> (K <= length ns)%nat ->
  exists p os, reads sizes (play q2 q4 f q) ns = Some (p, os) /\ concat os = sound (hist q2, hist q4) ((m, d) :: l) /\ silent p.
Proof.
  intros sizes q2 q4 f q m d l Q2 Q4 H Q. pose proof (play_follows q2 q4 f q m d l Q2 Q4 H Q) as F. set (fut := sound _ _) in *. set (p0 := play q2 q4 f q) in *.
  exists (Z.to_nat (work p0 + Z.of_nat (length fut))). intros ns N K. destruct (reads_ok sizes ns p0 fut F) as (p & os & fut' & E & S & F' & _ & T).
  { eapply Forall_impl; [|exact N]. cbn. intros; lia. }
  assert (SI : silent p). { apply T; [exact I|exact N|]. assert (0 <= work p0) by (unfold work, p0, play; cbn [pc run_ queue cur]; pose proof (queue_work_nonneg q); unfold size; lia). lia. }
  exists p, os. split; [exact E|]. split; [|exact SI]. rewrite (silent_fut p fut' F' SI), app_nil_r in S. symmetry. exact S.
Qed.
(** C43: so two schedules that both play to the end deliver the same samples. *)
Theorem C43_schedule_independent : forall sizes sizes' q2 q4 f q m d l ns ns' p p' os os', quad_ok q2 -> quad_ok q4 -> holds f m d -> queued q l ->
  Forall (fun n => 0 <= n) ns -> Forall (fun n => 0 <= n) ns' ->
  reads sizes (play q2 q4 f q) ns = Some (p, os) -> silent p -> reads sizes' (play q2 q4 f q) ns' = Some (p', os') -> silent p' -> concat os = concat os'.
Proof.
  intros sizes sizes' q2 q4 f q m d l ns ns' p p' os os' Q2 Q4 H Q N N' E S E' S'. pose proof (play_follows q2 q4 f q m d l Q2 Q4 H Q) as F.
  destruct (reads_ok sizes ns _ _ F N) as (p1 & os1 & fut1 & E1 & S1 & F1 & _). destruct (reads_ok sizes' ns' _ _ F N') as (p2 & os2 & fut2 & E2 & S2 & F2 & _).
  rewrite E in E1. rewrite E' in E2. injection E1 as <- <-. injection E2 as <- <-. rewrite (silent_fut _ _ F1 S), app_nil_r in S1. rewrite (silent_fut _ _ F2 S'), app_nil_r in S2. congruence.
Qed.
(** C43: after a stop nothing is played. *)
Theorem C43_stop : forall sizes p ns, exists p', reads sizes (StopFromReader p) ns = Some (p', map (fun _ => []) ns).
Proof.
  intros sizes p ns. induction ns as [|n ns IH]; [eexists; reflexivity|]. cbn [reads map].
  assert (E : read sizes (StopFromReader p) n = Done (StopFromReader p) []). { unfold read, loop_fuel. rewrite Nat.add_comm. reflexivity. }
  rewrite E. destruct IH as (p' & ->). eexists. reflexivity.
Qed.

(* 8-bit mono at 22050: RIFF, a LIST chunk, fmt, a data chunk of 5 bytes, a short trailer *)
Definition wav8 : list Z := RIFF ++ [0; 0; 0; 0] ++ WAVE ++ chunk [76; 73; 83; 84] [7; 8] ++ chunk FMT (le2 1 ++ le2 1 ++ le4 22050 ++ [0; 0; 0; 0; 1; 0] ++ le2 8 ++ []) ++ (chunk DATA [128; 130; 128; 126; 0] ++ [1; 2]).
Example C43_ex : holds (WFile true wav8) (Format 1 22050 8) [128; 130; 128; 126; 0] /\
  sound (0, 0, 0, (0, 0, 0)) [(Format 1 22050 8, [128; 130; 128; 126; 0])] = [0; 0; -128; 0; 386; 512; 514; 0] /\
  (exists p, reads (fun _ => 3) (play (0, 0, 0, 0) (0, 0, 0, 0) (WFile true wav8) []) [3; 1; 4; 100; 5] = Some (p, [[]; [0]; [0; -128; 0; 386]; [512; 514; 0]; []]) /\ silent p).
Proof.
  split; [|split; [reflexivity|]].
  - pose proof (H_wav (Format 1 22050 8) [0; 0; 0; 0] (chunk [76; 73; 83; 84] [7; 8] ++ []) [0; 0; 0; 0; 1; 0] [] (chunk DATA [128; 130; 128; 126; 0] ++ [1; 2]) ([128; 130; 128; 126; 0] ++ [])) as H. apply H.
    + split; [left; reflexivity|]. split; [right; left; reflexivity|left; reflexivity].
    + reflexivity.
    + apply O_cons; [reflexivity|repeat constructor; discriminate|discriminate|reflexivity|constructor].
    + reflexivity.
    + apply K_data; [reflexivity|]. apply K_end. cbn. lia.
    + cbn. repeat (constructor; [split; discriminate|]). constructor.
    + reflexivity.
  - eexists. split; [vm_compute; reflexivity|]. repeat split.
Qed.

(** C43: doubling the rate keeps every sample of the file, in order and one sample later. *)
Theorem C43_keeps_samples : forall l a b c, length (fst (twice (a, b, c) l)) = (2 * length l)%nat /\
  forall i, (i < length l)%nat -> nth (2 * i + 1) (fst (twice (a, b, c) l)) 0 = nth i (c :: l) 0.
Proof.
  induction l as [|x l IH]; intros a b c; [split; [reflexivity|cbn; lia]|]. cbn [twice]. destruct (IH b c x) as (L & N). destruct (twice (b, c, x) l) as (o, h). cbn [fst length] in *.
  split; [lia|]. intros [|i] I; [reflexivity|]. replace (2 * S i + 1)%nat with (S (S (2 * i + 1))) by lia. cbn [nth]. apply N. lia.
Qed.
(** C43: and the samples in between are the interpolated ones, provided the samples are not
    among the 180 loudest values. *)
Theorem C43_exact : forall a b c x, Forall (fun y => -32588 <= y <= 32588) [a; b; c; x] ->
  blend a b c x = clip ((24757 * (b + c) - 8191 * (a + x)) / 32768).
Proof.
  intros a b c x F. inversion F as [|? ? A F1]; subst. inversion F1 as [|? ? B F2]; subst. inversion F2 as [|? ? C F3]; subst. inversion F3 as [|? ? X F4]; subst.
  unfold blend, wrapped. rewrite Z.mod_small by lia. f_equal. f_equal. lia.
Qed.
Example C43_exact_ex : blend (-32588) 32588 32588 (-32588) = 32767 /\ blend 100 200 400 600 = 278. Proof. split; reflexivity. Qed.
(** Finding: with louder samples the 32-bit sum overflows; between two samples at full volume
    a sample at full volume of the opposite sign is played. *)
Theorem C43_loud_refuted : exists d, sound (0, 0, 0, (0, 0, 0)) [(Format 1 22050 16, d)] = [8191; 0; -32768; -32768; -8192; 32767; -32768; 32767].
Proof. exists [0; 128; 255; 127; 255; 127; 0; 128; 0; 0]. vm_compute. reflexivity. Qed.
(** Finding: chunks of odd length are followed by a padding byte in RIFF files, which is not
    skipped: a file with such a chunk before its data plays nothing. *)
Theorem C43_padding_refuted : exists before, let body := le2 1 ++ le2 1 ++ le4 44100 ++ [0; 0; 0; 0; 1; 0] ++ le2 8 in
  length before = 1%nat /\
  exists p, reads (fun _ => 512) (play (0, 0, 0, 0) (0, 0, 0, 0) (WFile true (RIFF ++ [0; 0; 0; 0] ++ WAVE ++ chunk FMT body ++ chunk [76; 73; 83; 84] before ++ [0] ++ chunk DATA [1; 2; 3; 4])) []) [100; 100; 100] = Some (p, [[]; []; []]) /\ silent p.
Proof. exists [5]. split; [reflexivity|]. eexists. split; [vm_compute; reflexivity|]. repeat split. Qed.
(** Finding: a chunk with a length near 2^32 before the fmt chunk makes the player seek
    backwards, for ever, inside an interrupt. *)
Theorem C43_hang_refuted : exists f, f_wav f = true /\ forall fuel, open_file fuel f = None.
Proof.
  exists (WFile true (RIFF ++ [0; 0; 0; 0] ++ WAVE ++ [76; 73; 83; 84] ++ le4 4294967288)). split; [reflexivity|]. intros fuel. unfold open_file. cbn [f_wav negb].
  set (f := WFile true _). assert (H : forall fuel, find_fmt fuel f 12 = None).
  { induction fuel0 as [|k IH]; [reflexivity|]. cbn [find_fmt]. assert (S : skip f (12 + 8) (header (bytes_at f 12 8) 1) = 12) by (vm_compute; reflexivity). rewrite S, IH. vm_compute. reflexivity. }
  rewrite H. vm_compute. reflexivity.
Qed.
Print Assumptions C43_prefix. Print Assumptions C43_all. Print Assumptions C43_schedule_independent. Print Assumptions C43_stop. Print Assumptions C43_keeps_samples.
Print Assumptions C43_exact. Print Assumptions C43_loud_refuted. Print Assumptions C43_padding_refuted. Print Assumptions C43_hang_refuted.
