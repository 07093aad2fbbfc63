(** C136: warning beeps. *)
From Coq Require Import ZArith QArith List Bool Lia Lqa ZifyBool ZifyNat.
From Verif Require Import BeepModel BeepSpec BeepProofs.
Import ListNotations.
Local Open Scope Z_scope.

(** ** C136: a list of beeps gives the square waves asked for, whole and in order, however it is read *)

Theorem C136_song b sizes : proper b -> Forall (fun n => 0 <= n) sizes -> samples b <= fold_right Z.add 0 sizes ->
  fst (reads b sizes) = song (x_ b) (value_ b) (q b) /\
  Z.of_nat (length (fst (reads b sizes))) = samples b /\
  isPlaying (snd (reads b sizes)) = false.
Proof.
  intros P S T. destruct (reads_spec sizes b P S) as (R1 & R2 & R3). pose proof (samples_len b P) as L.
  rewrite R1, firstn_all2 by lia. split; [reflexivity|]. split; [exact L|].
  unfold isPlaying. rewrite (song_nil _ R3); [reflexivity|]. rewrite R2. apply skipn_all2. lia.
Qed.
Example C136_song_ex :
  let b := Beeper [(2, 5); (0, 3); (3, 4)] 0 0 in
  proper b /\ samples b = 12 /\
  fst (reads b [4; 0; 7; 100]) = [200; 200; -200; -200; 200; 200; 0; 0; 200; 200; 200; -200].
Proof. split; [|split; vm_compute; reflexivity]. split; [cbn; lia|]. repeat constructor; cbn; lia. Qed.

Theorem C136_chunks b s1 s2 : proper b -> Forall (fun n => 0 <= n) s1 -> Forall (fun n => 0 <= n) s2 ->
  fold_right Z.add 0 s1 = fold_right Z.add 0 s2 -> fst (reads b s1) = fst (reads b s2).
Proof.
  intros P S1 S2 T. rewrite (proj1 (reads_spec s1 b P S1)), (proj1 (reads_spec s2 b P S2)), T. reflexivity.
Qed.
Example C136_chunks_ex :
  fst (reads (Beeper [(3, 10)] 1 (-200)) [1; 2; 3]) = [-200; 200; 200; 200; -200; -200] /\
  fst (reads (Beeper [(3, 10)] 1 (-200)) [6]) = [-200; 200; 200; 200; -200; -200].
Proof. split; vm_compute; reflexivity. Qed.

(** As long as not all has been played, it says it is playing, and each read is filled. *)
Theorem C136_playing b sizes : proper b -> Forall (fun n => 0 <= n) sizes -> fold_right Z.add 0 sizes < samples b ->
  Z.of_nat (length (fst (reads b sizes))) = fold_right Z.add 0 sizes /\ isPlaying (snd (reads b sizes)) = true.
Proof.
  intros P S T. destruct (reads_spec sizes b P S) as (R1 & R2 & R3). pose proof (samples_len b P) as L.
  assert (S0 : 0 <= fold_right Z.add 0 sizes) by (clear - S; induction S; cbn [fold_right]; lia).
  rewrite R1, firstn_length. split; [lia|]. unfold isPlaying.
  destruct (q (snd (reads b sizes))) eqn:E; [|reflexivity]. exfalso.
  assert (N : songb (snd (reads b sizes)) = []) by (unfold songb; rewrite E; reflexivity).
  rewrite R2 in N. apply (f_equal (@length Z)) in N. rewrite skipn_length in N. cbn [length] in N. lia.
Qed.
Example C136_playing_ex : samples (Beeper [(2, 5); (0, 3)] 0 0) = 8 /\ isPlaying (snd (reads (Beeper [(2, 5); (0, 3)] 0 0) [4; 3])) = true.
Proof. split; reflexivity. Qed.

(** One beep of [freq] Hz for [len] seconds on a beeper at rest: up first, one period in
    44100 / freq samples (rounded down to even), for 44100 * len samples (rounded down). *)
Theorem C136_tone len freq sizes :
  (0 < freq)%Q -> (freq <= 22050)%Q -> (1 <= inject_Z 44100 * len)%Q -> Forall (fun n => 0 <= n) sizes ->
  exists f n : Z,
    1 <= f /\ (inject_Z (2 * f) <= inject_Z 44100 / freq /\ inject_Z 44100 / freq < inject_Z (2 * f + 2))%Q /\
    1 <= n /\ (inject_Z n <= inject_Z 44100 * len /\ inject_Z 44100 * len < inject_Z (n + 1))%Q /\
    Z.of_nat (length (fst (reads (Beep (Beeper [] 0 0) len freq) sizes))) = Z.min n (fold_right Z.add 0 sizes) /\
    forall k, 0 <= k < Z.min n (fold_right Z.add 0 sizes) ->
      nth (Z.to_nat k) (fst (reads (Beep (Beeper [] 0 0) len freq) sizes)) 0 = if Z.even (k / f) then 200 else -200.
Proof.
  intros F1 F2 N S. exists (half_period freq), (trunc (inject_Z 44100 * len)).
  destruct (half_bounds freq F1) as [B B0].
  assert (L0 : (0 <= inject_Z 44100 * len)%Q) by lra.
  destruct (trunc_bounds _ L0) as [T T0].
  assert (H1 : 1 <= half_period freq).
  { destruct B as [_ B]. assert (2 <= inject_Z 44100 / freq)%Q.
    { apply Qle_shift_div_l; [exact F1|]. change (inject_Z 44100) with 44100%Q. lra. }
    assert (2 < inject_Z (2 * half_period freq + 2))%Q by lra. change 2%Q with (inject_Z 2) in H0. rewrite <- Zlt_Qlt in H0. lia. }
  assert (N1 : 1 <= trunc (inject_Z 44100 * len)).
  { destruct T as [_ T]. assert (1 < inject_Z (trunc (inject_Z 44100 * len) + 1))%Q by lra.
    change 1%Q with (inject_Z 1) in H. rewrite <- Zlt_Qlt in H. lia. }
  set (b := Beep (Beeper [] 0 0) len freq).
  assert (E : b = Beeper [(half_period freq, trunc (inject_Z 44100 * len))] 0 0) by reflexivity.
  assert (P : proper b) by (rewrite E; split; [cbn; lia|repeat constructor; cbn [fst snd]; lia]).
  destruct (reads_spec sizes b P S) as (R1 & _ & _). pose proof (samples_len b P) as L.
  assert (SB : samples b = trunc (inject_Z 44100 * len)) by (rewrite E; unfold samples; cbn [q fold_right snd]; lia).
  assert (S0 : 0 <= fold_right Z.add 0 sizes) by (clear - S; induction S; cbn [fold_right]; lia).
  split; [exact H1|]. split; [exact B|]. split; [exact N1|]. split; [exact T|].
  split; [rewrite R1, firstn_length; lia|].
  intros k K. rewrite R1, nth_firstn by lia. rewrite E. unfold songb. cbn [q x_ value_ song].
  rewrite app_nil_r, nth_upto by lia. unfold sound. destruct (Z.ltb_spec (Z.of_nat (Z.to_nat k)) 0); [lia|].
  rewrite Z.sub_0_r, Z2Nat.id by lia. unfold wave. destruct (Z.eqb_spec (half_period freq) 0); [lia|].
  change (first 0) with 200. reflexivity.
Qed.
(** The 2000 Hz beep of a mode change: a period of 22 samples. *)
Example C136_tone_ex :
  half_period 2000 = 11 /\
  fst (reads (Beep (Beeper [] 0 0) (1 # 20) 2000) [13; 11]) =
    repeat 200 11 ++ repeat (-200) 11 ++ repeat 200 2.
Proof. split; vm_compute; reflexivity. Qed.

(** Above half the sample rate there is no tone at all. *)
Theorem C136_high_refuted : ~ (forall len freq, (0 < freq)%Q -> (1 <= inject_Z 44100 * len)%Q ->
  exists s, In s (fst (Read (Beep (Beeper [] 0 0) len freq) 100)) /\ s <> 0).
Proof.
  intros H. destruct (H (1 # 100)%Q (30000)%Q) as (s & I & N); [reflexivity|discriminate|].
  assert (E : fst (Read (Beep (Beeper [] 0 0) (1 # 100) 30000) 100) = repeat 0 100) by (vm_compute; reflexivity).
  rewrite E in I. apply repeat_spec in I. contradiction.
Qed.

(** Only three levels. *)
Theorem C136_levels b sizes : proper b -> (value_ b = 0 \/ value_ b = 200 \/ value_ b = -200) ->
  Forall (fun n => 0 <= n) sizes -> Forall (fun s => s = 0 \/ s = 200 \/ s = -200) (fst (reads b sizes)).
Proof.
  intros P V S. rewrite (proj1 (reads_spec sizes b P S)). apply Forall_firstn. apply song_values. exact V.
Qed.
Example C136_levels_ex : proper (Beeper [(2, 5); (0, 3)] 0 0).
Proof. split; [cbn; lia|]. repeat constructor; cbn; lia. Qed.

(** Silence is silent, but for what is left of a half wave: the beeper finishes it first. *)
Theorem C136_silence b len rest sizes : proper b -> q b = [] -> (1 <= inject_Z 44100 * len)%Q ->
  Forall (fun n => 0 <= n) sizes -> Forall (fun p => 0 <= fst p /\ 0 < snd p) rest ->
  forall n, (inject_Z n <= inject_Z 44100 * len /\ inject_Z 44100 * len < inject_Z (n + 1))%Q ->
  let b1 := Beeper (q (Silence b len) ++ rest) (x_ b) (value_ b) in
  forall k, 0 <= k < Z.min n (fold_right Z.add 0 sizes) ->
    nth (Z.to_nat k) (fst (reads b1 sizes)) 1 = if k <? x_ b then value_ b else 0.
Proof.
  intros P Q0 LN S RP n T b1 k K.
  destruct (trunc_bounds (inject_Z 44100 * len) ltac:(lra)) as [[T1 T2] T0].
  assert (N : trunc (inject_Z 44100 * len) = n).
  { destruct T as [T3 T4].
    assert (A : (inject_Z n < inject_Z (trunc (inject_Z 44100 * len) + 1))%Q) by lra.
    assert (B : (inject_Z (trunc (inject_Z 44100 * len)) < inject_Z (n + 1))%Q) by lra.
    rewrite <- Zlt_Qlt in A, B. lia. }
  assert (E : b1 = Beeper ((0, n) :: rest) (x_ b) (value_ b)).
  { unfold b1, Silence, Beep, push. rewrite Q0. cbn [length Nat.ltb Nat.leb q app]. unfold half_period, AUDIO_RATE. cbn [Qeq_bool Zeq_bool].
    rewrite N. reflexivity. }
  assert (P1 : proper b1).
  { rewrite E. split; [apply P|]. constructor; [cbn; lia|exact RP]. }
  rewrite (proj1 (reads_spec sizes b1 P1 S)), nth_firstn by lia. rewrite E. unfold songb. cbn [q x_ value_ song].
  rewrite app_nth1 by (rewrite map_length, upto_len; lia). rewrite nth_upto by lia.
  unfold sound, wave. rewrite Z2Nat.id by lia. reflexivity.
Qed.
Example C136_silence_ex :
  fst (reads (Beeper [(5, 7); (0, 6); (5, 2)] 0 0) [15]) =
    [200; 200; 200; 200; 200; -200; -200;  -200; -200; -200; 0; 0; 0;  200; 200].
Proof. vm_compute. reflexivity. Qed.

(** Of a row of beeps asked for at once, the first sixteen are kept in order, and later ones
    are dropped. *)
Theorem C136_queue l : 
  let b := fold_left (fun b p => Beep b (fst p) (snd p)) l (Beeper [] 0 0) in
  length (q b) = Nat.min 16 (length l) /\
  forall i, (i < Nat.min 16 (length l))%nat ->
    nth_error (q b) i =
    nth_error (map (fun p => (half_period (snd p), trunc (inject_Z 44100 * fst p))) l) i.
Proof.
  cbv zeta. destruct (beeps_queue l (Beeper [] 0 0)) as (Q & _ & _); [cbn; lia|]. rewrite Q.
  cbn [q app]. split; [rewrite firstn_length, map_length; reflexivity|].
  intros i I. change (map (fun p => _) l) with (map note l).
  assert (G : forall (m : list (Z * Z)) j, (j < 16)%nat -> nth_error (firstn 16 m) j = nth_error m j).
  { clear. intros m j. generalize 16%nat as t. intros t. revert m j. induction t; intros [|y m] [|j] H; try reflexivity; try lia.
    cbn [firstn nth_error]. apply IHt. lia. }
  apply G. lia.
Qed.
Example C136_queue_ex :
  length (q (fold_left (fun b p => Beep b (fst p) (snd p)) (repeat (1 # 2, 440)%Q 20) (Beeper [] 0 0))) = 16%nat.
Proof. reflexivity. Qed.

(** Not every beep ends: one too short for a single sample is never taken off the queue.  The
    beeper then gives no sample at all, says that it is playing, and no later beep is heard. *)
Theorem C136_stuck_refuted :
  ~ (forall len freq len' freq' n, (0 < len)%Q -> (0 < freq)%Q -> 0 <= n ->
     exists sizes, Forall (fun n => 0 <= n) sizes /\
       let r := reads (Beep (Beep (Beeper [] 0 0) len freq) len' freq') sizes in
       isPlaying (snd r) = false \/ Z.of_nat (length (fst r)) > n).
Proof.
  intros H. destruct (H (1 # 50000)%Q 440%Q 1%Q 440%Q 0) as (sizes & S & B); [reflexivity|reflexivity|lia|].
  cbv zeta in B.
  assert (Q : q (Beep (Beep (Beeper [] 0 0) (1 # 50000) 440) 1 440) = (50, 0) :: [(50, 44100)]) by (vm_compute; reflexivity).
  assert (X : 0 <= x_ (Beep (Beep (Beeper [] 0 0) (1 # 50000) 440) 1 440)) by (vm_compute; discriminate).
  destruct (reads_stuck sizes _ 50 [(50, 44100)] X Q ltac:(lia) S) as (R1 & R2).
  unfold isPlaying in B. rewrite R1, R2 in B. destruct B as [B|B]; [discriminate B|cbn in B; lia].
Qed.

Print Assumptions C136_song.
Print Assumptions C136_chunks.
Print Assumptions C136_playing.
Print Assumptions C136_tone.
Print Assumptions C136_high_refuted.
Print Assumptions C136_levels.
Print Assumptions C136_silence.
Print Assumptions C136_queue.
Print Assumptions C136_stuck_refuted.
