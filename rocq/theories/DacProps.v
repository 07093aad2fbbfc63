(** C144: sound output without gaps. *)
From Coq Require Import ZArith List Bool Lia ZifyBool ZifyNat.
From Verif Require Import DacModel DacSpec DacProofs.
Import ListNotations.
Local Open Scope Z_scope.

(** If each interrupt comes before the half is over, what is heard is two halves of silence
    and then every sample the mixer gave, once and in order, with silence where it gave
    too few: wherever in its half each interrupt comes. *)
Theorem C144_stream : forall size channels code befores gots,
  (1 <= size)%nat -> (1 <= channels)%nat -> (forall x, length (code x) = channels) ->
  length befores = length gots ->
  let n := (size * channels)%nat in
  Forall (fun b => (b < n)%nat) befores ->
  heard size channels code (begin size channels)
    (repeat Play n ++
     flat_map (fun p => repeat Play (fst p) ++ Isr (snd p) :: repeat Play (n - fst p))
              (combine befores gots)) =
  firstn (n + length gots * n)
    (repeat 0 n ++ repeat 0 n ++ flat_map (fun g => flat_map code (block size g)) gots).
Proof.
  intros size channels code befores gots S1 C1 HC L n B.
  set (hs := map (fun p => Filled (fst p) (snd p)) (combine befores gots)).
  assert (E : flat_map (fun p => repeat Play (fst p) ++ Isr (snd p) :: repeat Play (n - fst p))
                (combine befores gots) = flat_map (events n) hs).
  { unfold hs. generalize (combine befores gots). clear. induction l as [|p l IH]; auto.
    cbn [flat_map map events]. now rewrite IH. }
  rewrite E. rewrite begin_state by auto.
  change (repeat Play n ++ flat_map (events n) hs) with (flat_map (events n) (Missed :: hs)).
  rewrite halves; auto; try apply repeat_length.
  - cbn [sound].
    destruct (sound_all size channels code S1 C1 HC gots (repeat 0 n) (repeat 0 n) befores L) as [X|X].
    + fold hs in X. unfold n in *. rewrite X.
      rewrite (firstn_app _ (repeat 0 (size * channels)) (repeat 0 _ ++ _)), repeat_length.
      rewrite (firstn_all2 (repeat 0 (size * channels)) (n := size * channels + _))
        by (rewrite repeat_length; lia).
      do 2 f_equal. lia.
    + exfalso. apply X. apply repeat_length.
  - constructor; [exact I|]. unfold hs. clear - B.
    revert gots. induction B as [|b bs Hb _ IH]; intros gots; cbn [combine map]; auto.
    destruct gots; cbn [map]; constructor; auto.
Qed.

(** Whether interrupts are missed or not, each half plays whole what was put there: a missed
    interrupt makes the half before be heard again, and nothing is heard by halves. *)
Theorem C144_halves : forall size channels code hs,
  (1 <= size)%nat -> (1 <= channels)%nat -> (forall x, length (code x) = channels) ->
  let n := (size * channels)%nat in
  Forall (in_time n) hs ->
  heard size channels code (begin size channels) (flat_map (events n) hs) =
  sound size code (repeat 0 n) (repeat 0 n) hs.
Proof.
  intros size channels code hs S1 C1 HC n F. rewrite begin_state by auto.
  apply halves; auto; apply repeat_length.
Qed.

(** Without interrupts the last two blocks are heard again and again: no silence. *)
Theorem C144_stuck_refuted : forall size channels code b1 g1 b2 g2 k,
  (1 <= size)%nat -> (1 <= channels)%nat -> (forall x, length (code x) = channels) ->
  let n := (size * channels)%nat in
  (b1 < n)%nat -> (b2 < n)%nat ->
  let x := flat_map code (block size g1) in let y := flat_map code (block size g2) in
  heard size channels code (begin size channels)
    (flat_map (events n) (Missed :: Filled b1 g1 :: Filled b2 g2 :: repeat Missed (2 * k))) =
  repeat 0 n ++ repeat 0 n ++ x ++ concat (repeat (y ++ x) k).
Proof.
  intros size channels code b1 g1 b2 g2 k S1 C1 HC n H1 H2 x y.
  unfold n. rewrite C144_halves; auto.
  - cbn [sound]. rewrite stutter. reflexivity.
  - repeat constructor; auto. clear. induction (2 * k)%nat; cbn [repeat]; constructor; cbn; auto.
Qed.

(** On a Teensy the twelve bits the converter uses are the sample's highest twelve, moved
    up by half the range. *)
Theorem C144_teensy : forall x, -32768 <= x <= 32767 ->
  exists y, teensy x = [y] /\ y mod 4096 = (x + 32768) / 16 /\ 0 <= y < 65536.
Proof. exact shiftr_teensy. Qed.

(** Both codings of I2S and the one of a Teensy have the lengths they should have. *)
Example C144_codes : (forall x, length (i2s x) = 1%nat) /\ (forall x, length (stereo x) = 2%nat) /\
  (forall x, length (teensy x) = 1%nat).
Proof. repeat split. Qed.

Example C144_stream_ex :
  heard 3 2 stereo (begin 3 2)
    (repeat Play 6 ++
     flat_map (fun p => repeat Play (fst p) ++ Isr (snd p) :: repeat Play (6 - fst p))
              (combine [0%nat; 5%nat; 2%nat; 1%nat] [[1; 2; 3]; [4]; [5; 6; 7]; []])) =
  repeat 0 12 ++ [1; 1; 2; 2; 3; 3; 4; 4; 0; 0; 0; 0; 5; 5; 6; 6; 7; 7].
Proof. reflexivity. Qed.

Print Assumptions C144_stream.
Print Assumptions C144_halves.
Print Assumptions C144_stuck_refuted.
Print Assumptions C144_teensy.
