From Coq Require Import ZArith List Bool Lia ZifyBool ZifyNat.
From Verif Require Import DacModel DacSpec.
Import ListNotations.
Local Open Scope Z_scope.

Lemma pad_block : forall size got, pad size got = block size got.
Proof.
  unfold pad, block. induction size as [|size IH]; intros got.
  - reflexivity.
  - cbn [seq map]. rewrite <- seq_shift, map_map. destruct got as [|x got]; cbn [firstn length app Nat.sub repeat nth].
    + f_equal. specialize (IH []). rewrite firstn_nil in IH. cbn [length app] in IH.
      rewrite Nat.sub_0_r in IH. rewrite IH. apply map_ext. intros [|a]; reflexivity.
    + f_equal. rewrite IH. apply map_ext. intros; reflexivity.
Qed.

Lemma block_length : forall size got, length (block size got) = size.
Proof. intros. unfold block. now rewrite map_length, seq_length. Qed.

Lemma flat_length : forall (code : Z -> list Z) c, (forall x, length (code x) = c) ->
  forall l, length (flat_map code l) = (length l * c)%nat.
Proof.
  intros code c H. induction l as [|x l IH]; cbn [flat_map length]; [reflexivity|].
  rewrite app_length, H, IH. lia.
Qed.

Section P.
Variables (size channels : nat) (code : Z -> list Z).
Hypothesis S1 : (1 <= size)%nat.
Hypothesis C1 : (1 <= channels)%nat.
Hypothesis HC : forall x, length (code x) = channels.
Let n := (size * channels)%nat.

Lemma n_pos : (1 <= n)%nat.
Proof. unfold n. destruct size, channels; lia. Qed.

Notation st := (step size channels code).
Notation hear := (heard size channels code).

Lemma hear_app : forall a b s,
  hear s (a ++ b) = hear s a ++ hear (fold_left (fun s o => fst (st s o)) a s) b.
Proof.
  induction a as [|o a IH]; intros b s; cbn [app heard fold_left]; [reflexivity|].
  destruct (st s o) as [s' xs]. cbn [fst]. rewrite IH. now rewrite app_assoc.
Qed.

(** Playing [k] words without going round. *)
Lemma play_run : forall k s, (pos s + k <= length (buf s))%nat -> (pos s < length (buf s))%nat ->
  hear s (repeat Play k) = firstn k (skipn (pos s) (buf s)) /\
  fold_left (fun s o => fst (st s o)) (repeat Play k) s =
    Dac (buf s) (if Nat.leb (length (buf s)) (pos s + k) then 0 else pos s + k).
Proof.
  induction k as [|k IH]; intros s H P; cbn [repeat heard fold_left].
  - rewrite Nat.add_0_r. destruct (Nat.leb_spec (length (buf s)) (pos s)); [lia|].
    split; [reflexivity|]. now destruct s.
  - cbn [step]. unfold play. cbv zeta beta iota. cbn [fst].
    assert (SK : skipn (pos s) (buf s) = nth (pos s) (buf s) 0 :: skipn (pos s + 1) (buf s)).
    { generalize (pos s) (buf s) P. clear. intros p l. revert p.
      induction l; intros [|p] P; cbn in *; try lia; auto. apply IHl. lia. }
    rewrite SK. cbn [firstn app].
    destruct (Nat.leb_spec (length (buf s)) (pos s + 1)) as [L|L].
    + assert (k = 0%nat) as -> by lia. cbn [repeat heard fold_left firstn].
      destruct (Nat.leb_spec (length (buf s)) (pos s + 1)); [|lia]. auto.
    + destruct (IH (Dac (buf s) (pos s + 1))) as [A B]; cbn [buf pos] in *; try lia.
      rewrite A, B. split; [reflexivity|].
      replace (pos s + 1 + k)%nat with (pos s + S k)%nat by lia. reflexivity.
Qed.

Definition state (side : bool) (now next : list Z) : dac :=
  if side then Dac (next ++ now) n else Dac (now ++ next) 0.

Lemma state_play : forall side now next a, length now = n -> length next = n -> (a < n)%nat ->
  let s := state side now next in
  hear s (repeat Play a) = firstn a now /\
  fold_left (fun s o => fst (st s o)) (repeat Play a) s =
    Dac (buf s) (pos s + a).
Proof.
  intros side now next a L1 L2 A s. pose proof n_pos as N.
  assert (P : (pos s + a < length (buf s))%nat /\ (pos s < length (buf s))%nat).
  { unfold s, state. destruct side; cbn [buf pos]; rewrite app_length; lia. }
  destruct (play_run a s) as [H1 H2]; try lia. rewrite H1, H2.
  destruct (Nat.leb_spec (length (buf s)) (pos s + a)); [lia|]. split; [|reflexivity].
  unfold s, state. destruct side; cbn [buf pos skipn].
  - rewrite skipn_app, L2, Nat.sub_diag. rewrite skipn_all2 by lia. reflexivity.
  - rewrite firstn_app. replace (a - length now)%nat with 0%nat by lia.
    cbn [firstn]. now rewrite app_nil_r.
Qed.

Lemma rest_play : forall side now next a, length now = n -> length next = n -> (a <= n)%nat ->
  (a = n -> False) ->
  let s := state side now next in
  hear (Dac (buf s) (pos s + a)) (repeat Play (n - a)) = skipn a now /\
  fold_left (fun s o => fst (st s o)) (repeat Play (n - a)) (Dac (buf s) (pos s + a)) =
    state (negb side) next now.
Proof.
  intros side now next a L1 L2 A AN s. pose proof n_pos as N.
  assert (a <> n) by (intros X; exact (AN X)).
  destruct (play_run (n - a) (Dac (buf s) (pos s + a))) as [H1 H2]; cbn [buf pos] in *.
  - unfold s, state. destruct side; cbn [buf pos]; rewrite app_length; lia.
  - unfold s, state. destruct side; cbn [buf pos]; rewrite app_length; lia.
  - rewrite H1, H2. unfold s, state. destruct side; cbn [buf pos negb].
    + rewrite app_length. destruct (Nat.leb_spec (length next + length now) (n + a + (n - a))); [|lia].
      split; [|reflexivity]. rewrite skipn_app, L2.
      rewrite (skipn_all2 next) by lia. cbn [app].
      replace (n + a - n)%nat with a by lia. apply firstn_all2. rewrite skipn_length. lia.
    + rewrite app_length. destruct (Nat.leb_spec (length now + length next) (0 + a + (n - a))); [lia|].
      split.
      * rewrite skipn_app. cbn [Nat.add]. rewrite firstn_app, skipn_length.
        replace (n - a - (length now - a))%nat with 0%nat by lia.
        cbn [firstn]. rewrite app_nil_r. apply firstn_all2. rewrite skipn_length. lia.
      * replace (0 + a + (n - a))%nat with n by lia. reflexivity.
Qed.

Lemma isr_state : forall side now next a got, length now = n -> length next = n -> (a < n)%nat ->
  let s := state side now next in
  let b := flat_map code (block size got) in
  isr size channels code (Dac (buf s) (pos s + a)) got =
    Dac (buf (state side now b)) (pos s + a) /\ length b = n.
Proof.
  intros side now next a got L1 L2 A s b.
  assert (LB : length b = n) by (unfold b; rewrite (flat_length code channels HC), block_length; reflexivity).
  split; [|exact LB]. unfold isr. cbn [buf pos]. rewrite pad_block. fold b. fold n. rewrite LB.
  unfold s, state. destruct side; cbn [buf pos].
  - rewrite app_length, L1, L2. replace (n + n)%nat with (n * 2)%nat by lia.
    rewrite Nat.div_mul by lia.
    destruct (Nat.ltb_spec (n + a) n); [lia|]. cbn [firstn app Nat.add].
    rewrite skipn_app, L2, Nat.sub_diag. rewrite skipn_all2 by lia. reflexivity.
  - rewrite app_length, L1, L2. replace (n + n)%nat with (n * 2)%nat by lia.
    rewrite Nat.div_mul by lia.
    destruct (Nat.ltb_spec (0 + a) n); [|lia].
    rewrite firstn_app, L1, Nat.sub_diag, firstn_all2 by lia. cbn [firstn].
    rewrite skipn_all2 by (rewrite app_length; lia). now rewrite !app_nil_r.
Qed.

Lemma half_run : forall side now next h, length now = n -> length next = n -> in_time n h ->
  let next' := match h with Filled _ got => flat_map code (block size got) | Missed => next end in
  length next' = n /\
  hear (state side now next) (events n h) = now /\
  fold_left (fun s o => fst (st s o)) (events n h) (state side now next) =
    state (negb side) next' now.
Proof.
  intros side now next h L1 L2 T next'. destruct h as [a got|]; cbn [events in_time] in *.
  - destruct (state_play side now next a L1 L2 T) as [P1 P2].
    destruct (isr_state side now next a got L1 L2 T) as [I1 LB]. fold next' in I1, LB.
    assert (PS : pos (state side now next) = pos (state side now next'))
      by (unfold state; destruct side; reflexivity).
    destruct (rest_play side now next' a L1 LB) as [R1 R2]; try lia.
    split; [exact LB|]. split.
    + rewrite hear_app, P1, P2. cbn [heard step app]. rewrite I1, PS, R1. apply firstn_skipn.
    + rewrite fold_left_app, P2. cbn [fold_left step fst]. rewrite I1, PS. exact R2.
  - pose proof n_pos as N. destruct (rest_play side now next 0 L1 L2) as [R1 R2]; try lia.
    rewrite Nat.sub_0_r, Nat.add_0_r in *. cbn [skipn] in R1.
    assert (E : Dac (buf (state side now next)) (pos (state side now next)) = state side now next)
      by (unfold state; destruct side; reflexivity).
    rewrite E in *. auto.
Qed.

Lemma halves : forall hs side now next, length now = n -> length next = n ->
  Forall (in_time n) hs ->
  hear (state side now next) (flat_map (events n) hs) = sound size code now next hs.
Proof.
  induction hs as [|h hs IH]; intros side now next L1 L2 F; [reflexivity|].
  inversion F as [|x l T F']. subst. cbn [flat_map sound].
  destruct (half_run side now next h L1 L2 T) as (A & B & C).
  rewrite hear_app, B, C. destruct h; f_equal; apply IH; auto.
Qed.

Lemma begin_state : begin size channels = state false (repeat 0 n) (repeat 0 n).
Proof.
  unfold begin, state. f_equal. rewrite <- repeat_app. f_equal. unfold n. lia.
Qed.

(** When no interrupt is missed. *)
Lemma sound_all : forall gots now next befores, length befores = length gots ->
  sound size code now next (map (fun p => Filled (fst p) (snd p)) (combine befores gots)) =
  firstn (length gots * n) (now ++ flat_map (fun g => flat_map code (block size g)) gots)
  \/ length now <> n.
Proof.
  induction gots as [|g gots IH]; intros now next [|b befores] L; cbn in L; try discriminate.
  - left. reflexivity.
  - destruct (Nat.eq_dec (length now) n) as [LN|LN]; [left|now right].
    cbn [combine map fst snd sound].
    destruct (IH (flat_map code (block size g)) now befores) as [E|E]; [lia| |].
    + rewrite E. cbn [length flat_map]. rewrite (firstn_app _ now), LN.
      rewrite (firstn_all2 now) by lia. f_equal. f_equal. lia.
    + exfalso. apply E. rewrite (flat_length code channels HC), block_length. reflexivity.
Qed.
End P.

Lemma shiftr_teensy : forall x, -32768 <= x <= 32767 ->
  exists y, teensy x = [y] /\ y mod 4096 = (x + 32768) / 16 /\ 0 <= y < 65536.
Proof.
  intros x H. eexists. split; [reflexivity|]. rewrite Z.shiftr_div_pow2 by lia.
  change (2 ^ 4) with 16.
  assert (E : x mod 65536 = x \/ x < 0 /\ x mod 65536 = x + 65536).
  { destruct (Z_lt_ge_dec x 0) as [N|N].
    - right. split; auto. symmetry. apply (Z.mod_unique x 65536 (-1)); lia.
    - left. apply Z.mod_small. lia. }
  destruct E as [E|[N E]]; rewrite E.
  - split.
    + apply Z.mod_small. split; [apply Z.div_pos; lia|]. apply Z.div_lt_upper_bound; lia.
    + split; [apply Z.div_pos; lia|]. apply Z.div_lt_upper_bound; lia.
  - replace (x + 65536 + 32768) with (x + 32768 + 4096 * 16) by lia.
    rewrite Z.div_add by lia. split.
    + rewrite Z.add_mod, Z.mod_same, Z.add_0_r, Z.mod_mod by lia.
      apply Z.mod_small. split; [apply Z.div_pos; lia|]. apply Z.div_lt_upper_bound; lia.
    + pose proof (Z.div_pos (x + 32768) 16 ltac:(lia) ltac:(lia)).
      pose proof (Z.div_lt_upper_bound (x + 32768) 16 4096 ltac:(lia) ltac:(lia)). lia.
Qed.

Lemma stutter : forall size code k now next,
  sound size code now next (repeat Missed (2 * k)) = concat (repeat (now ++ next) k).
Proof.
  induction k as [|k IH]; intros now next; [reflexivity|].
  replace (2 * S k)%nat with (S (S (2 * k))) by lia.
  cbn [repeat sound concat]. rewrite IH. now rewrite app_assoc.
Qed.
