From Coq Require Import ZArith List Bool Lia ZifyBool ZifyNat.
From Verif Require Import FrameModel FrameSpec FrameProofs FrameConv FrameLand.
Import ListNotations.
Open Scope Z_scope.

Lemma index_split w : 0 <= w -> w = 32 * Z.shiftr w 5 + Z.land w 31 /\ 0 <= Z.land w 31 < 32 /\ 0 <= Z.shiftr w 5.
Proof.
  intros W. rewrite Z.shiftr_div_pow2 by lia. change 31 with (Z.ones 5). rewrite Z.land_ones by lia. change (2 ^ 5) with 32. pose proof (Z.div_mod w 32 ltac:(lia)). pose proof (Z.mod_pos_bound w 32 ltac:(lia)).
  assert (0 <= w / 32) by (apply Z.div_pos; lia). lia.
Qed.
Lemma moved_mark bits d w : 0 <= d -> 0 <= w -> moved (mark bits d) w = (w =? d) || moved bits w.
Proof.
  intros D W. destruct (index_split d D) as (D1 & D2 & D3). destruct (index_split w W) as (W1 & W2 & W3). unfold moved, mark.
  destruct (Z.eq_dec (Z.shiftr w 5) (Z.shiftr d 5)) as [E|E].
  - rewrite E, put_same, Z.lor_spec, Z.shiftl_spec by lia. rewrite orb_comm. f_equal. destruct (Z.eqb_spec w d) as [->|N]; [rewrite Z.sub_diag; reflexivity|].
    change 1 with (2 ^ 0). apply Z.pow2_bits_false. lia.
  - rewrite put_other by exact E. replace (w =? d) with false by lia. reflexivity.
Qed.

Lemma nodup_map_on {A B} (f : A -> B) l : NoDup l -> (forall x y, In x l -> In y l -> f x = f y -> x = y) -> NoDup (map f l).
Proof.
  intros N. induction N as [|x l NI N IH]; intros I; [constructor|]. cbn. constructor.
  - intros M. apply in_map_iff in M as (y & E & Y). apply NI. rewrite <- (I y x); [exact Y|right; exact Y|left; reflexivity|exact E].
  - apply IH. intros; apply I; try (right; assumption); assumption.
Qed.
Lemma least (P : nat -> bool) n : P n = true -> exists m, (m <= n)%nat /\ P m = true /\ forall k, (k < m)%nat -> P k = false.
Proof.
  induction n as [n IH] using lt_wf_ind. intros T. destruct (existsb P (seq 0 n)) eqn:E.
  - apply existsb_exists in E as (k & K & PK). apply in_seq in K. destruct (IH k ltac:(lia) PK) as (m & A & B & C). exists m. split; [lia|]. split; assumption.
  - exists n. split; [lia|]. split; [exact T|]. intros k K. apply Bool.not_true_is_false. intros PK. apply Bool.not_true_iff_false in E. apply E. apply existsb_exists. exists k. rewrite in_seq. split; [lia|exact PK].
Qed.

Section P.
Variables (W H : Z) (iv : bool).
Let d := dest W H iv.
Hypothesis inj : forall x y, 0 <= x < W -> 0 <= y < W -> d x = d y -> x = y.
Hypothesis into : forall x, 0 <= x < W -> 0 <= d x < W.
Section Orbit.
Variable w : Z.
Hypothesis wr : 0 <= w < W.
Let it (n : nat) : Z := Nat.iter n d w.
Lemma it_S n : it (S n) = d (it n). Proof. reflexivity. Qed.
Lemma it_range n : 0 <= it n < W.
Proof. induction n; [exact wr|rewrite it_S; apply into; assumption]. Qed.
Lemma it_back a n : it (a + n) = it a -> it n = w.
Proof. induction a as [|a IH]; intros E; [exact E|]. apply IH. apply inj; [apply it_range|apply it_range|]. exact E. Qed.
Lemma returns : exists N, (1 <= N <= Z.to_nat W)%nat /\ it N = w /\ forall k, (0 < k < N)%nat -> it k <> w.
Proof.
  destruct (existsb (fun k => it (S k) =? w) (seq 0 (Z.to_nat W))) eqn:E.
  - apply existsb_exists in E as (k & K & PK). apply in_seq in K. destruct (least (fun k => it (S k) =? w) k PK) as (m & A & B & C). exists (S m). split; [lia|]. split; [lia|].
    intros [|j] J; [lia|]. specialize (C j ltac:(lia)). lia.
  - exfalso. assert (NR : forall k, (0 < k <= Z.to_nat W)%nat -> it k <> w).
    { intros [|k] K R; [lia|]. apply Bool.not_true_iff_false in E. apply E. apply existsb_exists. exists k. rewrite in_seq. split; [lia|]. apply Z.eqb_eq. exact R. }
    assert (N : NoDup (map it (seq 0 (S (Z.to_nat W))))).
    { apply nodup_map_on; [apply seq_NoDup|]. intros a b A B Q. apply in_seq in A. apply in_seq in B. destruct (Nat.lt_trichotomy a b) as [L|[L|L]]; [exfalso|exact L|exfalso].
      - apply (NR (b - a)%nat); [lia|]. apply (it_back a). replace (a + (b - a))%nat with b by lia. symmetry. exact Q.
      - apply (NR (a - b)%nat); [lia|]. apply (it_back b). replace (b + (a - b))%nat with a by lia. exact Q. }
    apply NoDup_incl_length with (l' := range W) in N.
    + unfold range in N. rewrite !map_length, !seq_length in N. lia.
    + intros x X. apply in_map_iff in X as (k & <- & _). apply in_range. apply it_range.
Qed.
Variable N : nat.
Hypothesis N1 : (1 <= N)%nat.
Hypothesis NW : it N = w.
Hypothesis NF : forall k, (0 < k < N)%nat -> it k <> w.
Lemma it_inj a b : (0 < a <= N)%nat -> (0 < b <= N)%nat -> it a = it b -> a = b.
Proof.
  intros A B E. destruct (Nat.lt_trichotomy a b) as [L|[L|L]]; [exfalso|exact L|exfalso].
  - apply (NF (b - a)%nat); [lia|]. apply (it_back a). replace (a + (b - a))%nat with b by lia. symmetry. exact E.
  - apply (NF (a - b)%nat); [lia|]. apply (it_back b). replace (b + (a - b))%nat with a by lia. exact E.
Qed.
Variables (f0 : frame) (bits0 : Z -> Z).
Definition inorbit (i : nat) (x : Z) : Prop := exists k, (0 < k <= i)%nat /\ x = it k.
Lemma cycle_ok : forall n i (f : frame) (bits : Z -> Z), (N <= i + n)%nat -> (i < N)%nat ->
  (forall k, (k < i)%nat -> f (it (S k)) = swap_bytes H (f0 (it k))) ->
  (forall x, ~ inorbit i x -> f x = f0 x) ->
  (forall x, 0 <= x -> moved bits x = true <-> moved bits0 x = true \/ inorbit i x) ->
  exists f' bits', cycle W H iv n w (it i) (f0 (it i)) (f, bits) = Some (f', bits') /\
    (forall k, (k < N)%nat -> f' (it (S k)) = swap_bytes H (f0 (it k))) /\
    (forall x, ~ inorbit N x -> f' x = f0 x) /\
    (forall x, 0 <= x -> moved bits' x = true <-> moved bits0 x = true \/ inorbit N x).
Proof.
  induction n as [|n IH]; intros i f bits L I A1 A2 A3; [lia|]. cbn [cycle]. cbv zeta. fold d. rewrite <- it_S.
  assert (B1 : forall k, (k < S i)%nat -> put f (it (S i)) (swap_bytes H (f0 (it i))) (it (S k)) = swap_bytes H (f0 (it k))).
  { intros k K. destruct (Nat.eq_dec k i) as [->|NE]; [apply put_same|]. rewrite put_other; [apply A1; lia|]. intros E. apply it_inj in E; lia. }
  assert (B2 : forall x, ~ inorbit (S i) x -> put f (it (S i)) (swap_bytes H (f0 (it i))) x = f0 x).
  { intros x X. rewrite put_other by (intros ->; apply X; exists (S i); split; [lia|reflexivity]). apply A2. intros (k & K & E). apply X. exists k. split; [lia|exact E]. }
  assert (B3 : forall x, 0 <= x -> moved (mark bits (it (S i))) x = true <-> moved bits0 x = true \/ inorbit (S i) x).
  { intros x X. rewrite moved_mark by (try exact X; apply it_range). rewrite orb_true_iff, A3 by exact X. split.
    - intros [E|[E|(k & K & E)]]; [right; exists (S i); split; [lia|lia]|left; exact E|right; exists k; split; [lia|exact E]].
    - intros [E|(k & K & E)]; [right; left; exact E|]. destruct (Nat.eq_dec k (S i)) as [->|NE]; [left; lia|right; right; exists k; split; [lia|exact E]]. }
  destruct (Z.eqb_spec (it (S i)) w) as [E|E].
  - assert (S i = N) as <-. { destruct (Nat.eq_dec (S i) N) as [|NE]; [assumption|]. exfalso. apply (NF (S i)); [lia|exact E]. }
    eexists; eexists. split; [reflexivity|]. split; [exact B1|]. split; [exact B2|exact B3].
  - replace (f (it (S i))) with (f0 (it (S i))).
    + apply IH; [lia| |exact B1|exact B2|exact B3]. destruct (Nat.eq_dec (S i) N) as [EN|NE]; [|lia]. rewrite EN in E. contradiction.
    + symmetry. apply A2. intros (k & K & Q). apply it_inj in Q; lia.
Qed.
End Orbit.

Variable g0 : frame.
Definition placed_so_far (w : Z) (s : frame * (Z -> Z)) : Prop :=
  (forall x, 0 <= x < W -> moved (snd s) (d x) = moved (snd s) x) /\
  (forall x, 0 <= x < W -> moved (snd s) x = true -> fst s (d x) = swap_bytes H (g0 x)) /\
  (forall x, 0 <= x < W -> moved (snd s) x = false -> fst s x = g0 x) /\
  (forall x, 0 <= x < w -> moved (snd s) x = true).
Lemma permute_ok : forall n w s, 0 <= w -> w + Z.of_nat n = W -> placed_so_far w s -> exists s', permute W H iv n w s = Some s' /\ placed_so_far W s'.
Proof.
  induction n as [|n IH]; intros w s W0 WN PS.
  - exists s. split; [reflexivity|]. replace W with w by lia. exact PS.
  - cbn [permute]. destruct PS as (P1 & P2 & P3 & P4). destruct (moved (snd s) w) eqn:M.
    + cbn [bind]. apply IH; [lia|lia|]. split; [exact P1|]. split; [exact P2|]. split; [exact P3|]. intros x X. destruct (Z.eq_dec x w) as [->|]; [exact M|apply P4; lia].
    + assert (WR : 0 <= w < W) by lia. destruct (returns w WR) as (N & N1 & NW & NF). destruct s as (f, bits). cbn [fst snd] in *.
      destruct (cycle_ok w WR N (proj1 N1) NW NF f bits (Z.to_nat W) 0 f bits) as (f' & bits' & E & C1 & C2 & C3); [lia|lia|intros; lia|reflexivity| |].
      { intros x X. split; [auto|]. intros [A|(k & K & _)]; [exact A|lia]. }
      cbn [Nat.iter nat_rect] in E. change (fst (f, bits) w) with (f w). unfold frame in *. rewrite E. cbn [bind].
      set (it := fun n => Nat.iter n d w). assert (RI : forall k, 0 <= it k < W) by (intros k; apply it_range; exact WR).
      assert (UM : forall k, moved bits (it k) = false).
      { induction k as [|k IHk]; [exact M|]. change (it (S k)) with (d (it k)). rewrite P1 by apply RI. exact IHk. }
      assert (OC : forall x, 0 <= x < W -> inorbit w N (d x) <-> inorbit w N x).
      { intros x X. split.
        - intros ([|k] & K & Q); [lia|]. change (d x = d (it k)) in Q. apply inj in Q; [|exact X|apply RI]. destruct k as [|k]; [exists N; split; [lia|]; fold d in NW |- *; rewrite Q; symmetry; exact NW|exists (S k); split; [lia|exact Q]].
        - intros (k & K & Q). destruct (Nat.eq_dec k N) as [->|NE]; [exists 1%nat; split; [lia|]; rewrite Q; fold d in NW; fold d; rewrite NW; reflexivity|exists (S k); split; [lia|]; rewrite Q; reflexivity]. }
      apply IH; [lia|lia|]. split; [|split; [|split]]; cbn [fst snd].
      * intros x X. apply Bool.eq_true_iff_eq. rewrite !C3 by (try lia; apply into in X; lia). rewrite P1, OC by exact X. reflexivity.
      * intros x X MX. apply C3 in MX; [|lia]. destruct MX as [MX|(k & K & Q)].
        -- rewrite C2; [apply P2; assumption|]. intros O. apply (proj1 (OC x X)) in O. destruct O as (k & K & Q). rewrite Q in MX. fold d in MX. change (moved bits (it k) = true) in MX. rewrite UM in MX. discriminate.
        -- rewrite Q. destruct (Nat.eq_dec k N) as [->|NE].
           ++ fold d in NW |- *. rewrite NW. change (f' (it 1%nat) = swap_bytes H (g0 w)). specialize (C1 0%nat ltac:(lia)). cbn [Nat.iter nat_rect] in C1. rewrite <- P3 by assumption. exact C1.
           ++ specialize (C1 k ltac:(lia)). fold d in C1. rewrite <- P3; [exact C1|apply RI|apply UM].
      * intros x X MX. rewrite C2; [apply P3; [exact X|]|].
        -- apply Bool.not_true_is_false. intros T. apply Bool.not_true_iff_false in MX. apply MX. apply C3; [lia|]. left. exact T.
        -- intros O. apply Bool.not_true_iff_false in MX. apply MX. apply C3; [lia|]. right. exact O.
      * intros x X. apply C3; [lia|]. destruct (Z.eq_dec x w) as [->|NE]; [right; exists N; split; [lia|symmetry; exact NW]|left; apply P4; lia].
Qed.
End P.

Lemma dest_facts W H iv : height H -> 0 < W / H -> W = H * (W / H) ->
  (forall x, 0 <= x < W -> 0 <= dest W H iv x < W) /\ (forall x y, 0 <= x < W -> 0 <= y < W -> dest W H iv x = dest W H iv y -> x = y).
Proof.
  intros HH B E. assert (HP : 0 < H) by (destruct HH as [->|[->|[->| ->]]]; lia). set (n := W / H) in *.
  assert (F : forall x, 0 <= x < W -> 0 <= x mod n < n /\ 0 <= x / n < H /\ x = n * (x / n) + x mod n).
  { intros x X. pose proof (Z.div_mod x n ltac:(lia)). pose proof (Z.mod_pos_bound x n ltac:(lia)). split; [lia|]. split; [|lia]. split; [apply Z.div_pos; lia|apply Z.div_lt_upper_bound; lia]. }
  unfold dest. fold n. split.
  - intros x X. destruct (F x X) as (F1 & F2 & F3). destruct iv; nia.
  - intros x y X Y Q. destruct (F x X) as (F1 & F2 & F3). destruct (F y Y) as (G1 & G2 & G3).
    set (rx := if iv then x / n else H - 1 - x / n) in *. set (ry := if iv then y / n else H - 1 - y / n) in *.
    assert (RX : 0 <= rx < H) by (unfold rx; destruct iv; lia). assert (RY : 0 <= ry < H) by (unfold ry; destruct iv; lia).
    assert (x mod n = y mod n) by nia. assert (rx = ry) by nia. assert (x / n = y / n) by (unfold rx, ry in *; destruct iv; lia). congruence.
Qed.

(** ConvertLandscape shows the image: upright, or upside down if [invert_y]. *)
Theorem landscape_ok W H iv bytes : height H -> 0 < W -> W mod H = 0 -> (forall i, 0 <= bytes i < 256) ->
  draws W H (convert_landscape W H iv (load H bytes)) (fun x y => image W bytes x (if iv then H - 1 - y else y)).
Proof.
  intros HH W0 WM BY. assert (HP : 0 < H) by (destruct HH as [->|[->|[->| ->]]]; lia). destruct (height_bytes H HH) as (_ & HB).
  assert (E : W = H * (W / H)) by (apply Z.div_exact; lia). assert (B : 0 < W / H) by nia. set (n := W / H) in *.
  destruct (dest_facts W H iv HH B E) as (DI & DJ).
  destruct (permute_ok W H iv DJ DI (load H bytes) (Z.to_nat W) 0 (load H bytes, fun _ => 0)) as (s & PE & S1 & S2 & S3 & S4); [lia|lia| |].
  { assert (Z0 : forall x, moved (fun _ => 0) x = false) by (intros; apply Z.bits_0). split; [|split; [|split]]; cbn [fst snd]; intros x X; rewrite ?Z0 in *; try reflexivity; try discriminate. lia. }
  unfold convert_landscape. rewrite PE. cbn [bind]. fold n.
  assert (S5 : forall x, 0 <= x < W -> fst s (dest W H iv x) = swap_bytes H (load H bytes x)) by (intros x X; apply S2; [exact X|apply S4; exact X]).
  (* every column of a block is the destination of one *)
  set (col := fun y i => (if iv then H - 1 - y else y) * n + i).
  assert (CR : forall y i, 0 <= y < H -> 0 <= i < n -> 0 <= col y i < W /\ dest W H iv (col y i) = i * H + (H - 1 - y)).
  { intros y i Y I. unfold col. split; [destruct iv; nia|]. unfold dest. fold n.
    set (r := if iv then H - 1 - y else y). replace ((r * n + i) mod n) with i by (rewrite Z.add_comm, Z.mod_add, Z.mod_small by lia; reflexivity).
    replace ((r * n + i) / n) with r by (rewrite Z.add_comm, Z.div_add, Z.div_small by lia; lia). unfold r. destruct iv; lia. }
  assert (WO : forall x, 0 <= x < W -> 0 <= fst s x < 2 ^ H).
  { intros x X. pose proof (Z.div_mod x H ltac:(lia)) as D. pose proof (Z.mod_pos_bound x H ltac:(lia)) as M.
    assert (I : 0 <= x / H < n) by (split; [apply Z.div_pos; lia|apply Z.div_lt_upper_bound; lia]).
    destruct (CR (H - 1 - x mod H) (x / H) ltac:(lia) I) as (C1 & C2). replace x with (dest W H iv (col (H - 1 - x mod H) (x / H))) by lia. rewrite S5 by exact C1. apply swap_bytes_ok. exact HH. }
  destruct (transpose_all_ok H HH (Z.to_nat n) (fst s) 0) as (T1 & _ & T3).
  { intros i I. apply WO. rewrite Z2Nat.id in I by lia. rewrite E. exact I. }
  rewrite Z2Nat.id in T1, T3 by lia. rewrite <- E in T1.
  eexists. split; [reflexivity|]. split.
  - intros x X. specialize (T1 x X). rewrite Z.add_0_l in T1. exact T1.
  - intros x y X Y. pose proof (Z.div_mod x H ltac:(lia)) as D. pose proof (Z.mod_pos_bound x H ltac:(lia)) as M.
    assert (I : 0 <= x / H < n) by (split; [apply Z.div_pos; lia|apply Z.div_lt_upper_bound; lia]).
    set (i := x / H) in *. set (c := x mod H) in *.
    unfold pixel. specialize (T3 i c y I M Y). rewrite Z.add_0_l in T3. replace (i * H + c) with x in T3 by lia. rewrite T3.
    destruct (CR y i Y I) as (C1 & C2). rewrite <- C2, S5 by exact C1. rewrite swapped_pixel by assumption. unfold image, col.
    set (r := if iv then H - 1 - y else y).
    assert (W8 : W / 8 = n * (H / 8)) by (symmetry; apply (Z.div_unique W 8 _ 0); [lia|]; rewrite Z.add_0_r, Z.mul_assoc, (Z.mul_comm 8 n), <- Z.mul_assoc, HB, Z.mul_comm; exact E).
    assert (XC : x = c + i * (H / 8) * 8) by (rewrite <- Z.mul_assoc, (Z.mul_comm (H / 8) 8), HB; lia).
    assert (X8 : x / 8 = i * (H / 8) + c / 8).
    { rewrite XC. rewrite Z.div_add by lia. lia. }
    assert (M8 : x mod 8 = c mod 8).
    { rewrite XC. rewrite Z.mod_add by lia. reflexivity. }
    rewrite W8, X8, M8. f_equal. f_equal. lia.
Qed.
