From Coq Require Import ZArith List Bool Lia ZifyBool ZifyNat.
From Verif Require Import StrModel StrSpec StrProofs ArgModel ArgSpec.
Import ListNotations.
Open Scope Z_scope.

(** What GetArg should be: the n-th word unless it is missing or starts with '~'. *)
Lemma get_arg_go_spec : forall fuel s arg n,
  (length s < fuel)%nat -> arg < n ->
  match nth_error (words s) (Z.to_nat (n - arg - 1)) with
  | None => get_arg_go fuel s arg n = None
  | Some w => if hd0 w =? tilde then get_arg_go fuel s arg n = None
     else exists p, get_arg_go fuel s arg n = Some p /\ points_at p w /\
        (exists q, s = q ++ p) /\ words p = skipn (Z.to_nat (n - arg - 1)) (words s)
  end.
Proof.
  induction fuel; intros s arg n L N; [lia|]. cbn [get_arg_go].
  rewrite (words_step s).
  destruct (SkipSpace_hd s) as [E|(c & r & E & B)]; rewrite E.
  { destruct (Z.to_nat _); reflexivity. }
  destruct (SkipSpace_suffix s) as [q Q]. rewrite E in Q.
  destruct (Z.eqb_spec (arg + 1) n).
  - subst n. replace (Z.to_nat (arg + 1 - arg - 1)) with 0%nat by lia.
    cbn [nth_error skipn]. pose proof (take_skip (c :: r)) as T.
    assert (H0 : hd0 (take_nonblank (c :: r)) = c) by (cbn; rewrite B; reflexivity).
    rewrite H0. destruct (c =? tilde); [reflexivity|].
    exists (c :: r). split; [auto|].
    split; [exists (skip_nonblank (c :: r)); split; [auto|apply skip_nonblank_end]|].
    split; [eauto|].
    rewrite (words_step (c :: r)). cbn [SkipSpace]. rewrite B. f_equal.
    unfold SkipWord. rewrite E. cbn [SkipSpace]. rewrite B. reflexivity.
  - replace (Z.to_nat (n - arg - 1)) with (S (Z.to_nat (n - (arg + 1) - 1))) by lia.
    cbn [nth_error skipn].
    assert (SkipWord s = skip_nonblank (c :: r)) as W by (unfold SkipWord; rewrite E; reflexivity).
    rewrite W. specialize (IHfuel (skip_nonblank (c :: r)) (arg + 1) n).
    assert (length (skip_nonblank (c :: r)) < fuel)%nat.
    { cbn [skip_nonblank]. rewrite B. pose proof (skip_nonblank_len r).
      pose proof (SkipSpace_len s). rewrite E in H0. cbn in H0. lia. }
    specialize (IHfuel H ltac:(lia)).
    destruct (nth_error _ _) eqn:NE; [|auto].
    destruct (hd0 l =? tilde); [auto|].
    destruct IHfuel as (p & A1 & A2 & (q' & A3) & A4).
    exists p. split; [auto|]. split; [auto|]. split; [|auto].
    exists (q ++ take_nonblank (c :: r) ++ q'). rewrite Q. rewrite <- !app_assoc. f_equal.
    rewrite <- A3. apply take_skip.
Qed.

Lemma get_arg_go_none fuel : forall s arg n, n <= arg -> get_arg_go fuel s arg n = None.
Proof.
  induction fuel; intros s arg n H; [reflexivity|]. cbn [get_arg_go].
  destruct (SkipSpace s); [reflexivity|]. destruct (Z.eqb_spec (arg + 1) n); [lia|].
  apply IHfuel. lia.
Qed.

Lemma get_arg_spec s n d :
  match argument s n with
  | Some w => points_at (GetArg s n d) w /\ hd0 w <> tilde /\
              words (GetArg s n d) = skipn (Z.to_nat (n - 1)) (words s)
  | None => GetArg s n d = d
  end.
Proof.
  unfold argument, GetArg, get_arg_ptr. destruct (Z.ltb_spec n 1).
  { rewrite get_arg_go_none by lia. reflexivity. }
  pose proof (get_arg_go_spec (S (length s)) s 0 n ltac:(lia) ltac:(lia)) as G.
  replace (n - 0 - 1) with (n - 1) in G by lia.
  pose proof (words_are_words s) as W.
  destruct (nth_error (words s) (Z.to_nat (n - 1))) as [w|] eqn:E.
  - apply nth_error_In in E. rewrite Forall_forall in W. apply W in E.
    destruct w as [|c w]; [destruct E; congruence|]. cbn [hd0] in G.
    change 126 with tilde. destruct (Z.eqb_spec c tilde).
    + rewrite G. reflexivity.
    + destruct G as (p & G1 & G2 & G3 & G4). rewrite G1. auto.
  - rewrite G. reflexivity.
Qed.

Lemma words_Shift s k : words (Shift s k) = skipn (Z.to_nat k) (words s).
Proof.
  unfold Shift. induction (Z.to_nat k) as [|n IH]; [reflexivity|].
  change (words (SkipWord (Nat.iter n SkipWord s)) = skipn (S n) (words s)).
  rewrite words_SkipWord, IH. clear.
  generalize (words s). induction n; intros l; destruct l; try reflexivity.
  exact (IHn l0).
Qed.

Lemma nth_error_skipn {A} (l : list A) k n : nth_error (skipn k l) n = nth_error l (k + n).
Proof.
  revert l; induction k; intros l; [reflexivity|]. destruct l; cbn; [destruct n; reflexivity|]. apply IHk.
Qed.

Lemma argument_Shift s k n : 0 <= k -> 1 <= n -> argument (Shift s k) n = argument s (n + k).
Proof.
  intros. unfold argument. rewrite words_Shift, nth_error_skipn.
  destruct (Z.ltb_spec n 1), (Z.ltb_spec (n + k) 1); try lia.
  replace (Z.to_nat k + Z.to_nat (n - 1))%nat with (Z.to_nat (n + k - 1)) by lia. reflexivity.
Qed.

(** Wrappers *)

Lemma first_argument_app a b n : first_argument (a ++ b) n =
  match first_argument a n with Some w => Some w | None => first_argument b n end.
Proof.
  induction a as [|s a IH]; cbn; [reflexivity|]. destruct (argument s n); auto.
Qed.

Lemma p_get_spec p n : forall d,
  match first_argument (p_strings p) n with
  | Some w => points_at (p_get p n d) w
  | None => p_get p n d = d
  end.
Proof.
  induction p as [s|inner IH dd]; intros d; cbn [p_strings p_get].
  - cbn. pose proof (get_arg_spec s n d). destruct (argument s n); tauto.
  - rewrite first_argument_app. specialize (IH (GetArg dd n d)).
    destruct (first_argument (p_strings inner) n); [auto|].
    rewrite IH. cbn. pose proof (get_arg_spec dd n d). destruct (argument dd n); tauto.
Qed.

Lemma p_shift_spec p k n : 0 <= k -> 1 <= n ->
  first_argument (p_strings (p_shift p k)) n = first_argument (p_strings p) (n + k).
Proof.
  intros. induction p as [s|inner IH d]; cbn [p_shift p_strings].
  - cbn. rewrite argument_Shift; auto.
  - rewrite !first_argument_app, IH. cbn. rewrite argument_Shift; auto.
Qed.


Lemma p_shifts_spec ks : forall p n, Forall (fun k => 0 <= k) ks -> 1 <= n ->
  first_argument (p_strings (p_shifts p ks)) n =
  first_argument (p_strings p) (n + fold_right Z.add 0 ks).
Proof.
  induction ks as [|k ks IH]; intros p n F N; cbn [p_shifts fold_right].
  - rewrite Z.add_0_r. reflexivity.
  - inversion F; subst. rewrite IH by auto.
    assert (0 <= fold_right Z.add 0 ks).
    { clear -H2. induction ks; cbn; [lia|]. inversion H2; subst. specialize (IHks H3). lia. }
    rewrite p_shift_spec by lia. f_equal. lia.
Qed.

(** * BitSet *)
Lemma in_below size x : In x (below size) <-> 0 <= x < Z.of_nat size.
Proof.
  induction size; cbn [below]; [cbn; lia|]. rewrite in_app_iff, IHsize. cbn. lia.
Qed.
Lemma in_members size b x : In x (members size b) <-> 0 <= x < Z.of_nat size /\ Z.testbit b x = true.
Proof. unfold members. rewrite filter_In, in_below. tauto. Qed.

Lemma bs_count_members size b : bs_count size b = Z.of_nat (length (members size b)).
Proof.
  unfold members. induction size; cbn [bs_count below]; [reflexivity|].
  rewrite filter_app, app_length, IHsize. unfold bs_get. cbn [filter].
  destruct (Z.testbit b (Z.of_nat size)); cbn [length]; lia.
Qed.

Lemma bs_next_go_spec size b bit : 0 < size -> forall k i,
  match bs_next_go k size b bit i with
  | Some j => exists i', i <= i' < i + Z.of_nat k /\ j = (bit + i') mod size /\ Z.testbit b j = true /\
       forall i0, i <= i0 < i' -> Z.testbit b ((bit + i0) mod size) = false
  | None => forall i0, i <= i0 < i + Z.of_nat k -> Z.testbit b ((bit + i0) mod size) = false
  end.
Proof.
  intros S. induction k; intros i; cbn [bs_next_go].
  - intros; lia.
  - unfold bs_get. destruct (Z.testbit b ((bit + i) mod size)) eqn:E.
    + exists i. repeat split; try lia; auto; intros; lia.
    + specialize (IHk (i + 1)). destruct (bs_next_go k size b bit (i + 1)).
      * destruct IHk as (i' & A & B & C & D). exists i'. repeat split; try lia; auto.
        intros i0 H. destruct (Z.eq_dec i0 i); [subst; auto|]. apply D. lia.
      * intros i0 H. destruct (Z.eq_dec i0 i); [subst; auto|]. apply IHk. lia.
Qed.

Lemma bs_prev_go_spec size b bit : 0 < size -> forall k i,
  match bs_prev_go k size b bit i with
  | Some j => exists i', i <= i' < i + Z.of_nat k /\ j = (bit + size - i') mod size /\ Z.testbit b j = true /\
       forall i0, i <= i0 < i' -> Z.testbit b ((bit + size - i0) mod size) = false
  | None => forall i0, i <= i0 < i + Z.of_nat k -> Z.testbit b ((bit + size - i0) mod size) = false
  end.
Proof.
  intros S. induction k; intros i; cbn [bs_prev_go].
  - intros; lia.
  - unfold bs_get. destruct (Z.testbit b ((bit + size - i) mod size)) eqn:E.
    + exists i. repeat split; try lia; auto; intros; lia.
    + specialize (IHk (i + 1)). destruct (bs_prev_go k size b bit (i + 1)).
      * destruct IHk as (i' & A & B & C & D). exists i'. repeat split; try lia; auto.
        intros i0 H. destruct (Z.eq_dec i0 i); [subst; auto|]. apply D. lia.
      * intros i0 H. destruct (Z.eq_dec i0 i); [subst; auto|]. apply IHk. lia.
Qed.

Lemma mod_ahead size from x : 0 < size -> 0 <= x < size ->
  (from + ahead size from x) mod size = x.
Proof.
  intros S X. unfold ahead.
  replace (from + (1 + (x - from - 1) mod size)) with ((x - from - 1) mod size + (from + 1)) by lia.
  rewrite Zplus_mod_idemp_l. replace (x - from - 1 + (from + 1)) with x by lia. apply Z.mod_small; auto.
Qed.
Lemma ahead_range size from x : 0 < size -> 1 <= ahead size from x <= size.
Proof. intros. unfold ahead. pose proof (Z.mod_pos_bound (x - from - 1) size H). lia. Qed.
Lemma ahead_of_step size from i : 0 < size -> 1 <= i <= size ->
  ahead size from ((from + i) mod size) = i.
Proof.
  intros. unfold ahead.
  replace ((from + i) mod size - from - 1) with ((from + i) mod size + (- from - 1)) by lia.
  rewrite Zplus_mod_idemp_l. replace (from + i + (- from - 1)) with (i - 1) by lia.
  rewrite Z.mod_small; lia.
Qed.

Lemma bs_next_spec size b bit :
  (members size b = [] -> bs_next size b bit = bit) /\
  (members size b <> [] -> In (bs_next size b bit) (members size b) /\
     forall x, In x (members size b) ->
       ahead (Z.of_nat size) bit (bs_next size b bit) <= ahead (Z.of_nat size) bit x).
Proof.
  destruct size as [|sz].
  { split; intros H; [reflexivity|cbn in H; congruence]. }
  set (size := S sz). assert (S : 0 < Z.of_nat size) by lia.
  unfold bs_next. pose proof (bs_next_go_spec (Z.of_nat size) b bit S size 1) as G.
  destruct (bs_next_go size (Z.of_nat size) b bit 1) as [j|].
  - destruct G as (i' & A & B & C & D). 
    assert (J : In j (members size b)).
    { apply in_members. split; [|auto]. subst j. apply Z.mod_pos_bound; auto. }
    split; [intros H; rewrite H in J; contradiction|]. intros _. split; [auto|].
    intros x X. apply in_members in X. rewrite B, ahead_of_step by lia.
    pose proof (ahead_range (Z.of_nat size) bit x S).
    destruct (Z_le_gt_dec i' (ahead (Z.of_nat size) bit x)); [auto|exfalso].
    specialize (D (ahead (Z.of_nat size) bit x) ltac:(lia)).
    rewrite mod_ahead in D by tauto. destruct X; congruence.
  - split; [auto|]. intros H. exfalso. destruct (members size b) as [|x l] eqn:E; [congruence|].
    assert (X : In x (members size b)) by (rewrite E; left; auto). apply in_members in X.
    pose proof (ahead_range (Z.of_nat size) bit x S).
    specialize (G (ahead (Z.of_nat size) bit x) ltac:(lia)).
    rewrite mod_ahead in G by tauto. destruct X; congruence.
Qed.

Lemma mod_behind size from x : 0 < size -> 0 <= x < size ->
  (from + size - behind size from x) mod size = x.
Proof.
  intros S X. unfold behind.
  pose proof (Z.div_mod (from - x - 1) size ltac:(lia)) as D.
  replace (from + size - (1 + (from - x - 1) mod size)) with
    (x + ((from - x - 1) / size + 1) * size) by lia.
  rewrite Z.mod_add by lia. apply Z.mod_small; auto.
Qed.
Lemma behind_range size from x : 0 < size -> 1 <= behind size from x <= size.
Proof. intros. unfold behind. pose proof (Z.mod_pos_bound (from - x - 1) size H). lia. Qed.
Lemma behind_of_step size from i : 0 < size -> 1 <= i <= size ->
  behind size from ((from + size - i) mod size) = i.
Proof.
  intros. unfold behind.
  pose proof (Z.div_mod (from + size - i) size ltac:(lia)) as D.
  replace (from - (from + size - i) mod size - 1) with
    ((i - 1) + ((from + size - i) / size - 1) * size) by lia.
  rewrite Z.mod_add by lia. rewrite Z.mod_small; lia.
Qed.

Lemma bs_prev_spec size b bit :
  (members size b = [] -> bs_prev size b bit = bit) /\
  (members size b <> [] -> In (bs_prev size b bit) (members size b) /\
     forall x, In x (members size b) ->
       behind (Z.of_nat size) bit (bs_prev size b bit) <= behind (Z.of_nat size) bit x).
Proof.
  destruct size as [|sz].
  { split; intros H; [reflexivity|cbn in H; congruence]. }
  set (size := S sz). assert (S : 0 < Z.of_nat size) by lia.
  unfold bs_prev. pose proof (bs_prev_go_spec (Z.of_nat size) b bit S size 1) as G.
  destruct (bs_prev_go size (Z.of_nat size) b bit 1) as [j|].
  - destruct G as (i' & A & B & C & D).
    assert (J : In j (members size b)).
    { apply in_members. split; [|auto]. subst j. apply Z.mod_pos_bound; auto. }
    split; [intros H; rewrite H in J; contradiction|]. intros _. split; [auto|].
    intros x X. apply in_members in X. rewrite B, behind_of_step by lia.
    pose proof (behind_range (Z.of_nat size) bit x S).
    destruct (Z_le_gt_dec i' (behind (Z.of_nat size) bit x)); [auto|exfalso].
    specialize (D (behind (Z.of_nat size) bit x) ltac:(lia)).
    rewrite mod_behind in D by tauto. destruct X; congruence.
  - split; [auto|]. intros H. exfalso. destruct (members size b) as [|x l] eqn:E; [congruence|].
    assert (X : In x (members size b)) by (rewrite E; left; auto). apply in_members in X.
    pose proof (behind_range (Z.of_nat size) bit x S).
    specialize (G (behind (Z.of_nat size) bit x) ltac:(lia)).
    rewrite mod_behind in G by tauto. destruct X; congruence.
Qed.

Lemma mod_chain sz cur a b x y :
  (cur + a) mod sz = x -> (cur + b) mod sz = y -> x = (y + (a - b)) mod sz.
Proof. intros <- <-. rewrite Zplus_mod_idemp_l. f_equal. lia. Qed.

(** Going to the next member over and over reaches every member. *)
Lemma next_reaches size b : forall m cur x,
  In x (members size b) -> ahead (Z.of_nat size) cur x <= Z.of_nat m ->
  exists k, (1 <= k <= m)%nat /\ Nat.iter k (bs_next size b) cur = x.
Proof.
  induction m; intros cur x X H.
  { apply in_members in X. pose proof (ahead_range (Z.of_nat size) cur x ltac:(lia)). lia. }
  assert (NE : members size b <> []) by (intros E; rewrite E in X; contradiction).
  destruct (proj2 (bs_next_spec size b cur) NE) as [N1 N2].
  set (y := bs_next size b cur) in *.
  destruct (Z.eq_dec x y).
  { exists 1%nat. split; [lia|]. cbn. symmetry. auto. }
  pose proof (N2 x X) as Hx.
  pose proof X as X'. apply in_members in X'. apply in_members in N1.
  assert (SP : 0 < Z.of_nat size) by lia.
  assert (A : ahead (Z.of_nat size) y x <= Z.of_nat m).
  { assert (L : ahead (Z.of_nat size) cur y < ahead (Z.of_nat size) cur x).
    { destruct (Z.eq_dec (ahead (Z.of_nat size) cur y) (ahead (Z.of_nat size) cur x)) as [E|E]; [|lia].
      exfalso. apply n. rewrite <- (mod_ahead (Z.of_nat size) cur x), <- E, mod_ahead; tauto. }
    pose proof (ahead_range (Z.of_nat size) cur y SP).
    pose proof (ahead_range (Z.of_nat size) cur x SP).
    assert (ahead (Z.of_nat size) y x = ahead (Z.of_nat size) cur x - ahead (Z.of_nat size) cur y).
    { rewrite <- (ahead_of_step (Z.of_nat size) y (ahead (Z.of_nat size) cur x - ahead (Z.of_nat size) cur y)) by lia.
      f_equal. apply (mod_chain _ cur); apply mod_ahead; tauto. }
    lia. }
  destruct (IHm y x X A) as (k & K1 & K2). exists (S k). split; [lia|].
  rewrite <- K2. unfold y. clear. induction k; [reflexivity|].
  change (bs_next size b (Nat.iter (S k) (bs_next size b) cur) =
          bs_next size b (Nat.iter k (bs_next size b) (bs_next size b cur))).
  rewrite IHk. reflexivity.
Qed.

Lemma next_cycle size b i j : In i (members size b) -> In j (members size b) ->
  exists k, (1 <= k <= size)%nat /\ Nat.iter k (bs_next size b) i = j.
Proof.
  intros I J. apply next_reaches; auto. apply in_members in J.
  apply ahead_range. lia.
Qed.

Lemma prev_next size b i : In i (members size b) ->
  bs_prev size b (bs_next size b i) = i /\ bs_next size b (bs_prev size b i) = i.
Proof.
  intros I. assert (NE : members size b <> []) by (intros E; rewrite E in I; contradiction).
  pose proof I as I'. apply in_members in I'. assert (S : 0 < Z.of_nat size) by lia.
  set (sz := Z.of_nat size) in *.
  assert (K : forall x y, ahead sz x y = behind sz y x).
  { intros. unfold ahead, behind. reflexivity. }
  split.
  - destruct (proj2 (bs_next_spec size b i) NE) as [N1 N2]. set (y := bs_next size b i) in *.
    destruct (proj2 (bs_prev_spec size b y) NE) as [P1 P2]. set (z := bs_prev size b y) in *.
    fold sz in N2, P2.
    pose proof (P2 i I) as Q. rewrite <- !K in Q.
    (* z is at most as far behind y as i is; if closer, z lies strictly between i and y *)
    apply in_members in N1. pose proof P1 as P1'. apply in_members in P1'. fold sz in N1, P1'.
    destruct (Z.eq_dec z i); [auto|exfalso].
    pose proof (N2 z P1) as Q2.
    pose proof (ahead_range sz i y S). pose proof (ahead_range sz z y S).
    pose proof (ahead_range sz i z S).
    assert (NEQ : ahead sz z y <> ahead sz i y).
    { intros E. apply n. rewrite !K in E.
      rewrite <- (mod_behind sz y z), E, mod_behind; tauto. }
    assert (ahead sz i z = ahead sz i y - ahead sz z y).
    { rewrite <- (ahead_of_step sz i (ahead sz i y - ahead sz z y)) by lia. f_equal.
      assert (Y : (i + ahead sz i y) mod sz = y) by (apply mod_ahead; tauto).
      assert (W : (y + sz - ahead sz z y) mod sz = z) by (rewrite K; apply mod_behind; tauto).
      revert Y W. generalize (ahead sz i y) (ahead sz z y). intros a c Y W.
      rewrite <- W, <- Y.
      replace ((i + a) mod sz + sz - c) with ((i + a) mod sz + (sz - c)) by lia.
      rewrite Zplus_mod_idemp_l.
      replace (i + a + (sz - c)) with ((i + (a - c)) + 1 * sz) by lia.
      apply Z.mod_add. lia. }
    lia.
  - destruct (proj2 (bs_prev_spec size b i) NE) as [N1 N2]. set (y := bs_prev size b i) in *.
    destruct (proj2 (bs_next_spec size b y) NE) as [P1 P2]. set (z := bs_next size b y) in *.
    fold sz in N2, P2. pose proof (P2 i I) as Q.
    apply in_members in N1. pose proof P1 as P1'. apply in_members in P1'. fold sz in N1, P1'.
    destruct (Z.eq_dec z i); [auto|exfalso].
    pose proof (N2 z P1) as Q2. rewrite <- !K in Q2.
    pose proof (ahead_range sz y i S). pose proof (ahead_range sz z i S).
    pose proof (ahead_range sz y z S).
    assert (NEQ : ahead sz y z <> ahead sz y i).
    { intros E. apply n. rewrite <- (mod_ahead sz y z), E, mod_ahead; tauto. }
    assert (ahead sz z i = ahead sz y i - ahead sz y z).
    { rewrite <- (ahead_of_step sz z (ahead sz y i - ahead sz y z)) by lia. f_equal.
      apply (mod_chain _ y); apply mod_ahead; tauto. }
    lia.
Qed.

(** nth *)
Lemma below_split a n : below (a + n) = below a ++ map (fun k => Z.of_nat a + k) (below n).
Proof.
  induction n.
  - rewrite Nat.add_0_r. cbn. rewrite app_nil_r. reflexivity.
  - rewrite Nat.add_succ_r. cbn [below]. rewrite IHn, map_app, app_assoc. cbn.
    do 2 f_equal. lia.
Qed.

Lemma members_ge_split size b i : (i < size)%nat ->
  filter (Z.testbit b) (map (fun k => Z.of_nat i + k) (below (size - i))) =
  (if Z.testbit b (Z.of_nat i) then [Z.of_nat i] else []) ++
  filter (Z.testbit b) (map (fun k => Z.of_nat (S i) + k) (below (size - S i))).
Proof.
  intros H. replace (size - i)%nat with (1 + (size - S i))%nat by lia.
  rewrite below_split, map_app, filter_app, map_map. f_equal.
  - cbn. rewrite Z.add_0_r. destruct (Z.testbit b (Z.of_nat i)); reflexivity.
  - f_equal. apply map_ext. intros. lia.
Qed.

Lemma bs_nth_go_spec size b : forall k i bit,
  (i + k = S size)%nat -> 0 <= bit ->
  bs_nth_go k (Z.of_nat size) b (Z.of_nat i) bit =
  match nth_error (filter (Z.testbit b) (map (fun x => Z.of_nat i + x) (below (size - i)))) (Z.to_nat bit) with
  | Some x => NRes x
  | None => if (k =? 0)%nat then NRes 0 else NOutOfBounds
  end.
Proof.
  induction k; intros i bit H B; cbn [bs_nth_go].
  - replace (size - i)%nat with 0%nat by lia. cbn. destruct (Z.to_nat bit); reflexivity.
  - destruct (Z.geb_spec (Z.of_nat i) (Z.of_nat size)).
    + replace (size - i)%nat with 0%nat by lia. cbn. destruct (Z.to_nat bit); reflexivity.
    + rewrite members_ge_split by lia. unfold bs_get.
      assert (K : (k =? 0)%nat = false) by (apply Nat.eqb_neq; lia).
      replace (Z.of_nat i + 1) with (Z.of_nat (S i)) by lia.
      destruct (Z.testbit b (Z.of_nat i)).
      * destruct (Z.leb_spec bit 0).
        -- replace bit with 0 by lia. reflexivity.
        -- rewrite IHk by lia. replace (Z.to_nat bit) with (S (Z.to_nat (bit - 1))) by lia.
           cbn [app nth_error]. rewrite K. reflexivity.
      * rewrite IHk by lia. cbn [app]. rewrite K. reflexivity.
Qed.

Lemma bs_nth_spec size b n : 0 <= n ->
  bs_nth size b n = match nth_error (members size b) (Z.to_nat n) with
                    | Some x => NRes x | None => NOutOfBounds end.
Proof.
  intros H. unfold bs_nth. change 0 with (Z.of_nat 0).
  rewrite bs_nth_go_spec by lia. rewrite Nat.sub_0_r. unfold members.
  rewrite (map_ext (fun x => Z.of_nat 0 + x) (fun x => x)) by (intros; lia). rewrite map_id.
  reflexivity.
Qed.

(** shift *)
Lemma bs_shift_go_spec size bits : 0 < bits -> forall k b i x,
  0 <= i -> 0 <= x ->
  Z.testbit (bs_shift_go k size b i bits) x =
  if (i <=? x) && (x <? i + Z.of_nat k) then (x + bits <? size) && Z.testbit b (x + bits)
  else Z.testbit b x.
Proof.
  intros HB. induction k; intros b i x I X; cbn [bs_shift_go].
  - destruct (_ && _) eqn:E; [lia|reflexivity].
  - unfold bs_get, bs_set, bs_clear.
    set (c := (i + bits <? size) && Z.testbit b (i + bits)).
    assert (T : forall y, 0 <= y -> Z.testbit (if c then Z.setbit b i else Z.clearbit b i) y =
                if y =? i then c else Z.testbit b y).
    { intros y Y. destruct c.
      - destruct (Z.eqb_spec y i); [subst; apply Z.setbit_eq; lia|apply Z.setbit_neq; lia].
      - destruct (Z.eqb_spec y i); [subst; apply Z.clearbit_eq|apply Z.clearbit_neq; lia]. }
    rewrite IHk by lia. rewrite !T by lia.
    destruct (Z.eqb_spec x i).
    + subst x. destruct (Z.leb_spec (i + 1) i); [lia|]. cbn [andb].
      destruct ((i <=? i) && _) eqn:E; [reflexivity|lia].
    + destruct (Z.eqb_spec (x + bits) i); [|destruct ((i + 1 <=? x) && _) eqn:E1,
        ((i <=? x) && _) eqn:E2; try reflexivity; lia].
      destruct ((i + 1 <=? x) && _) eqn:E1, ((i <=? x) && _) eqn:E2; try reflexivity; lia.
Qed.

Lemma bs_shift_spec size b bits x : 0 <= bits -> 0 <= x < Z.of_nat size ->
  Z.testbit (bs_shift size b bits) x = (x + bits <? Z.of_nat size) && Z.testbit b (x + bits).
Proof.
  intros HB X. unfold bs_shift. destruct (Z.eqb_spec bits 0).
  - subst. rewrite Z.add_0_r. destruct (Z.ltb_spec x (Z.of_nat size)); [reflexivity|lia].
  - rewrite bs_shift_go_spec by lia. destruct ((0 <=? x) && _) eqn:E; [reflexivity|lia].
Qed.

Lemma GetArg_points s n d :
  match argument s n with
  | Some w => points_at (GetArg s n d) w
  | None => GetArg s n d = d
  end.
Proof. pose proof (get_arg_spec s n d) as H. destruct (argument s n); tauto. Qed.

Lemma p_get_shifts p ks n d : Forall (fun k => 0 <= k) ks -> 1 <= n ->
  match first_argument (p_strings p) (n + fold_right Z.add 0 ks) with
  | Some w => points_at (p_get (p_shifts p ks) n d) w
  | None => p_get (p_shifts p ks) n d = d
  end.
Proof.
  intros K N. pose proof (p_get_spec (p_shifts p ks) n d) as H.
  rewrite p_shifts_spec in H by auto. exact H.
Qed.

Lemma bs_set_clear_spec size b i x : 0 <= i < Z.of_nat size ->
  (In x (members size (bs_set b i)) <-> x = i \/ In x (members size b)) /\
  (In x (members size (bs_clear b i)) <-> x <> i /\ In x (members size b)).
Proof.
  intros I. rewrite !in_members. unfold bs_set, bs_clear.
  split; split.
  - intros [R T]. rewrite Z.setbit_eqb in T by lia.
    destruct (Z.eq_dec x i); [left; auto|right]. split; [auto|]. destruct (i =? x) eqn:E; [lia|exact T].
  - intros [->|[R T]]; (split; [lia|]); rewrite Z.setbit_eqb by lia; [rewrite Z.eqb_refl|rewrite T, orb_true_r]; reflexivity.
  - intros [R T]. rewrite Z.clearbit_eqb in T. apply andb_prop in T as [T E].
    split; [|auto]. intros ->. rewrite Z.eqb_refl in E. discriminate.
  - intros [N [R T]]. split; [auto|]. rewrite Z.clearbit_eqb, T.
    destruct (i =? x) eqn:E; [lia|reflexivity].
Qed.

Lemma bs_shift_members size b bits x : 0 <= bits ->
  (In x (members size (bs_shift size b bits)) <-> 0 <= x /\ In (x + bits) (members size b)).
Proof.
  intros B. rewrite !in_members. split.
  - intros [R T]. rewrite bs_shift_spec in T by auto. apply andb_prop in T as [T E]. lia.
  - intros [X [R T]]. split; [lia|]. rewrite bs_shift_spec by lia. rewrite T. lia.
Qed.

(** next is a bijection of the members with a single orbit, so its period is their number. *)
Lemma next_in size b i : In i (members size b) -> In (bs_next size b i) (members size b).
Proof.
  intros H. destruct (bs_next_spec size b i) as [_ N]. apply N. destruct (members size b); [destruct H|discriminate].
Qed.
Lemma iter_next_in size b i k : In i (members size b) -> In (Nat.iter k (bs_next size b) i) (members size b).
Proof. intros H. induction k; [exact H|]. apply next_in. exact IHk. Qed.
Lemma iter_next_inj size b i : In i (members size b) -> forall x y, (x <= y)%nat ->
  Nat.iter x (bs_next size b) i = Nat.iter y (bs_next size b) i -> Nat.iter (y - x) (bs_next size b) i = i.
Proof.
  intros H. induction x; intros y L E.
  - cbn in E. rewrite Nat.sub_0_r. auto.
  - destruct y; [lia|]. cbn [Nat.sub]. apply IHx; [lia|]. cbn [Nat.iter nat_rect] in E.
    change (bs_next size b (Nat.iter x (bs_next size b) i) = bs_next size b (Nat.iter y (bs_next size b) i)) in E.
    apply (f_equal (bs_prev size b)) in E.
    rewrite !(fun k => proj1 (prev_next size b _ (iter_next_in size b i k H))) in E. exact E.
Qed.
Lemma members_NoDup size b : NoDup (members size b).
Proof.
  unfold members. apply NoDup_filter. induction size; cbn [below]; [constructor|].
  apply NoDup_rev in IHsize. rewrite <- (rev_involutive (below size)), <- (rev_involutive [_]), <- rev_app_distr.
  apply NoDup_rev. cbn. constructor; [|exact IHsize]. rewrite <- in_rev, in_below. lia.
Qed.
Lemma least (P : nat -> Prop) (D : forall k, {P k} + {~ P k}) : forall n, P n ->
  exists m, (m <= n)%nat /\ P m /\ forall k, (k < m)%nat -> ~ P k.
Proof.
  intros n. induction n as [n IH] using lt_wf_ind. intros H.
  destruct (existsb (fun k => if D k then true else false) (seq 0 n)) eqn:E.
  - apply existsb_exists in E as (k & K & T). apply in_seq in K. destruct (D k); [|discriminate].
    destruct (IH k ltac:(lia) p) as (m & M1 & M2 & M3). exists m. split; [lia|auto].
  - exists n. split; [lia|]. split; [exact H|]. intros k K PK.
    assert (X : existsb (fun k => if D k then true else false) (seq 0 n) = true).
    { apply existsb_exists. exists k. split; [apply in_seq; lia|]. destruct (D k); [reflexivity|contradiction]. }
    congruence.
Qed.

Lemma iter_plus A (f : A -> A) a b x : Nat.iter (a + b) f x = Nat.iter a f (Nat.iter b f x).
Proof. induction a; [reflexivity|]. cbn. f_equal. exact IHa. Qed.

Lemma next_period size b i : In i (members size b) ->
  Nat.iter (length (members size b)) (bs_next size b) i = i.
Proof.
  intros H. set (P := fun k => Nat.iter (S k) (bs_next size b) i = i).
  destruct (next_cycle size b i i H H) as (k & K & E). destruct k as [|k]; [lia|].
  destruct (least P (fun k => Z.eq_dec _ _) k E) as (m & M1 & M2 & M3).
  set (L := map (fun k => Nat.iter k (bs_next size b) i) (seq 0 (S m))).
  assert (ND : NoDup L).
  { unfold L. clear -H M3. assert (G : forall s n, (s + n <= S m)%nat ->
      NoDup (map (fun k => Nat.iter k (bs_next size b) i) (seq s n))).
    { intros s n. revert s. induction n; intros s L; cbn [seq map]; constructor.
      - intros I. apply in_map_iff in I as (y & Y & I). apply in_seq in I.
        assert (X : Nat.iter (y - s) (bs_next size b) i = i) by (apply iter_next_inj; [auto|lia|auto]).
        destruct (y - s)%nat as [|d] eqn:D; [lia|]. apply (M3 d); [lia|]. exact X.
      - apply IHn. lia. }
    apply G. lia. }
  assert (PER : forall q r, Nat.iter (q * S m + r) (bs_next size b) i = Nat.iter r (bs_next size b) i).
  { induction q; intros r; [reflexivity|]. rewrite (Nat.add_comm (S q * S m) r). cbn [Nat.mul].
    replace (r + (S m + q * S m))%nat with ((q * S m + r) + S m)%nat by lia.
    rewrite (iter_plus _ (bs_next size b) (q * S m + r) (S m)). unfold P in M2. rewrite M2. apply IHq. }
  assert (LEN : length L = length (members size b)).
  { apply Nat.le_antisymm; apply NoDup_incl_length; auto using members_NoDup.
    - intros x X. apply in_map_iff in X as (y & <- & _). apply iter_next_in. exact H.
    - intros x X. destruct (next_cycle size b i x H X) as (y & _ & <-).
      apply in_map_iff. exists (y mod S m)%nat. split.
      + pose proof (Nat.div_mod y (S m) ltac:(lia)) as DM.
        pose proof (PER (y / S m)%nat (y mod S m)%nat) as PP.
        replace (y / S m * S m + y mod S m)%nat with y in PP by lia. symmetry. exact PP.
      + apply in_seq. pose proof (Nat.mod_upper_bound y (S m)). lia. }
  unfold L in LEN. rewrite map_length, seq_length in LEN. rewrite <- LEN. exact M2.
Qed.
Lemma next_full_circle size b i : In i (members size b) ->
  Nat.iter (Z.to_nat (bs_count size b)) (bs_next size b) i = i.
Proof. intros H. rewrite bs_count_members, Nat2Z.id. apply next_period. exact H. Qed.
