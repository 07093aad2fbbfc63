From Coq Require Import Arith List Bool ZArith Lia.
From Verif Require Import BfrModel BfrSpec.
Import ListNotations.
Local Open Scope nat_scope.

(** The file is open and the buffer holds the part of it that comes next *)
Definition good (f : list Z) (b : bfr) : Prop :=
  opening b = false /\ fsize b = Some (length f) /\ length (buf b) <= SIZE /\
  buf b = firstn (length (buf b)) (skipn (TELL b) f) /\
  (if do_seek b then buf b = [] /\ popped b = 0 else fpos b = TELL b + length (buf b)).

Lemma skipn_cons : forall (f : list Z) p c r n, firstn (S n) (skipn p f) = c :: r ->
  nth_error f p = Some c /\ r = firstn n (skipn (S p) f).
Proof.
  intros f. induction f as [|x f IH]; intros p c r n H.
  - rewrite skipn_nil in H. discriminate.
  - destruct p as [|p].
    + cbn in H. injection H as <- <-. auto.
    + cbn [skipn] in H. apply IH in H. exact H.
Qed.
Lemma skipn_add : forall (f : list Z) a b, skipn a (skipn b f) = skipn (b + a) f.
Proof. intros f a b. revert f. induction b as [|b IH]; intros f; auto. destruct f; [rewrite !skipn_nil; reflexivity|]. cbn. apply IH. Qed.
Lemma amount_le : forall b, length (buf b) <= SIZE -> amount b <= SIZE - length (buf b).
Proof. intros b H. unfold amount. lia. Qed.
Lemma amount_pos : forall b, length (buf b) < SIZE -> 0 < amount b.
Proof.
  intros b H. unfold amount. pose proof (Nat.mod_upper_bound (popped b + length (buf b)) SIZE ltac:(discriminate)).
  pose proof (Nat.mod_upper_bound (fpos b) 512 ltac:(discriminate)). unfold SIZE in *. lia.
Qed.
Lemma firstn_more : forall (f : list Z) n m, firstn n f ++ firstn m (skipn n f) = firstn (n + m) f.
Proof. intros f. induction f as [|x f IH]; intros [|n] m; cbn; auto. - rewrite firstn_nil. reflexivity. - f_equal. apply IH. Qed.
Lemma firstn_self : forall (f l : list Z) n, l = firstn n f -> l = firstn (length l) f.
Proof. intros f l n ->. rewrite firstn_length. destruct (le_dec n (length f)); [rewrite Nat.min_l by lia; reflexivity|]. rewrite Nat.min_r by lia. rewrite firstn_all2 by lia. symmetry. apply firstn_all2. lia. Qed.

Lemma fill_good : forall f b, good f b -> good f (FillBuffer (Some f) b) /\ TELL (FillBuffer (Some f) b) = TELL b.
Proof.
  intros f b (O & S & L & B & D). unfold FillBuffer.
  destruct (SIZE - length (buf b) =? 0) eqn:E; [split; [repeat split|]; auto|]. rewrite O.
  destruct (BUFATEOF b); [split; [repeat split|]; auto|].
  destruct (do_seek b) eqn:DS.
  - destruct D as [D1 D2]. split; [|reflexivity]. unfold good, TELL. cbn [opening fsize buf fpos do_seek seek_pos popped].
    rewrite D1, D2. repeat split; auto. cbn. lia. cbn. lia.
  - split; [|reflexivity]. set (got := firstn (amount b) (skipn (fpos b) f)).
    assert (G : length got <= SIZE - length (buf b)).
    { unfold got. rewrite firstn_length. pose proof (amount_le b L). lia. }
    unfold good, TELL. cbn [opening fsize buf fpos do_seek seek_pos popped]. fold (TELL b). rewrite app_length.
    repeat split; auto; try lia.
    rewrite <- app_length. apply (firstn_self _ _ (length (buf b) + amount b)).
    rewrite <- firstn_more, <- B. f_equal. unfold got. rewrite D, skipn_add. reflexivity.
Qed.
Lemma take_good : forall f b c b', good f b -> getc b = Some (c, b') ->
  nth_error f (TELL b) = Some c /\ good f b' /\ TELL b' = S (TELL b).
Proof.
  intros f b c b' (O & S & L & B & D) H. unfold getc in H. destruct (buf b) as [|x r] eqn:E; [discriminate|].
  injection H as <- <-. cbn [length] in *. destruct (skipn_cons f (TELL b) x r (length r) (eq_sym B)) as [N R].
  repeat split; auto; unfold TELL; cbn [opening fsize buf fpos do_seek seek_pos popped]; try lia.
  - replace (seek_pos b + Datatypes.S (popped b)) with (Datatypes.S (TELL b)) by (unfold TELL; lia). exact R.
  - destruct (do_seek b); [destruct D; discriminate|]. rewrite D. unfold TELL. lia.
Qed.
Lemma seek_good : forall f b p, good f b -> good f (SEEK p b) /\ TELL (SEEK p b) = p.
Proof.
  intros f b p (O & S & L & B & D). unfold SEEK.
  destruct ((TELL b <? p) && (p - TELL b <? length (buf b))) eqn:E.
  - apply andb_true_iff in E. destruct E as [E1 E2]. apply Nat.ltb_lt in E1. apply Nat.ltb_lt in E2.
    match goal with |- good f ?x /\ _ => set (b2 := x) end.
    assert (T : TELL b2 = p) by (unfold b2, TELL in *; cbn [seek_pos popped]; lia).
    unfold good. rewrite T. unfold b2. cbn [opening fsize buf fpos do_seek seek_pos popped].
    rewrite skipn_length. repeat split; auto; try lia.
    + rewrite B at 1. rewrite skipn_firstn_comm, skipn_add. f_equal. f_equal. lia.
    + destruct (do_seek b); [destruct D as [D _]; rewrite D in E2; cbn in E2; lia|]. lia.
  - unfold good, TELL. cbn. repeat split; auto; lia.
Qed.

Lemma run_follows : forall f ss b, good f b ->
  follows f (TELL b) (snd (run (Some f) b ss)) /\ good f (fst (run (Some f) b ss)) /\
  TELL (fst (run (Some f) b ss)) = place (TELL b) (snd (run (Some f) b ss)).
Proof.
  intros f ss. induction ss as [|s ss IH]; intros b G; cbn [run]; [cbn; auto|]. destruct s as [| |p].
  - destruct (fill_good f b G) as [G' T]. rewrite <- T. apply IH. exact G'.
  - destruct (getc b) as [[c b']|] eqn:E; [|apply IH; auto].
    destruct (take_good f b c b' G E) as (N & G' & T). specialize (IH b' G'). rewrite T in IH.
    destruct (run (Some f) b' ss) as [b'' o]. cbn [fst snd follows place] in *. tauto.
  - destruct (seek_good f b p G) as [G' T]. specialize (IH _ G'). rewrite T in IH.
    destruct (run (Some f) (SEEK p b) ss) as [b'' o]. cbn [fst snd follows place] in *. exact IH.
Qed.
Lemma opened : forall f b, told b -> good f (FillBuffer (Some f) b) /\ TELL (FillBuffer (Some f) b) = 0.
Proof.
  intros f b [O B]. unfold FillBuffer. rewrite B, O. cbn [length Nat.sub Nat.eqb SIZE].
  unfold good, TELL. cbn. repeat split; auto; try lia. destruct (do_seek b); auto.
Qed.
Lemma good_length : forall f b, good f b -> TELL b <= length f -> TELL b + length (buf b) <= length f.
Proof. intros f b (_ & _ & _ & B & _) H. assert (X : length (buf b) <= length (skipn (TELL b) f)) by (rewrite B at 1; rewrite firstn_length; lia). rewrite skipn_length in X. lia. Qed.

(** Filling twice brings something *)
Lemma fill_twice : forall f b, good f b -> buf b = [] -> TELL b < length f ->
  buf (FillBuffer (Some f) (FillBuffer (Some f) b)) <> [].
Proof.
  assert (ONE : forall f b, good f b -> buf b = [] -> do_seek b = false -> TELL b < length f -> buf (FillBuffer (Some f) b) <> []).
  { intros f b (O & S & L & B & D) E DS H. rewrite DS, E in D. cbn in D.
    unfold FillBuffer, BUFATEOF. rewrite O, S, E, DS. cbn [length].
    replace (SIZE - 0 =? 0) with false by reflexivity.
    replace (TELL b + 0 =? length f) with false by (symmetry; apply Nat.eqb_neq; lia). cbn [buf app].
    pose proof (amount_pos b) as A. rewrite E in A. cbn [length] in A. specialize (A ltac:(unfold SIZE; lia)).
    intros X. apply (f_equal (@length Z)) in X. rewrite firstn_length, skipn_length in X. cbn [length] in X. lia. }
  intros f b G E H. destruct (fill_good f b G) as [G1 T1]. destruct (do_seek b) eqn:DS.
  - assert (F : FillBuffer (Some f) b = Bfr false (fsize b) (seek_pos b) false (seek_pos b) (popped b) (buf b)).
    { destruct G as (O & S & L & B & D). unfold FillBuffer, BUFATEOF. rewrite O, S, E, DS. cbn [length].
      replace (SIZE - 0 =? 0) with false by reflexivity.
      replace (TELL b + 0 =? length f) with false by (symmetry; apply Nat.eqb_neq; lia). reflexivity. }
    apply ONE; auto; try (rewrite F; cbn; auto; fail).
  - pose proof (ONE f b G E DS H) as N. set (b1 := FillBuffer (Some f) b) in *.
    destruct G1 as (O & S & L & B & D). unfold FillBuffer. destruct (_ =? 0); auto. rewrite O.
    destruct (BUFATEOF b1); auto. destruct (do_seek b1); auto. cbn [buf]. destruct (buf b1); [congruence|discriminate].
Qed.

Lemma follows_text : forall f o p, follows f p o -> (forall q, ~ In (Sought q) o) -> p <= length f ->
  text o = firstn (length (text o)) (skipn p f) /\ place p o = p + length (text o) /\ place p o <= length f.
Proof.
  intros f o. induction o as [|[c|q] o IH]; intros p H N P.
  - cbn. repeat split; auto; lia.
  - cbn [follows] in H. destruct H as [H1 H2].
    assert (P' : p < length f) by (apply nth_error_Some; congruence).
    destruct (IH (S p) H2) as (A & B & C); [intros q I; apply (N q); right; exact I|lia|].
    change (text (Got c :: o)) with (c :: text o). cbn [place length]. repeat split; try lia.
    assert (SK : skipn p f = c :: skipn (S p) f).
    { clear - H1. revert f H1. induction p as [|p IH]; intros [|x f] H; try discriminate; cbn in *; [congruence|]. apply IH. exact H. }
    rewrite SK. cbn [firstn]. f_equal. exact A.
  - exfalso. apply (N q). left. reflexivity.
Qed.
Lemma run_no_seek : forall file ss b, no_seek ss -> forall q, ~ In (Sought q) (snd (run file b ss)).
Proof.
  intros file ss. induction ss as [|s ss IH]; intros b N q; [intros []|].
  assert (N' : no_seek ss) by (intros p I; apply (N p); right; exact I).
  destruct s as [| |p]; cbn [run].
  - apply IH; auto.
  - destruct (getc b) as [[c b']|]; [|apply IH; auto]. specialize (IH b' N' q). destruct (run file b' ss). cbn in *.
    intros [X|X]; [discriminate|auto].
  - exfalso. apply (N p). left. reflexivity.
Qed.
Lemma place_inside : forall f ss b, good f b -> TELL b <= length f -> seeks_inside f ss ->
  TELL (fst (run (Some f) b ss)) <= length f.
Proof.
  intros f ss. induction ss as [|s ss IH]; intros b G P I; cbn [run]; auto.
  assert (I' : seeks_inside f ss) by (intros p J; apply I; right; exact J). destruct s as [| |p].
  - destruct (fill_good f b G) as [G' T]. apply IH; auto. rewrite T. exact P.
  - destruct (getc b) as [[c b']|] eqn:E; [|apply IH; auto].
    destruct (take_good f b c b' G E) as (N & G' & T). assert (TELL b < length f) by (apply nth_error_Some; congruence).
    specialize (IH b' G' ltac:(lia) I'). destruct (run (Some f) b' ss). exact IH.
  - destruct (seek_good f b p G) as [G' T]. specialize (IH _ G'). rewrite T in IH. specialize (IH (I p (or_introl eq_refl)) I').
    destruct (run (Some f) (SEEK p b) ss). exact IH.
Qed.
Lemma run_app : forall file xs ys b, run file b (xs ++ ys) =
  (fst (run file (fst (run file b xs)) ys), snd (run file b xs) ++ snd (run file (fst (run file b xs)) ys)).
Proof.
  intros file xs ys. induction xs as [|s xs IH]; intros b; cbn [app run].
  - cbn. destruct (run file b ys); reflexivity.
  - destruct s as [| |p].
    + apply IH.
    + destruct (getc b) as [[c b']|]; [|apply IH]. rewrite IH. destruct (run file b' xs). reflexivity.
    + rewrite IH. destruct (run file (SEEK p b) xs). reflexivity.
Qed.
