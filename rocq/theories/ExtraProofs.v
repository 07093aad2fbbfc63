From Coq Require Import List ZArith Bool QArith Lia ZifyBool ZifyNat.
From Verif Require Import ExtraModel ExtraSpec.
Import ListNotations.
Local Open Scope Q_scope.

(** ** Sums *)

Fixpoint tot (f : datum -> Q) (l : list datum) : Q :=
  match l with [] => 0 | d :: l => f d + tot f l end.

Lemma tot_app : forall f a b, tot f (a ++ b) == tot f a + tot f b.
Proof. intros f a b. induction a; cbn; [ring|]. rewrite IHa. ring. Qed.

Definition good (l : line) (w : list datum) : Prop :=
  samples l = Z.of_nat (length w) /\
  sum_t l == tot (fun d => since (t d) (start l)) w /\
  t_square_sum l == tot (fun d => since (t d) (start l) * since (t d) (start l)) w /\
  sum l == tot v w /\
  dot_sum l == tot (fun d => v d * since (t d) (start l)) w.

Lemma good_Start : forall l now, good (Start l now) [].
Proof. intros. repeat split; reflexivity. Qed.

Lemma good_Add : forall l w d, good l w -> good (Add l d) (w ++ [d]).
Proof.
  intros l w d (A & B & C & D & E). unfold good, Add.
  cbn [samples sum_t t_square_sum sum dot_sum start].
  rewrite app_length, !tot_app, B, C, D, E. cbn [tot length].
  split; [lia|]. repeat split; ring.
Qed.

Lemma good_Sub : forall l w d, good l (d :: w) -> good (Sub l d) w.
Proof.
  intros l w d (A & B & C & D & E). unfold good, Sub.
  cbn [samples sum_t t_square_sum sum dot_sum start].
  cbn [tot length] in *. rewrite B, C, D, E.
  split; [lia|]. repeat split; ring.
Qed.

Lemma good_fold : forall ds l w, good l w -> good (fold_left Add ds l) (w ++ ds).
Proof.
  induction ds as [|d ds IH]; intros l w G; cbn [fold_left].
  - now rewrite app_nil_r.
  - specialize (IH _ _ (good_Add l w d G)). now rewrite <- app_assoc in IH.
Qed.

Lemma good_turn : forall l a b, good l (a ++ b) -> good l (b ++ a).
Proof.
  intros l a b (A & B & C & D & E). unfold good. rewrite !app_length in *.
  rewrite !tot_app in *. rewrite B, C, D, E.
  split; [lia|]. repeat split; ring.
Qed.

Lemma fold_start : forall ds l, start (fold_left Add ds l) = start l.
Proof. induction ds; intros l; cbn [fold_left]; auto. rewrite IHds. reflexivity. Qed.

Lemma fold_needs : forall ds l, needs_update l = true \/ ds <> [] ->
  needs_update (fold_left Add ds l) = true.
Proof.
  induction ds as [|d ds IH]; intros l H; cbn [fold_left].
  - now destruct H.
  - apply IH. left. reflexivity.
Qed.

(** ** The ring *)

Definition ring_of (e : extra) : list datum :=
  skipn (entry e + 1) (data e) ++ firstn (entry e + 1) (data e).

Definition next (e : extra) : nat :=
  (if Nat.leb (length (data e)) (entry e + 1) then 0 else entry e + 1)%nat.

Lemma set_nth_length : forall k d l, (k < length l)%nat ->
  length (set_nth k d l) = length l.
Proof.
  intros. unfold set_nth. rewrite app_length. cbn [length].
  rewrite firstn_length, skipn_length. lia.
Qed.

Lemma next_lt : forall e, (entry e < length (data e))%nat ->
  (next e < length (data e))%nat.
Proof. intros e H. unfold next. destruct (Nat.leb_spec (length (data e)) (entry e + 1)); lia. Qed.

Lemma skipn_cons : forall (l : list datum) k d0, (k < length l)%nat ->
  skipn k l = nth k l d0 :: skipn (k + 1) l.
Proof.
  induction l; intros [|k] d0 H; cbn in *; try lia; auto. apply IHl. lia.
Qed.

Lemma ring_head : forall e d0, (entry e < length (data e))%nat ->
  ring_of e = nth (next e) (data e) d0 :: tl (ring_of e).
Proof.
  intros e d0 H. unfold ring_of, next.
  destruct (Nat.leb_spec (length (data e)) (entry e + 1)) as [L|L].
  - rewrite skipn_all2, firstn_all2 by lia. cbn [app].
    destruct (data e); [cbn in H; lia|]. reflexivity.
  - rewrite (skipn_cons (data e) (entry e + 1) d0) by lia. reflexivity.
Qed.

Lemma ring_push : forall e d vs l, (entry e < length (data e))%nat ->
  ring_of (Extra (set_nth (next e) d (data e)) (next e) vs l) = tl (ring_of e) ++ [d].
Proof.
  intros e d vs l H. pose proof (next_lt e H) as N.
  unfold ring_of. cbn [data entry]. unfold set_nth.
  assert (S1 : skipn (next e + 1) (firstn (next e) (data e) ++ d :: skipn (next e + 1) (data e))
               = skipn (next e + 1) (data e)).
  { rewrite skipn_app. rewrite firstn_length.
    rewrite skipn_all2 by (rewrite firstn_length; lia).
    replace (next e + 1 - Nat.min (next e) (length (data e)))%nat with 1%nat by lia.
    reflexivity. }
  assert (F1 : firstn (next e + 1) (firstn (next e) (data e) ++ d :: skipn (next e + 1) (data e))
               = firstn (next e) (data e) ++ [d]).
  { rewrite firstn_app, firstn_length.
    rewrite firstn_all2 by (rewrite firstn_length; lia).
    replace (next e + 1 - Nat.min (next e) (length (data e)))%nat with 1%nat by lia.
    reflexivity. }
  rewrite S1, F1. rewrite app_assoc. f_equal.
  unfold next in *. destruct (Nat.leb_spec (length (data e)) (entry e + 1)) as [L|L].
  - rewrite (skipn_all2 (data e) (n := entry e + 1)) by lia.
    rewrite (firstn_all2 (data e) (n := entry e + 1)) by lia. cbn [firstn app].
    rewrite app_nil_r. destruct (data e); reflexivity.
  - rewrite (skipn_cons (data e) (entry e + 1) (Datum 0 0)) by lia. reflexivity.
Qed.

Lemma ring_length : forall e, length (ring_of e) = length (data e).
Proof.
  intros. unfold ring_of. rewrite app_length, skipn_length, firstn_length. lia.
Qed.

(** ** History *)

Definition dat (p : point) : datum := Datum (fst p) (snd p mod 2 ^ 32).

Definition p0 : point := (0, 0%Z).

Record inv (size : nat) (e : extra) (h : list point) : Prop := {
  i_size : length (data e) = size;
  i_entry : (entry e < size)%nat;
  i_values : values e = Z.of_nat (length h);
  i_window : skipn (size - length h) (ring_of e) = map dat (lastn size h);
  i_good : good (ln e) (map dat (lastn size h));
  i_anchor : h = [] \/ exists a, (a < length h)%nat /\
    start (ln e) = (snd (nth a h p0) mod 2 ^ 32)%Z /\
    (1024 * (length h / 1024) <= a + size)%nat /\
    (a + Nat.min (length h) size <= length h)%nat;
  i_cache : h = [] \/ needs_update (ln e) = true \/
    exists l, needs_update l = true /\ start l = start (ln e) /\
      good l (map dat (lastn size h)) /\ update l = ln e
}.

Lemma lastn_snoc : forall (h : list point) p size, (1 <= size)%nat ->
  lastn size (h ++ [p]) =
  (if Nat.ltb (length h) size then lastn size h else tl (lastn size h)) ++ [p].
Proof.
  intros h p size SZ. unfold lastn. rewrite app_length. cbn [length].
  destruct (Nat.ltb_spec (length h) size) as [L|L].
  - replace (length h + 1 - size)%nat with 0%nat by lia.
    replace (length h - size)%nat with 0%nat by lia. reflexivity.
  - rewrite skipn_app.
    replace (length h + 1 - size - length h)%nat with 0%nat by lia. cbn [skipn].
    f_equal. replace (length h + 1 - size)%nat with (S (length h - size))%nat by lia.
    assert (K : (length h - size < length h)%nat) by lia.
    revert K. generalize (length h - size)%nat. clear.
    induction h as [|x h IH]; intros n K; [cbn in K; lia|].
    destruct n; cbn [skipn tl]; auto. apply IH. cbn in K. lia.
Qed.

Lemma lastn_length : forall (h : list point) size,
  length (lastn size h) = Nat.min (length h) size.
Proof. intros. unfold lastn. rewrite skipn_length. lia. Qed.

Lemma land_1023 : forall n, Z.land (Z.of_nat n) 1023 = Z.of_nat (n mod 1024).
Proof.
  intros. change 1023%Z with (Z.ones 10). rewrite Z.land_ones by lia.
  change (2 ^ 10)%Z with (Z.of_nat 1024). now rewrite Nat2Z.inj_mod.
Qed.

Lemma tl_skip : forall (A : Type) (l : list A) n, skipn n (tl l) = skipn (S n) l.
Proof. intros A [|x l] n; [now rewrite !skipn_nil | reflexivity]. Qed.

Lemma skip_tl : forall (A : Type) n (l : list A), tl (skipn n l) = skipn (S n) l.
Proof.
  induction n; intros [|x l]; auto. change (skipn (S n) (x :: l)) with (skipn n l).
  rewrite IHn. reflexivity.
Qed.

Lemma nth_ring_oldest : forall e d0, (entry e < length (data e))%nat ->
  nth (Nat.modulo (entry e + 1) (length (data e))) (data e) d0 = hd d0 (ring_of e).
Proof.
  intros e d0 H. rewrite (ring_head e d0 H). cbn [hd]. f_equal. unfold next.
  destruct (Nat.leb_spec (length (data e)) (entry e + 1)).
  - replace (entry e + 1)%nat with (length (data e)) by lia.
    apply Nat.mod_same. lia.
  - apply Nat.mod_small. lia.
Qed.

Lemma div_snoc : forall n, (n mod 1024 = 1023)%nat ->
  ((n + 1) / 1024 * 1024 = n + 1)%nat.
Proof.
  intros n H. pose proof (Nat.div_mod n 1024 ltac:(lia)).
  replace (n + 1)%nat with ((n / 1024 + 1) * 1024)%nat by lia.
  now rewrite Nat.div_mul by lia.
Qed.

Lemma div_same : forall n, (n mod 1024 <> 1023)%nat ->
  ((n + 1) / 1024 = n / 1024)%nat.
Proof.
  intros n H. pose proof (Nat.div_mod n 1024 ltac:(lia)).
  pose proof (Nat.mod_upper_bound n 1024 ltac:(lia)).
  symmetry. apply (Nat.div_unique (n + 1) 1024 (n / 1024) (n mod 1024 + 1)); lia.
Qed.

(** What push does to the sums. *)
Lemma push_line : forall size e h p, (1 <= size <= 1024)%nat -> inv size e h ->
  let e' := push e (fst p) (snd p mod 2 ^ 32) in
  let w' := map dat (lastn size (h ++ [p])) in
  length (data e') = size /\ entry e' = next e /\ values e' = (values e + 1)%Z /\
  ring_of e' = tl (ring_of e) ++ [dat p] /\
  good (ln e') w' /\ needs_update (ln e') = true /\
  start (ln e') =
    (if Nat.eqb (length h mod 1024) 1023
     then t (hd (Datum 0 0) (ring_of e'))
     else if Nat.eqb (length h) 0 then snd p mod 2 ^ 32 else start (ln e))%Z.
Proof.
  intros size e h p SZ [I1 I2 I3 I4 I5 I6 I7] e' w'.
  assert (EN : (entry e < length (data e))%nat) by lia.
  pose proof (next_lt e EN) as NL.
  unfold e', push. cbv zeta. fold (next e).
  set (d := Datum (fst p) (snd p mod 2 ^ 32)). change d with (dat p) in *. clear d.
  set (l1 := if (samples (ln e) =? 0)%Z then Start (ln e) (snd p mod 2 ^ 32) else ln e).
  destruct I5 as (G1 & G2). rewrite map_length, lastn_length in G1.
  assert (GL1 : good l1 (map dat (lastn size h)) /\
                start l1 = (if Nat.eqb (length h) 0 then snd p mod 2 ^ 32
                            else start (ln e))%Z).
  { unfold l1. destruct (Z.eqb_spec (samples (ln e)) 0) as [Z0|Z0].
    - assert (h = []) as -> by (destruct h; [auto | cbn [length] in G1; lia]).
      split; [|reflexivity]. unfold lastn. cbn [length skipn map]. apply good_Start.
    - destruct (Nat.eqb_spec (length h) 0); [lia|]. split; auto.
      split; auto. now rewrite map_length, lastn_length. }
  clearbody l1. destruct GL1 as [GL1 ST1].
  rewrite I1.
  set (l2 := if (samples l1 =? Z.of_nat size)%Z
             then Sub l1 (nth (next e) (data e) (Datum 0 0)) else l1).
  assert (GL2 : good l2 (map dat (if Nat.ltb (length h) size then lastn size h
                                  else tl (lastn size h))) /\ start l2 = start l1).
  { unfold l2. pose proof GL1 as (GS & _). rewrite map_length, lastn_length in GS.
    destruct (Z.eqb_spec (samples l1) (Z.of_nat size)) as [Z0|Z0];
      destruct (Nat.ltb_spec (length h) size) as [L|L]; try lia.
    - split; [|reflexivity].
      assert (W : map dat (lastn size h) = ring_of e).
      { rewrite <- I4. replace (size - length h)%nat with 0%nat by lia. reflexivity. }
      rewrite W in GL1. rewrite (ring_head e (Datum 0 0) EN) in GL1.
      apply good_Sub in GL1.
      replace (map dat (tl (lastn size h))) with (tl (ring_of e)); [exact GL1|].
      rewrite <- W. now destruct (lastn size h).
    - split; auto. }
  clearbody l2. destruct GL2 as [GL2 ST2].
  assert (RP : ring_of (Extra (set_nth (next e) (dat p) (data e)) (next e) (values e + 1)
                              (Add l2 (dat p))) = tl (ring_of e) ++ [dat p])
    by now apply ring_push.
  assert (GL3 : good (Add l2 (dat p)) w').
  { unfold w'. rewrite lastn_snoc by lia. rewrite map_app. cbn [map].
    now apply good_Add. }
  set (ds := set_nth (next e) (dat p) (data e)) in *.
  assert (LD : length ds = size) by (unfold ds; rewrite set_nth_length; lia).
  rewrite I3, land_1023.
  replace (Z.of_nat (length h mod 1024) =? 1023)%Z
    with (Nat.eqb (length h mod 1024) 1023)
    by (destruct (Nat.eqb_spec (length h mod 1024) 1023), (Z.eqb_spec (Z.of_nat (length h mod 1024)) 1023); lia).
  cbn [data entry values ln].
  assert (RR : forall l, ring_of (Extra ds (next e) (Z.of_nat (length h) + 1) l) =
               tl (ring_of e) ++ [dat p]).
  { intros l. rewrite <- RP. reflexivity. }
  split; [exact LD|]. split; [reflexivity|]. split; [reflexivity|]. split; [apply RR|].
  split; [|split].
  - destruct (Nat.eqb_spec (length h mod 1024) 1023) as [M|M]; [|apply GL3].
    assert (W' : w' = tl (ring_of e) ++ [dat p]).
    { unfold w'. rewrite lastn_snoc by lia.
      pose proof (Nat.div_mod (length h) 1024 ltac:(lia)).
      rewrite map_app. cbn [map]. f_equal.
      destruct (Nat.ltb_spec (length h) size) as [L|L].
      - rewrite <- I4. replace (size - length h)%nat with 1%nat by lia.
        now destruct (ring_of e).
      - replace (size - length h)%nat with 0%nat in I4 by lia. cbn [skipn] in I4.
        rewrite I4. now destruct (lastn size h). }
    rewrite W', <- (RR (Add l2 (dat p))). unfold ring_of. cbn [data entry].
    apply good_turn. rewrite firstn_skipn.
    match goal with |- good (fold_left Add ds ?l4) _ =>
      apply (good_fold ds l4 [] (good_Start _ _)) end.
  - destruct (Nat.eqb_spec (length h mod 1024) 1023); [|reflexivity].
    apply fold_needs. right. destruct ds; [cbn in LD; lia | discriminate].
  - destruct (Nat.eqb_spec (length h mod 1024) 1023).
    + rewrite fold_start. cbn [start Start]. f_equal.
      pose proof (nth_ring_oldest (Extra ds (next e) 0 l2) (Datum 0 0)) as N.
      cbn [data entry] in N. rewrite LD in N. rewrite N by lia. reflexivity.
    + cbn [start Add]. rewrite ST2, ST1. reflexivity.
Qed.

Lemma inv_push : forall size e h p, (1 <= size <= 1024)%nat -> inv size e h ->
  inv size (push e (fst p) (snd p mod 2 ^ 32)) (h ++ [p]).
Proof.
  intros size e h p SZ I.
  destruct (push_line size e h p SZ I) as (P1 & P2 & P3 & P4 & P5 & P6 & P7).
  destruct I as [I1 I2 I3 I4 I5 I6 I7].
  assert (EN : (entry e < length (data e))%nat) by lia.
  pose proof (next_lt e EN) as NL.
  assert (WN : skipn (size - length (h ++ [p])) (tl (ring_of e) ++ [dat p]) =
               map dat (lastn size (h ++ [p]))).
  { rewrite app_length. cbn [length]. rewrite lastn_snoc by lia. rewrite map_app. cbn [map].
    pose proof (ring_length e) as RL. rewrite (ring_head e (Datum 0 0) EN) in RL.
    cbn [length] in RL.
    rewrite skipn_app.
    replace (size - (length h + 1) - length (tl (ring_of e)))%nat with 0%nat by lia.
    cbn [skipn]. f_equal. rewrite tl_skip.
    destruct (Nat.ltb_spec (length h) size) as [L|L].
    - rewrite <- I4. f_equal. lia.
    - replace (size - length h)%nat with 0%nat in I4 by lia. cbn [skipn] in I4.
      rewrite I4. replace (S (size - (length h + 1)))%nat with 1%nat by lia.
      now destruct (lastn size h). }
  constructor; auto.
  - lia.
  - rewrite P3, I3, app_length. cbn [length]. lia.
  - now rewrite P4.
  - right. rewrite app_length. cbn [length]. rewrite P7.
    destruct (Nat.eqb_spec (length h mod 1024) 1023) as [M|M].
    + pose proof (div_snoc _ M) as DS.
      pose proof (Nat.div_mod (length h) 1024 ltac:(lia)).
      exists (length h + 1 - size)%nat. split; [lia|]. split; [|lia].
      rewrite P4.
      assert (FULL : tl (ring_of e) ++ [dat p] = map dat (lastn size (h ++ [p]))).
      { rewrite <- WN. rewrite app_length. cbn [length].
        replace (size - (length h + 1))%nat with 0%nat by lia. reflexivity. }
      rewrite FULL. unfold lastn. rewrite app_length. cbn [length].
      assert (K : (length h + 1 - size < length (h ++ [p]))%nat)
        by (rewrite app_length; cbn [length]; lia).
      revert K. generalize (length h + 1 - size)%nat. generalize (h ++ [p]). clear.
      induction l as [|x l IH]; intros n K; [cbn in K; lia|].
      destruct n; [reflexivity|]. cbn [skipn nth]. apply IH. cbn in K. lia.
    + rewrite (div_same _ M).
      destruct I6 as [->|(a & A1 & A2 & A3 & A4)].
      * exists 0%nat. cbn [length Nat.eqb app nth]. cbn [Nat.div Nat.divmod fst].
        split; [lia|]. split; [reflexivity|]. change (0 / 1024)%nat with 0%nat. lia.
      * exists a. destruct (Nat.eqb_spec (length h) 0); [lia|].
        split; [lia|]. split; [now rewrite app_nth1 by lia|]. lia.
Qed.

Lemma update_twice : forall l, update (update l) = update l.
Proof.
  intros l. unfold update at 2 3. destruct (needs_update l) eqn:E; cbn [negb].
  - reflexivity.
  - unfold update. now rewrite E.
Qed.

Lemma inv_get : forall size e h now, inv size e h -> inv size (fst (get e now)) h.
Proof.
  intros size e h now [I1 I2 I3 I4 I5 I6 I7].
  unfold get, line_get. cbv zeta. cbn [fst].
  assert (G : good (update (ln e)) (map dat (lastn size h)) /\
              start (update (ln e)) = start (ln e)).
  { unfold update. destruct (needs_update (ln e)); cbn [negb]; [|auto].
    split; [|reflexivity]. exact I5. }
  destruct G as [G1 G2].
  constructor; cbn [data entry values ln]; auto.
  - now rewrite G2.
  - destruct I7 as [->|[N|(l & L1 & L2 & L3 & L4)]]; [auto|right; right..].
    + exists (ln e). repeat split; auto; try apply I5.
    + exists l. split; [auto|]. split; [congruence|]. split; [auto|].
      rewrite <- L4, update_twice. reflexivity.
Qed.

Lemma inv_run : forall ops size e h, (1 <= size <= 1024)%nat -> inv size e h ->
  inv size (fold_left step ops e) (h ++ points ops).
Proof.
  induction ops as [|o ops IH]; intros size e h SZ I; cbn [fold_left points flat_map].
  - now rewrite app_nil_r.
  - destruct o as [x time|time].
    + cbn [app]. change ((x, time) :: flat_map _ ops) with ([(x, time)] ++ points ops).
      rewrite app_assoc. apply IH; auto.
      apply (inv_push size e h (x, time) SZ I).
    + cbn [app]. apply IH; auto. cbn [step]. now apply inv_get.
Qed.

Lemma inv_blank : forall size e, (1 <= size)%nat -> length (data e) = size ->
  (entry e < size)%nat -> samples (ln e) = 0%Z -> values e = 0%Z ->
  sum_t (ln e) = 0 -> t_square_sum (ln e) = 0 -> sum (ln e) = 0 -> dot_sum (ln e) = 0 ->
  inv size e [].
Proof.
  intros. constructor; auto.
  - cbn [length]. rewrite skipn_all2; [reflexivity|]. rewrite ring_length. lia.
  - unfold lastn. cbn [length skipn map]. unfold good. cbn [tot length].
    repeat split; auto; match goal with E : ?x = _ |- ?x == _ => rewrite E; reflexivity end.
Qed.

(** ** The line *)

Lemma tot_total : forall f g w, (forall p, In p w -> f (dat p) == g p) ->
  tot f (map dat w) == total g w.
Proof.
  induction w as [|p w IH]; intros H; cbn [map tot total]; [reflexivity|].
  rewrite H by now left. rewrite IH; [reflexivity|]. intros; apply H; now right.
Qed.

Lemma count_nil : count [] == 0.
Proof. reflexivity. Qed.

Lemma count_cons : forall p w, count (p :: w) == 1 + count w.
Proof.
  intros. unfold count. cbn [length]. rewrite Nat2Z.inj_succ, <- Z.add_1_l, inject_Z_plus.
  reflexivity.
Qed.

Lemma total_time : forall c w,
  total (fun p => inject_Z (snd p)) w == total (fun p => inject_Z (snd p) - c) w + count w * c.
Proof.
  induction w as [|p w IH]; [rewrite count_nil; cbn [total]; ring|]. rewrite count_cons. cbn [total]. rewrite IH. ring.
Qed.

Lemma total_spread : forall c m w,
  total (fun p => (inject_Z (snd p) - m) * (inject_Z (snd p) - m)) w ==
  total (fun p => (inject_Z (snd p) - c) * (inject_Z (snd p) - c)) w
  - 2 * (m - c) * total (fun p => inject_Z (snd p) - c) w
  + count w * (m - c) * (m - c).
Proof.
  induction w as [|p w IH]; [rewrite count_nil; cbn [total]; ring|]. rewrite count_cons. cbn [total]. rewrite IH. ring.
Qed.

Lemma total_joint : forall c m y w,
  total (fun p => (inject_Z (snd p) - m) * (fst p - y)) w ==
  total (fun p => fst p * (inject_Z (snd p) - c)) w
  - y * total (fun p => inject_Z (snd p) - c) w
  - (m - c) * total fst w
  + count w * (m - c) * y.
Proof.
  induction w as [|p w IH]; [rewrite count_nil; cbn [total]; ring|]. rewrite count_cons. cbn [total]. rewrite IH. ring.
Qed.

Lemma count_pos : forall w, w <> [] -> ~ count w == 0.
Proof.
  intros [|p w] H; [congruence|]. unfold count, Qeq. cbn [length]. cbn [Qnum Qden inject_Z]. lia.
Qed.

Lemma line_value : forall l w c now, needs_update l = true -> w <> [] ->
  start l = (c mod 2 ^ 32)%Z -> good l (map dat w) ->
  (forall p, In p w -> (c <= snd p <= now)%Z) -> (c <= now < c + 2 ^ 32)%Z ->
  steep w (slope_ (update l)) /\
  on_line w now (avg (update l) +
    slope_ (update l) * (since (now mod 2 ^ 32) (start_copy (update l)) - avg_t (update l))).
Proof.
  intros l w c now N WN SC (G1 & G2 & G3 & G4 & G5) W NOW.
  assert (SI : forall x, (c <= x <= now)%Z ->
    since (x mod 2 ^ 32) (start l) == inject_Z x - inject_Z c).
  { intros x X. unfold since. rewrite SC, <- Zminus_mod, Z.mod_small by lia.
    unfold Z.sub. rewrite inject_Z_plus, inject_Z_opp. reflexivity. }
  rewrite (tot_total _ (fun p => inject_Z (snd p) - inject_Z c)) in G2
    by (intros p I; cbn [t dat]; apply SI, W, I).
  rewrite (tot_total _ (fun p => (inject_Z (snd p) - inject_Z c) * (inject_Z (snd p) - inject_Z c))) in G3
    by (intros p I; cbn [t dat]; rewrite SI by (apply W, I); reflexivity).
  rewrite (tot_total _ fst) in G4 by (intros p I; reflexivity).
  rewrite (tot_total _ (fun p => fst p * (inject_Z (snd p) - inject_Z c))) in G5
    by (intros p I; cbn [t v dat]; rewrite SI by (apply W, I); reflexivity).
  rewrite map_length in G1.
  assert (CN : inject_Z (samples l) == count w) by (rewrite G1; reflexivity).
  pose proof (count_pos w WN) as CP.
  pose proof (SI now ltac:(lia)) as SN.
  unfold update. rewrite N. cbn [negb]. cbv zeta.
  cbn [avg slope_ avg_t start_copy].
  unfold on_line.
  pose proof (total_time (inject_Z c) w) as TT.
  pose proof (total_spread (inject_Z c) (mean_time w) w) as TS.
  pose proof (total_joint (inject_Z c) (mean_time w) (mean_value w) w) as TJ.
  fold (spread w) in TS. fold (joint w) in TJ.
  assert (MT : mean_time w * count w == total (fun p => inject_Z (snd p)) w)
    by (unfold mean_time; field; exact CP).
  assert (MV : mean_value w * count w == total fst w)
    by (unfold mean_value; field; exact CP).
  assert (MT' : mean_time w - inject_Z c == sum_t l * (1 / inject_Z (samples l))).
  { rewrite CN, G2. unfold mean_time. rewrite TT. field. exact CP. }
  assert (MV' : mean_value w == sum l * (1 / inject_Z (samples l))).
  { rewrite CN, G4. unfold mean_value. field. exact CP. }
  set (i := 1 / inject_Z (samples l)) in *.
  assert (EI : i * count w == 1) by (unfold i; rewrite CN; field; exact CP).
  set (at_ := sum_t l * i) in *.
  assert (EA : at_ * count w == sum_t l).
  { unfold at_. setoid_replace (sum_t l * i * count w) with (sum_t l * (i * count w)) by ring.
    rewrite EI. ring. }
  set (sq := t_square_sum l + at_ * sum_t l - 2 * sum_t l * at_).
  assert (SQ : spread w == sq).
  { unfold sq. rewrite TS, <- G3, <- G2, MT'.
    setoid_replace (count w * at_ * at_) with (at_ * (at_ * count w)) by ring.
    rewrite EA. ring. }
  set (dot := dot_sum l - sum l * at_).
  assert (DT : joint w == dot).
  { unfold dot. rewrite TJ, <- G5, <- G2, <- G4, MT'.
    setoid_replace (count w * at_ * mean_value w) with (mean_value w * (at_ * count w)) by ring.
    rewrite EA. ring. }
  assert (ST : steep w (if Qeq_bool sq 0 then 0 else dot * (1 / sq))).
  { split.
  - intros Z0. rewrite SQ in Z0. apply Qeq_bool_iff in Z0. rewrite Z0. reflexivity.
  - intros NZ. rewrite SQ, DT. rewrite SQ in NZ.
    destruct (Qeq_bool sq 0) eqn:E; [apply Qeq_bool_iff in E; contradiction|].
    field. exact NZ. }
  split; [exact ST|]. exists (if Qeq_bool sq 0 then 0 else dot * (1 / sq)).
  split; [exact ST|].
  rewrite SN, <- MV'.
  assert (MM : inject_Z c + at_ == mean_time w) by (rewrite <- MT'; ring).
  rewrite <- MM. ring.
Qed.

Lemma in_lastn : forall (A : Type) (l : list A) k p d0, In p (lastn k l) ->
  exists i, (length l - k <= i < length l)%nat /\ nth i l d0 = p.
Proof.
  intros A l k p d0 I. unfold lastn in I.
  destruct (In_nth _ _ d0 I) as (j & J & E). rewrite skipn_length in J.
  exists (length l - k + j)%nat. split; [lia|]. rewrite <- E.
  generalize (length l - k)%nat. intros n. clear.
  revert l. induction n; intros [|x l]; cbn [plus skipn nth]; auto.
  - now destruct j.
Qed.

Lemma nth_lastn : forall (A : Type) (l : list A) k i d0,
  (length l - k <= i < length l)%nat -> In (nth i l d0) (lastn k l).
Proof.
  intros A l k i d0 H. unfold lastn.
  replace i with (length l - k + (i - (length l - k)))%nat by lia.
  assert (K : (i - (length l - k) < length (skipn (length l - k) l))%nat)
    by (rewrite skipn_length; lia).
  revert K. generalize (i - (length l - k))%nat. generalize (length l - k)%nat. clear.
  intros n. revert l. induction n; intros [|x l] j K; cbn [plus skipn nth length] in *.
  - lia.
  - apply (nth_In (x :: l)). exact K.
  - lia.
  - now apply IHn.
Qed.

Lemma get_value : forall size e h now, (1 <= size)%nat -> inv size e h -> h <> [] ->
  in_order h -> (forall p, In p h -> (snd p <= now)%Z) ->
  (forall p, In p (lastn (1023 + size) h) -> (now < snd p + 2 ^ 32)%Z) ->
  steep (lastn size h) (slope e) /\
  on_line (lastn size h) now (snd (get e (now mod 2 ^ 32))).
Proof.
  intros size e h now SZ [I1 I2 I3 I4 I5 I6 I7] HN OR LA RE.
  destruct I6 as [?|(a & A1 & A2 & A3 & A4)]; [contradiction|].
  assert (L : exists l, needs_update l = true /\ start l = start (ln e) /\
      good l (map dat (lastn size h)) /\ update l = update (ln e)).
  { destruct I7 as [?|[N|(l & L1 & L2 & L3 & L4)]]; [contradiction|now exists (ln e)|].
    exists l. repeat split; auto; try apply L3. rewrite <- L4. now rewrite update_twice. }
  destruct L as (l & L1 & L2 & L3 & L4).
  unfold slope, line_slope, get, line_get. cbv zeta. cbn [snd]. rewrite <- L4.
  apply (line_value l (lastn size h) (snd (nth a h p0)) now); auto.
  - intros E. pose proof (lastn_length h size) as LL. rewrite E in LL.
    destruct h; [contradiction|]. cbn [length] in LL. lia.
  - now rewrite L2.
  - intros p P. destruct (in_lastn _ _ _ _ p0 P) as (i & Hi & <-).
    split; [apply OR; lia|]. apply LA, nth_In. lia.
  - split; [apply LA, nth_In; lia|]. apply RE, nth_lastn.
    pose proof (Nat.div_mod (length h) 1024 ltac:(lia)).
    pose proof (Nat.mod_upper_bound (length h) 1024 ltac:(lia)). lia.
Qed.

(** ** What the line means *)

Lemma total_ext : forall f g w, (forall p, In p w -> f p == g p) -> total f w == total g w.
Proof.
  induction w as [|p w IH]; intros H; cbn [total]; [reflexivity|].
  rewrite (H p) by now left. rewrite IH; [reflexivity|]. intros; apply H; now right.
Qed.

Lemma total_line : forall a b w, (forall p, In p w -> fst p == a + b * inject_Z (snd p)) ->
  total fst w == a * count w + b * total (fun p => inject_Z (snd p)) w.
Proof.
  induction w as [|p w IH]; intros H; [cbn [total]; change (count []) with 0; ring|]. rewrite count_cons. cbn [total].
  assert (E := H p (or_introl eq_refl)). rewrite E.
  rewrite IH by (intros; apply H; now right). ring.
Qed.

Lemma total_scale : forall k f w, total (fun p => k * f p) w == k * total f w.
Proof. induction w as [|p w IH]; cbn [total]; [ring|]. rewrite IH. ring. Qed.

Lemma on_line_exact : forall w now y a b, w <> [] -> ~ spread w == 0 ->
  (forall p, In p w -> fst p == a + b * inject_Z (snd p)) ->
  on_line w now y -> y == a + b * inject_Z now.
Proof.
  intros w now y a b WN SP H (m & [_ M] & Y).
  pose proof (count_pos w WN) as CP.
  assert (MV : mean_value w == a + b * mean_time w).
  { unfold mean_value, mean_time. rewrite (total_line a b w H). field. exact CP. }
  assert (J : joint w == b * spread w).
  { unfold joint, spread. rewrite <- total_scale. apply total_ext.
    intros p P. rewrite (H p P), MV. ring. }
  specialize (M SP). rewrite J in M. apply Qmult_inj_r in M; auto.
  rewrite Y, MV, M. ring.
Qed.

Lemma on_line_const : forall w now y a, w <> [] ->
  (forall p, In p w -> fst p == a) -> on_line w now y -> y == a.
Proof.
  intros w now y a WN H (m & [M0 M] & Y).
  pose proof (count_pos w WN) as CP.
  assert (MV : mean_value w == a).
  { unfold mean_value. rewrite (total_line a 0 w) by (intros p P; rewrite (H p P); ring).
    field. exact CP. }
  assert (MZ : m == 0).
  { destruct (Qeq_dec (spread w) 0) as [Z0|NZ]; [auto|].
    specialize (M NZ).
    assert (J : joint w == 0).
    { unfold joint. rewrite (total_ext _ (fun _ => 0 * 0)).
      - rewrite total_scale. ring.
      - intros p P. rewrite (H p P), MV. ring. }
    rewrite J in M. apply Qmult_integral in M. now destruct M. }
  rewrite Y, MV, MZ. ring.
Qed.

Lemma square_nonneg : forall x : Q, 0 <= x * x.
Proof.
  intros x. destruct (Qlt_le_dec x 0).
  - setoid_replace (x * x) with ((- x) * (- x)) by ring.
    apply Qmult_le_0_compat; apply (Qopp_le_compat x 0); now apply Qlt_le_weak.
  - now apply Qmult_le_0_compat.
Qed.

Lemma total_nonneg : forall f w, (forall p : point, 0 <= f p) -> 0 <= total f w.
Proof.
  induction w; intros H; cbn [total]; [apply Qle_refl|].
  rewrite <- (Qplus_0_l 0). apply Qplus_le_compat; auto.
Qed.

Lemma total_zero : forall f w, (forall p : point, 0 <= f p) -> total f w == 0 ->
  forall p, In p w -> f p == 0.
Proof.
  induction w as [|q w IH]; intros H Z0 p P; [destruct P|]. cbn [total] in Z0.
  pose proof (H q) as Hq. pose proof (total_nonneg f w H) as Hw.
  destruct P as [->|P].
  - apply Qle_antisym; auto. rewrite <- Z0. rewrite <- (Qplus_0_r (f p)) at 1.
    apply Qplus_le_compat; auto. apply Qle_refl.
  - apply IH; auto. apply Qle_antisym; auto. rewrite <- Z0.
    rewrite <- (Qplus_0_l (total f w)) at 1. apply Qplus_le_compat; auto. apply Qle_refl.
Qed.

(** Two different times give some spread. *)
Lemma spread_two : forall w p q, In p w -> In q w -> snd p <> snd q -> ~ spread w == 0.
Proof.
  intros w p q P Q' NE Z0.
  assert (A : forall r, In r w -> inject_Z (snd r) == mean_time w).
  { intros r R. pose proof (total_zero _ w (fun _ => square_nonneg _) Z0 r R) as E.
    cbn beta in E. apply Qmult_integral in E.
    assert (inject_Z (snd r) - mean_time w == 0) as D by now destruct E.
    rewrite <- (Qplus_0_l (mean_time w)), <- D. ring. }
  apply NE. apply inject_Z_injective. rewrite (A p P), (A q Q'). reflexivity.
Qed.

(** ** Ready, and the newest *)

Lemma inv_empty : forall size e, (1 <= size)%nat -> empty size e -> inv size e [].
Proof.
  intros size e SZ (E1 & E2 & E3 & E4 & E5 & E6 & E7 & E8).
  apply inv_blank; auto.
Qed.

Lemma last_skipn : forall (A : Type) n (l : list A) d0, (n < length l)%nat ->
  last (skipn n l) d0 = last l d0.
Proof.
  induction n; intros [|x l] d0 H; cbn [length] in H; try lia; auto.
  cbn [skipn]. rewrite IHn by lia. destruct l; [cbn in H; lia|reflexivity].
Qed.

Lemma first_snoc : forall (l : list datum) k d0, (k < length l)%nat ->
  firstn (k + 1) l = firstn k l ++ [nth k l d0].
Proof.
  induction l; intros [|k] d0 H; cbn in H; try lia; auto.
  cbn [plus firstn nth app]. f_equal. apply IHl. lia.
Qed.

Lemma ring_last : forall e d0, (entry e < length (data e))%nat ->
  last (ring_of e) d0 = nth (entry e) (data e) d0.
Proof.
  intros e d0 H. unfold ring_of. rewrite (first_snoc _ _ d0 H), app_assoc. apply last_last.
Qed.

Lemma last_map : forall (l : list point) d0, l <> [] ->
  last (map dat l) d0 = dat (last l p0).
Proof.
  induction l as [|x l IH]; intros d0 H; [contradiction|].
  destruct l; [reflexivity|]. cbn [map last]. apply IH. discriminate.
Qed.

Lemma inv_newest : forall size e h, (1 <= size)%nat -> inv size e h -> h <> [] ->
  newest e = fst (last h p0).
Proof.
  intros size e h SZ [I1 I2 I3 I4 I5 I6 I7] HN.
  assert (HL : (1 <= length h)%nat) by (destruct h; [contradiction|cbn [length]; lia]).
  unfold newest. rewrite <- ring_last by lia.
  rewrite <- (last_skipn _ (size - length h)) by (rewrite ring_length; lia).
  rewrite I4, last_map.
  - cbn [v dat]. unfold lastn. now rewrite last_skipn by lia.
  - intros E. pose proof (lastn_length h size) as LL. rewrite E in LL. cbn [length] in LL. lia.
Qed.

Lemma inv_ready : forall size e h, inv size e h ->
  ready e = Nat.leb size (length h).
Proof.
  intros size e h [I1 I2 I3 I4 (G & _) I6 I7]. unfold ready.
  rewrite G, map_length, lastn_length, I1.
  destruct (Z.eqb_spec (Z.of_nat (Nat.min (length h) size)) (Z.of_nat size)),
    (Nat.leb_spec size (length h)); lia.
Qed.

Lemma steep_same : forall w m m', steep w m -> steep w m' -> m == m'.
Proof.
  intros w m m' [A B] [A' B']. destruct (Qeq_dec (spread w) 0) as [Z0|NZ].
  - rewrite (A Z0), (A' Z0). reflexivity.
  - apply (Qmult_inj_r _ _ (spread w) NZ). now rewrite (B NZ), (B' NZ).
Qed.

Lemma on_line_same : forall w now y y', on_line w now y -> on_line w now y' -> y == y'.
Proof.
  intros w now y y' (m & S1 & Y) (m' & S2 & Y'). rewrite Y, Y', (steep_same w m m' S1 S2).
  reflexivity.
Qed.
