From Coq Require Import ZArith List Bool Lia.
From Verif Require Import AdcModel AdcSpec.
Import ListNotations.
Local Open Scope Z_scope.

(** Nobody reads, or exactly one reader does. *)
Definition taken (s : adc) (k : nat) : Prop :=
  busy s = true /\ current s = Some k /\ pending s k /\ converting s = negb (eoc s) /\
  (forall j, j <> k -> pc (readers s j) = Begin \/ pc (readers s j) = Ended) /\
  (pc (readers s k) = Second -> sel s = pin (readers s k)).

Definition ok (s : adc) : Prop := free s \/ exists k, taken s k.

Lemma put_same : forall s k r, put s k r k = r.
Proof. intros. unfold put. now rewrite Nat.eqb_refl. Qed.
Lemma put_other : forall s k r j, j <> k -> put s k r j = readers s j.
Proof. intros. unfold put. destruct (Nat.eqb_spec j k); congruence. Qed.

Lemma loop_taken_wait : forall s k, taken s k -> eoc s = false -> loop s k = s.
Proof.
  intros s k (B & C & P & E & O & S) N. unfold loop, begin.
  destruct P as [P|P]; rewrite P; unfold first; rewrite P, ?N; unfold second; rewrite P, ?N;
    reflexivity.
Qed.

Lemma loop_first : forall s k, taken s k -> eoc s = true -> pc (readers s k) = First ->
  taken (loop s k) k /\ pc (readers (loop s k) k) = Second /\ eoc (loop s k) = false /\
  (forall j, j <> k -> readers (loop s k) j = readers s j) /\
  pin (readers (loop s k) k) = pin (readers s k).
Proof.
  intros s k (B & C & P & E & O & S) N F. unfold loop, begin. rewrite F.
  unfold first. rewrite F, N. unfold second. cbn [readers]. rewrite put_same. cbn [pc eoc].
  split; [|cbn [readers eoc]; rewrite put_same; cbn; repeat split; auto;
           intros; now apply put_other].
  split; [exact B|]. split; [exact C|].
  split; [right; cbn [readers]; now rewrite put_same|]. split; [reflexivity|].
  split; [intros j J; cbn [readers]; rewrite put_other by auto; now apply O|].
  cbn [readers sel]. now rewrite put_same.
Qed.

Lemma loop_second : forall s k, taken s k -> eoc s = true -> pc (readers s k) = Second ->
  free (loop s k) /\ pc (readers (loop s k) k) = Ended /\
  value (readers (loop s k) k) = dr s /\
  (forall j, j <> k -> readers (loop s k) j = readers s j) /\
  pin (readers (loop s k) k) = pin (readers s k).
Proof.
  intros s k (B & C & P & E & O & S) N F. unfold loop, begin. rewrite F.
  unfold first. rewrite F. unfold second. rewrite F, N.
  split; [|cbn [readers]; rewrite put_same; cbn; repeat split; auto;
           intros; now apply put_other].
  split; [reflexivity|]. split; [cbn [converting]; rewrite E, N; reflexivity|].
  split; [reflexivity|]. split; [reflexivity|].
  intros j. cbn [readers]. destruct (Nat.eq_dec j k) as [->|J].
  - rewrite put_same. auto.
  - rewrite put_other by auto. now apply O.
Qed.

Lemma loop_ended : forall s k, pc (readers s k) = Ended -> loop s k = s.
Proof.
  intros s k E. unfold loop, begin. rewrite E. unfold first. rewrite E.
  unfold second. now rewrite E.
Qed.

Lemma start_free : forall s k, free s -> exists s', Start s k = (s', true) /\ taken s' k /\
  pc (readers s' k) = First /\ eoc s' = false /\
  (forall j, j <> k -> readers s' j = readers s j) /\
  pin (readers s' k) = pin (readers s k).
Proof.
  intros s k (B & C & E & N & P). unfold Start. rewrite B. eexists. split; [reflexivity|].
  unfold loop, begin. cbn [readers busy]. rewrite put_same. cbn [pc at_ pullup pin].
  unfold first. cbn [readers]. rewrite put_same. cbn [pc at_ eoc]. rewrite E.
  unfold second. cbn [readers]. rewrite put_same. cbn [pc at_].
  split; [|cbn [readers eoc]; rewrite put_same; cbn; repeat split; auto;
           intros; rewrite put_other by auto; cbn [readers]; now apply put_other].
  split; [reflexivity|]. split; [reflexivity|].
  split; [left; cbn [readers]; now rewrite put_same|].
  split; [reflexivity|].
  split.
  - intros j J. cbn [readers]. rewrite put_other by auto. cbn [readers].
    rewrite put_other by auto. apply P.
  - cbn [readers]. rewrite put_same. cbn. discriminate.
Qed.

Lemma start_busy : forall s k, busy s = true -> Start s k = (s, false).
Proof. intros s k B. unfold Start. now rewrite B. Qed.

Lemma tick_free : forall s v, free s -> tick s v = s.
Proof. intros s v (B & C & _). unfold tick. now rewrite C. Qed.

Lemma tick_taken : forall s v k, taken s k -> taken (tick s v) k /\
  eoc (tick s v) = true /\ readers (tick s v) = readers s /\
  dr (tick s v) = (if eoc s then dr s else v (sel s)).
Proof.
  intros s v k (B & C & P & E & O & S). unfold tick. rewrite E.
  destruct (eoc s) eqn:N; cbn [negb].
  - repeat split; auto. now rewrite E, N.
  - repeat split; auto.
Qed.

Lemma taken_one : forall s j k, taken s j -> taken s k -> j = k.
Proof. intros s j k (_ & A & _) (_ & B & _). congruence. Qed.

(** One step, seen by reader [k] that has started: [ts] are the steps since. *)
Definition seen (s : adc) (k : nat) (c : Z) (ts : list op) : Prop :=
  pin (readers s k) = c /\
  (pc (readers s k) = Begin -> False) /\
  (pc (readers s k) = Second -> eoc s = true -> measured c (dr s) ts) /\
  (pc (readers s k) = Ended -> measured c (value (readers s k)) ts).

Lemma measured_more : forall c x ts o, measured c x ts -> measured c x (ts ++ [o]).
Proof. intros c x ts o (v & I & E). exists v. split; auto. apply in_or_app. now left. Qed.

Lemma loop_ok : forall s j, ok s -> pc (readers s j) <> Begin -> ok (loop s j).
Proof.
  intros s j [F|(k & T)] N.
  - destruct F as (A & B & C & D & E). destruct (E j) as [X|X]; [contradiction|].
    rewrite loop_ended by auto. left. repeat split; auto.
  - destruct (Nat.eq_dec j k) as [->|J].
    + destruct (eoc s) eqn:E.
      * pose proof T as (_ & _ & P & _). destruct P as [P|P].
        -- right. exists k. now apply loop_first.
        -- left. now apply loop_second.
      * rewrite loop_taken_wait by auto. right. now exists k.
    + pose proof T as (_ & _ & _ & _ & O & _). destruct (O j J) as [X|X]; [contradiction|].
      rewrite loop_ended by auto. right. now exists k.
Qed.

Lemma step_ok : forall s o, ok s ->
  (match o with ODone k => pc (readers s k) <> Begin | _ => True end) ->
  exists s' b, step s o = Some (s', b) /\ ok s'.
Proof.
  intros s o O P. destruct o as [k|k|k|v]; cbn [step].
  - destruct O as [F|(j & T)].
    + destruct (start_free s k F) as (s' & E & T & _). rewrite E.
      exists s', true. split; auto. right. now exists k.
    + rewrite start_busy by apply T. exists s, false. split; auto. right. now exists j.
  - unfold Done. eexists _, _. split; [reflexivity|]. now apply loop_ok.
  - unfold turn. destruct O as [F|(j & T)].
    + destruct (start_free s k F) as (s' & E & T & _). rewrite E.
      exists s', true. split; auto. right. now exists k.
    + rewrite start_busy by apply T. pose proof T as (_ & C & PE & _). rewrite C.
      eexists _, _. split; [reflexivity|]. apply loop_ok; [right; now exists j|].
      destruct PE as [X|X]; rewrite X; discriminate.
  - eexists _, _. split; [reflexivity|]. destruct O as [F|(j & T)].
    + rewrite tick_free by auto. now left.
    + right. exists j. now apply tick_taken.
Qed.

Lemma run_ok : forall ops s, ok s -> proper s ops -> exists s', run s ops = Some s' /\ ok s'.
Proof.
  induction ops as [|o ops IH]; intros s O P; cbn [run].
  - now exists s.
  - destruct P as [P1 P2]. destruct (step_ok s o O P1) as (s' & b & E & O').
    rewrite E. apply IH; auto. exact (P2 _ _ E).
Qed.

Lemma loop_seen : forall s j k c ts, ok s -> pc (readers s j) <> Begin -> seen s k c ts ->
  seen (loop s j) k c ts.
Proof.
  intros s j k c ts O N (S1 & S2 & S3 & S4).
  destruct O as [F|(i & T)].
  - destruct F as (A & B & C & D & E). destruct (E j) as [X|X]; [contradiction|].
    rewrite loop_ended by auto. repeat split; auto.
  - destruct (Nat.eq_dec j i) as [->|J].
    2:{ pose proof T as (_ & _ & _ & _ & O & _). destruct (O j J) as [X|X]; [contradiction|].
        rewrite loop_ended by auto. repeat split; auto. }
    destruct (eoc s) eqn:E.
    2:{ rewrite loop_taken_wait by auto. repeat split; auto. congruence. }
    pose proof T as (_ & _ & P & _). destruct P as [P|P].
    + destruct (loop_first s i T E P) as (L1 & L2 & L3 & L4 & L5).
      unfold seen. rewrite L3. destruct (Nat.eq_dec k i) as [->|K].
      * rewrite L2, L5. repeat split; auto; discriminate.
      * rewrite L4 by auto. repeat split; auto; discriminate.
    + destruct (loop_second s i T E P) as (L1 & L2 & L3 & L4 & L5).
      pose proof L1 as (_ & _ & LE & _). unfold seen. rewrite LE.
      destruct (Nat.eq_dec k i) as [->|K].
      * rewrite L2, L3, L5. repeat split; auto; discriminate.
      * rewrite L4 by auto. repeat split; auto; discriminate.
Qed.

Lemma start_seen : forall s j k c ts, free s -> seen s k c ts -> seen (fst (Start s j)) k c ts.
Proof.
  intros s j k c ts F (S1 & S2 & S3 & S4).
  destruct (start_free s j F) as (s' & E & T & P & N & R & PI). rewrite E. cbn [fst].
  unfold seen. rewrite N. destruct (Nat.eq_dec k j) as [->|K].
  - rewrite P, PI. repeat split; auto; discriminate.
  - rewrite R by auto. repeat split; auto; discriminate.
Qed.

Lemma step_seen : forall s o s' b k c ts, ok s ->
  (match o with ODone k => pc (readers s k) <> Begin | _ => True end) ->
  step s o = Some (s', b) -> seen s k c ts -> seen s' k c (ts ++ [o]).
Proof.
  intros s o s' b k c ts O P E S.
  assert (M : seen s k c (ts ++ [o])).
  { destruct S as (S1 & S2 & S3 & S4). repeat split; auto;
      intros; apply measured_more; auto. }
  destruct o as [j|j|j|v]; cbn [step] in E.
  - injection E as E.
    destruct O as [F|(i & T)].
    + pose proof (start_seen s j k c _ F M) as X.
      destruct (Start s j) as [a bb] eqn:SE. cbn [fst] in X. injection E as <- <-. exact X.
    + rewrite start_busy in E by apply T. injection E as <- <-. exact M.
  - unfold Done in E. injection E as <- <-. now apply loop_seen.
  - unfold turn in E. destruct O as [F|(i & T)].
    + pose proof (start_seen s j k c _ F M) as X.
      destruct (start_free s j F) as (a & SE & _). rewrite SE in *.
      injection E as <- <-. exact X.
    + rewrite start_busy in E by apply T. pose proof T as (_ & C & PE & _). rewrite C in E.
      injection E as <- <-. apply loop_seen; auto; [right; now exists i|].
      destruct PE as [X|X]; rewrite X; discriminate.
  - injection E as <- <-. destruct O as [F|(i & T)].
    + now rewrite tick_free.
    + destruct (tick_taken s v i T) as (T1 & T2 & T3 & T4).
      destruct M as (S1 & S2 & S3 & S4). unfold seen. rewrite T3.
      repeat split; auto. intros SC _.
      assert (k = i) as ->.
      { destruct (Nat.eq_dec k i); auto. pose proof T as (_ & _ & _ & _ & OT & _).
        destruct (OT k n) as [X|X]; rewrite X in SC; discriminate. }
      rewrite T4. destruct (eoc s) eqn:EE; [now apply S3|].
      pose proof T as (_ & _ & _ & _ & _ & SL). rewrite (SL SC), S1.
      exists v. split; auto. apply in_or_app. right. now left.
Qed.

Lemma run_seen : forall ops s s' k c ts, ok s -> proper s ops -> run s ops = Some s' ->
  seen s k c ts -> seen s' k c (ts ++ ops).
Proof.
  induction ops as [|o ops IH]; intros s s' k c ts O P R S; cbn [run] in R.
  - injection R as <-. now rewrite app_nil_r.
  - destruct P as [P1 P2]. destruct (step_ok s o O P1) as (s1 & b & E & O').
    rewrite E in R. change (o :: ops) with ([o] ++ ops). rewrite app_assoc.
    apply (IH s1); auto. { exact (P2 _ _ E). }
    exact (step_seen s o s1 b k c ts O P1 E S).
Qed.

Lemma start_true : forall s k s', ok s -> step s (OStart k) = Some (s', true) ->
  free s /\ ok s' /\ seen s' k (pin (readers s k)) [].
Proof.
  intros s k s' O E. cbn [step] in E. injection E as E.
  destruct O as [F|(j & T)]; [|rewrite start_busy in E by apply T; discriminate].
  destruct (start_free s k F) as (a & SE & T & P & N & R & PI). rewrite SE in E.
  injection E as ->. split; auto. split; [right; now exists k|].
  unfold seen. rewrite P, N. repeat split; auto; discriminate.
Qed.

Lemma turn_start : forall s k s', turn s k = Some (s', true) -> Start s k = (s', true).
Proof.
  intros s k s' E. unfold turn in E. destruct (Start s k) as [a b]. destruct b.
  - now injection E as ->.
  - destruct (current a); discriminate.
Qed.

(** ** Waiting for one's turn *)

Lemma wait_free : forall s k times, free s -> exists s', LoopUntilStart s k times = Some s' /\
  taken s' k.
Proof.
  intros s k times F. destruct (start_free s k F) as (s' & E & T & _).
  exists s'. split; auto. destruct times; cbn [LoopUntilStart]; unfold turn; now rewrite E.
Qed.

Lemma turn_taken : forall s k j, taken s j -> turn s k = Some (loop s j, false).
Proof.
  intros s k j T. unfold turn. rewrite start_busy by apply T.
  pose proof T as (_ & C & _). now rewrite C.
Qed.

Lemma wait_second : forall s k j v2 v3 times, taken s j -> pc (readers s j) = Second ->
  exists s', LoopUntilStart s k (v2 :: v3 :: times) = Some s' /\ taken s' k.
Proof.
  intros s k j v2 v3 times T P. cbn [LoopUntilStart]. rewrite (turn_taken s k j T).
  destruct (eoc s) eqn:E.
  - destruct (loop_second s j T E P) as (F & _).
    rewrite tick_free by auto. exact (wait_free _ k (v3 :: times) F).
  - rewrite loop_taken_wait by auto.
    destruct (tick_taken s v2 j T) as (T1 & T2 & T3 & _).
    rewrite (turn_taken _ k j T1).
    destruct (loop_second _ j T1 T2) as (F & _); [now rewrite T3|].
    rewrite tick_free by auto. exact (wait_free _ k times F).
Qed.

Lemma wait_ok : forall s k v0 v1 v2 v3, ok s ->
  exists s', LoopUntilStart s k [v0; v1; v2; v3] = Some s' /\ taken s' k.
Proof.
  intros s k v0 v1 v2 v3 [F|(j & T)]; [now apply wait_free|].
  pose proof T as (_ & _ & P & _). destruct P as [P|P].
  2:{ now apply (wait_second s k j). }
  change (LoopUntilStart s k [v0; v1; v2; v3]) with
    (match turn s k with
     | None => None | Some (s, true) => Some s
     | Some (s, false) => LoopUntilStart (tick s v0) k [v1; v2; v3] end).
  rewrite (turn_taken s k j T).
  destruct (eoc s) eqn:E.
  - destruct (loop_first s j T E P) as (T1 & P1 & E1 & _).
    destruct (tick_taken _ v0 j T1) as (T2 & E2 & R2 & _).
    apply (wait_second _ k j); auto. now rewrite R2.
  - rewrite loop_taken_wait by auto.
    destruct (tick_taken s v0 j T) as (T1 & E1 & R1 & _).
    change (LoopUntilStart (tick s v0) k [v1; v2; v3]) with
      (match turn (tick s v0) k with
       | None => None | Some (s, true) => Some s
       | Some (s, false) => LoopUntilStart (tick s v1) k [v2; v3] end).
    rewrite (turn_taken _ k j T1).
    destruct (loop_first _ j T1 E1) as (T2 & P2 & E2 & _); [now rewrite R1|].
    destruct (tick_taken _ v1 j T2) as (T3 & E3 & R3 & _).
    apply (wait_second _ k j); auto. now rewrite R3.
Qed.

(** ** The style *)

Lemma hang : forall times s k j, taken s j -> j <> k ->
  style_run s (Style (-1) false k) times = None.
Proof.
  induction times as [|v times IH]; intros s k j T J; cbn [style_run];
    unfold style_turn; cbn [started negb sk level]; rewrite start_busy by apply T;
    cbn [level Z.eqb Z.compare].
  - reflexivity.
  - destruct (tick_taken s v j T) as (T1 & _). now apply (IH _ k j).
Qed.

Lemma dead : forall ops s j, taken s j ->
  (forall o, In o ops -> match o with OTurn _ => False | ODone k => k <> j | _ => True end) ->
  proper s ops -> exists s', run s ops = Some s' /\ taken s' j.
Proof.
  induction ops as [|o ops IH]; intros s j T N P; cbn [run].
  - now exists s.
  - destruct P as [P1 P2].
    assert (X : exists s' b, step s o = Some (s', b) /\ taken s' j).
    { pose proof (N o (or_introl eq_refl)) as NO. destruct o as [k|k|k|v]; cbn [step].
      - rewrite start_busy by apply T. eexists _, _. split; [reflexivity|]. exact T.
      - unfold Done. eexists _, _. split; [reflexivity|].
        pose proof T as (_ & _ & _ & _ & O & _). destruct (O k NO) as [X|X]; [contradiction|].
        now rewrite loop_ended.
      - contradiction.
      - eexists _, _. split; [reflexivity|]. now apply tick_taken. }
    destruct X as (s' & b & E & T'). rewrite E. apply (IH s' j T').
    + intros o' I. apply N. now right.
    + exact (P2 _ _ E).
Qed.

Lemma style_ok : forall s k c v0 v1, free s -> pin (readers s k) = c ->
  exists s' f, style_run s (Style (-1) false k) [v0; v1] = Some (s', f) /\
    level f = v1 c * 8 /\ started f = false /\ free s'.
Proof.
  intros s k c v0 v1 F PC.
  destruct (start_free s k F) as (s1 & E1 & T1 & P1 & N1 & R1 & PI1).
  cbn [style_run]. unfold style_turn at 1. cbn [started negb sk level]. rewrite E1.
  cbn [level Z.eqb Z.compare].
  destruct (tick_taken s1 v0 k T1) as (T2 & N2 & R2 & _).
  unfold style_turn at 1. cbn [started negb sk level]. unfold Done at 1.
  destruct (loop_first _ k T2 N2) as (T3 & P3 & N3 & _ & PI3); [now rewrite R2|].
  rewrite P3. cbn [level Z.eqb Z.compare Pos.eqb].
  change (-1 =? -1) with true. cbn iota.
  destruct (tick_taken _ v1 k T3) as (T4 & N4 & R4 & D4). rewrite N3 in D4.
  unfold style_turn. cbn [started negb sk level]. unfold Done.
  destruct (loop_second _ k T4 N4) as (F5 & P5 & V5 & _ & _); [now rewrite R4|].
  rewrite P5, V5. cbn [level].
  assert (SL : dr (tick (loop (tick s1 v0) k) v1) = v1 c).
  { rewrite D4. f_equal. pose proof T3 as (_ & _ & _ & _ & _ & SL). rewrite SL by auto.
    rewrite PI3, R2, PI1. exact PC. }
  rewrite SL. destruct (Z.eqb_spec (v1 c * 8) (-1)); [lia|].
  eexists _, _. split; [reflexivity|]. cbn [level started]. auto.
Qed.

Lemma pending_taken : forall s j, ok s -> pending s j -> taken s j.
Proof.
  intros s j [F|(k & T)] P.
  - destruct F as (_ & _ & _ & _ & F). destruct (F j) as [X|X], P as [Y|Y]; congruence.
  - destruct (Nat.eq_dec j k) as [->|J]; auto.
    pose proof T as (_ & _ & _ & _ & O & _). destruct (O j J) as [X|X], P as [Y|Y]; congruence.
Qed.

Lemma reach_ok : forall s ops s', free s -> proper s ops -> run s ops = Some s' -> ok s'.
Proof.
  intros s ops s' F P R. destruct (run_ok ops s (or_introl F) P) as (x & E & O).
  congruence.
Qed.

Lemma measured_done : forall c x ops k, measured c x (ops ++ [ODone k]) -> measured c x ops.
Proof.
  intros c x ops k (v & I & E). exists v. split; auto.
  apply in_app_or in I. destruct I as [I|[I|[]]]; auto. discriminate.
Qed.
