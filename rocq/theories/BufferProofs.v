From Coq Require Import ZArith List Bool Lia ZifyBool ZifyNat.
From Verif Require Import Machine BufferModel BufferSpec.
Import ListNotations.
Open Scope Z_scope.

(** ** Modular indices *)
Section Mod.
  Variable N : Z.
  Hypothesis N0 : 0 < N.
  Lemma mod_inj a i j : 0 <= i < N -> 0 <= j < N -> (a + i) mod N = (a + j) mod N -> i = j.
  Proof.
    intros I J E. pose proof (Z.div_mod (a + i) N). pose proof (Z.div_mod (a + j) N).
    assert (i - j = N * ((a + i) / N - (a + j) / N)) by lia.
    assert ((a + i) / N - (a + j) / N = 0) by nia. nia.
  Qed.
  Lemma mod_small_add a t : 0 <= t -> a mod N + t < N -> (a + t) mod N = a mod N + t.
  Proof.
    intros T L. pose proof (Z.mod_pos_bound a N N0). rewrite <- Zplus_mod_idemp_l. apply Z.mod_small. lia.
  Qed.
  Hypothesis DIV : W mod N = 0.
  Lemma modW x : (x mod W) mod N = x mod N.
  Proof.
    pose proof (Z.div_mod W N). pose proof (Z.div_mod x W). assert (W <> 0) by (unfold W; lia).
    rewrite DIV in H. replace (x mod W) with (x + (- (W / N * (x / W))) * N) by nia. apply Z_mod_plus_full.
  Qed.
End Mod.

Lemma upd_same m i x : upd m i x i = x. Proof. unfold upd. rewrite Z.eqb_refl. reflexivity. Qed.
Lemma upd_other m i x j : j <> i -> upd m i x j = m j. Proof. unfold upd. intros. replace (j =? i) with false by lia. reflexivity. Qed.
Lemma write_at_out xs : forall m i j, j < i \/ i + Z.of_nat (length xs) <= j -> write_at m i xs j = m j.
Proof.
  induction xs as [|x xs IH]; intros m i j H; [reflexivity|]. cbn [write_at length] in *. rewrite IH by lia. apply upd_other. lia.
Qed.
Lemma write_at_in xs : forall m i t, (t < length xs)%nat -> write_at m i xs (i + Z.of_nat t) = nth t xs 0.
Proof.
  induction xs as [|x xs IH]; intros m i t H; [cbn in H; lia|]. cbn [write_at length] in *. destruct t as [|t].
  - rewrite write_at_out by lia. replace (i + Z.of_nat 0) with i by lia. apply upd_same.
  - replace (i + Z.of_nat (S t)) with (i + 1 + Z.of_nat t) by lia. cbn [nth]. apply IH. lia.
Qed.
Lemma read_at_length m n : forall i, length (read_at m i n) = n.
Proof. induction n; intros; cbn; auto. Qed.
Lemma read_at_nth m n : forall i t, (t < n)%nat -> nth t (read_at m i n) 0 = m (i + Z.of_nat t).
Proof.
  induction n as [|n IH]; intros i t H; [lia|]. destruct t; cbn [read_at nth]; [f_equal; lia|]. rewrite IH by lia. f_equal. lia.
Qed.
Lemma nth_firstn_lt (l : list Z) : forall n t, (t < n)%nat -> nth t (firstn n l) 0 = nth t l 0.
Proof. induction l as [|x l IH]; intros [|n] [|t] H; cbn; try lia; auto. apply IH. lia. Qed.

(** lia with every [_ mod _] taken as an unknown. *)
Ltac mlia := solve [
  repeat match goal with
  | |- context [?a mod ?b] => let x := fresh "m" in set (x := a mod b) in *; clearbody x
  | H : context [?a mod ?b] |- _ => let x := fresh "m" in set (x := a mod b) in *; clearbody x
  end; lia ].
Section Ring.
  Variable SIZE : Z.
  Hypothesis S0 : 0 < SIZE.
  Hypothesis S1 : SIZE < W.
  Hypothesis SDIV : W mod SIZE = 0.
  Definition holds (r : ring) (q : list Z) : Prop :=
    0 <= first r < W /\ 0 <= last r < W /\ Z.of_nat (length q) <= SIZE /\
    first r = (last r + Z.of_nat (length q)) mod W /\
    forall i, (i < length q)%nat -> data r ((last r + Z.of_nat i) mod SIZE) = nth i q 0.

  Lemma holds_size r q : holds r q -> size r = Z.of_nat (length q).
  Proof.
    intros (F & L & B & E & _). unfold size. rewrite E, Zminus_mod_idemp_l.
    replace (last r + Z.of_nat (length q) - last r) with (Z.of_nat (length q)) by mlia. apply Z.mod_small. mlia.
  Qed.
  Lemma holds_space r q : holds r q -> space_available SIZE r = SIZE - Z.of_nat (length q).
  Proof. intros H. unfold space_available. rewrite (holds_size _ _ H). destruct H as (_ & _ & B & _). apply Z.mod_small. mlia. Qed.

  Lemma holds_fill r q ys : holds r q -> Z.of_nat (length ys) <= SIZE - Z.of_nat (length q) ->
    Z.of_nat (length ys) <= SIZE - first r mod SIZE ->
    holds (push (Ring (write_at (data r) (first r mod SIZE) ys) (first r) (last r)) (Z.of_nat (length ys))) (q ++ ys).
  Proof.
    intros (F & L & B & E & D) K1 K2. unfold holds, push. cbn [data first last]. rewrite app_length.
    assert (FM : forall t, 0 <= t -> t < Z.of_nat (length ys) -> (last r + (Z.of_nat (length q) + t)) mod SIZE = first r mod SIZE + t).
    { intros t T1 T2. rewrite E. rewrite modW by assumption. rewrite E, modW in K2 by assumption.
      rewrite <- mod_small_add by mlia. f_equal. mlia. }
    repeat split; try mlia; try (apply Z.mod_pos_bound; unfold W; mlia).
    - rewrite E, Zplus_mod_idemp_l. f_equal. mlia.
    - intros i I. destruct (Nat.lt_ge_cases i (length q)) as [C|C].
      + rewrite app_nth1 by mlia. rewrite <- D by mlia. apply write_at_out.
        pose proof (Z.mod_pos_bound (last r + Z.of_nat i) SIZE S0).
        destruct (Z.lt_ge_cases ((last r + Z.of_nat i) mod SIZE) (first r mod SIZE)) as [C1|C1]; [mlia|right].
        destruct (Z.lt_ge_cases ((last r + Z.of_nat i) mod SIZE) (first r mod SIZE + Z.of_nat (length ys))) as [C2|C2]; [|mlia].
        exfalso. assert (Z.of_nat i = Z.of_nat (length q) + ((last r + Z.of_nat i) mod SIZE - first r mod SIZE)); [|mlia].
        apply (mod_inj SIZE S0 (last r)); try mlia. rewrite FM by mlia. mlia.
      + rewrite app_nth2 by mlia. replace (Z.of_nat i) with (Z.of_nat (length q) + Z.of_nat (i - length q)) by mlia.
        rewrite FM by mlia. apply write_at_in. mlia.
  Qed.
  Lemma holds_take r q k : holds r q -> (k <= length q)%nat -> Z.of_nat k <= SIZE - last r mod SIZE ->
    read_at (data r) (last r mod SIZE) k = firstn k q /\ holds (pop r (Z.of_nat k)) (skipn k q).
  Proof.
    intros (F & L & B & E & D) K1 K2. split.
    - apply nth_ext with (d := 0) (d' := 0); [rewrite read_at_length, firstn_length; mlia|].
      rewrite read_at_length. intros t T. rewrite read_at_nth by mlia. rewrite nth_firstn_lt by mlia. rewrite <- D by mlia.
      rewrite mod_small_add by mlia. reflexivity.
    - unfold holds, pop. cbn [data first last]. rewrite skipn_length.
      repeat split; try mlia; try (apply Z.mod_pos_bound; unfold W; mlia).
      + rewrite Zplus_mod_idemp_l. rewrite E. f_equal. mlia.
      + intros i I. rewrite <- Zplus_mod_idemp_l, modW, Zplus_mod_idemp_l by assumption.
        replace (last r + Z.of_nat k + Z.of_nat i) with (last r + Z.of_nat (k + i)) by mlia. rewrite D by mlia.
        rewrite <- (firstn_skipn k q) at 1. rewrite app_nth2 by (rewrite firstn_length; mlia). f_equal. rewrite firstn_length. mlia.
  Qed.

  Lemma ring_ok ops : forall r q, holds r q -> fifo_ok (Z.to_nat SIZE) q ops (run_outs (ring_step SIZE) r ops).
  Proof.
    induction ops as [|o ops IH]; intros r q H; [exact I|].
    pose proof (holds_size _ _ H) as HS. pose proof (holds_space _ _ H) as HP.
    pose proof (Z.mod_pos_bound (first r) SIZE S0). pose proof (Z.mod_pos_bound (last r) SIZE S0).
    assert (B : Z.of_nat (length q) <= SIZE) by apply H.
    destruct o; cbn [run_outs ring_step fifo_ok].
    - set (k := Nat.min (length xs) (Z.to_nat (continuous_space SIZE r))).
      assert (K : Z.of_nat k <= SIZE - Z.of_nat (length q) /\ Z.of_nat k <= SIZE - first r mod SIZE).
      { unfold k, continuous_space. rewrite HP. mlia. }
      split.
      + split; [mlia|]. split; [mlia|]. intros X1 X2. unfold k, continuous_space. rewrite HP. destruct xs; [congruence|]. cbn [length]. mlia.
      + apply IH. assert (LK : length (firstn k xs) = k) by (rewrite firstn_length; mlia).
        pose proof (holds_fill r q (firstn k xs) H) as HF. rewrite LK in HF. apply HF; mlia.
    - set (k := Nat.min n (Z.to_nat (continuous_data SIZE r))).
      assert (K : (k <= length q)%nat /\ Z.of_nat k <= SIZE - last r mod SIZE).
      { unfold k, continuous_data. rewrite HS. mlia. }
      destruct (holds_take r q k H) as (R & H'); [mlia|mlia|]. rewrite R. split.
      + rewrite firstn_length. split; [mlia|]. intros N1 Q1. unfold k, continuous_data. rewrite HS. destruct q; [congruence|]. cbn [length]. mlia.
      + exists (skipn k q). split; [symmetry; apply firstn_skipn|]. apply IH, H'.
    - rewrite HP. destruct (SIZE - Z.of_nat (length q) =? 0) eqn:C.
      + split; [replace (length q <? Z.to_nat SIZE)%nat with false by mlia; reflexivity|]. cbn [firstn]. rewrite app_nil_r. apply IH, H.
      + split; [replace (length q <? Z.to_nat SIZE)%nat with true by mlia; reflexivity|]. cbn [firstn].
        apply IH. apply (holds_fill r q [x] H); cbn [length]; mlia.
    - rewrite HS. destruct (Z.of_nat (length q) =? 0) eqn:C.
      + assert (q = []) by (destruct q; [reflexivity|cbn in C; mlia]). subst q. split; [reflexivity|]. apply IH, H.
      + destruct (holds_take r q 1 H) as (R & H'); [mlia|mlia|]. split; [exact R|]. apply IH, H'.
    - split; [exact HS|]. apply IH, H.
  Qed.
End Ring.

(** ** BufferedAudioStream *)
Section AStream.
  Variable N : Z.
  Hypothesis N0 : 0 < N.
  Hypothesis N1 : N < W.
  Hypothesis NDIV : W mod N = 0.
  (** [q]: samples published (between the two counters); [pend]: stored but not yet
      published; [seen]: how many of [q] the consumer has copied. *)
  Definition ainv (s : astream) (q pend : list Z) (seen : nat) : Prop :=
    0 <= buf_start s < W /\ Z.of_nat (length q) + Z.of_nat (length pend) <= N /\
    buf_end s = (buf_start s + Z.of_nat (length q)) mod W /\
    (forall i, (i < length q)%nat -> buffer s ((buf_start s + Z.of_nat i) mod N) = nth i q 0) /\
    match prod s with
    | PIdle => pend = []
    | PFilling e r g => e = buf_end s mod N /\ g = Z.of_nat (length pend) /\ 0 <= r /\ g <= r /\ r <= N - e /\
        Z.of_nat (length q) + r <= N /\
        (forall i, (i < length pend)%nat -> buffer s (e + Z.of_nat i) = nth i pend 0)
    end /\
    match cons s with
    | CIdle => seen = 0%nat
    | CCopying p c d => p = buf_start s mod N /\ d = Z.of_nat seen /\ d <= c /\ c <= Z.of_nat (length q) /\ c <= N - p
    end.

  Lemma astream_ok es : forall s q pend seen, ainv s q pend seen ->
    exists left, skipn seen q ++ pend ++ stored (run_outs (astream_step N) s es) = received (run_outs (astream_step N) s es) ++ left /\
      Z.of_nat (length left) <= N /\
      let f := run_state (astream_step N) s es in
      (prod f = PIdle -> cons f = CIdle -> (buf_end f - buf_start f) mod W = Z.of_nat (length left)).
  Proof.
    induction es as [|e es IH]; intros s q pend seen H.
    - exists (skipn seen q ++ pend). cbn [run_outs run_state stored received app]. rewrite app_nil_r. split; [reflexivity|].
      destruct H as (BS & LEN & BE & D & P & C). rewrite app_length, skipn_length. split; [mlia|].
      cbv zeta. intros PI CI. rewrite PI in P. rewrite CI in C. subst. rewrite BE, Zminus_mod_idemp_l. cbn [length].
      replace (buf_start s + Z.of_nat (length q) - buf_start s) with (Z.of_nat (length q)) by mlia. rewrite Z.mod_small by mlia. mlia.
    - pose proof H as (BS & LEN & BE & D & P & C).
      assert (BUF : (buf_end s - buf_start s) mod W = Z.of_nat (length q)).
      { rewrite BE, Zminus_mod_idemp_l. replace (buf_start s + Z.of_nat (length q) - buf_start s) with (Z.of_nat (length q)) by mlia. apply Z.mod_small. mlia. }
      pose proof (Z.mod_pos_bound (buf_end s) N N0). pose proof (Z.mod_pos_bound (buf_start s) N N0).
      assert (quiet : astream_step N s e = (s, Quiet) ->
        exists left, skipn seen q ++ pend ++ stored (run_outs (astream_step N) s (e :: es)) = received (run_outs (astream_step N) s (e :: es)) ++ left /\
        Z.of_nat (length left) <= N /\ let f := run_state (astream_step N) s (e :: es) in
        (prod f = PIdle -> cons f = CIdle -> (buf_end f - buf_start f) mod W = Z.of_nat (length left))).
      { intros Q. cbn [run_outs run_state]. rewrite Q. cbn [stored received fst]. apply IH, H. }
      destruct e.
      + (* PBegin *)
        destruct (prod s) as [|e r g] eqn:EP; [|apply quiet; cbn [astream_step]; rewrite EP; reflexivity].
        subst pend. cbn [length] in LEN.
        assert (SP : (N - Z.of_nat (length q)) mod W = N - Z.of_nat (length q)) by (apply Z.mod_small; mlia).
        destruct (N - Z.of_nat (length q) =? 0) eqn:Z0.
        { apply quiet. cbn [astream_step]. rewrite EP, BUF, SP, Z0. reflexivity. }
        cbn [run_outs run_state]. cbn [astream_step]. rewrite EP, BUF, SP, Z0. cbn [stored received fst].
        apply IH. unfold ainv. cbn [buffer buf_start buf_end prod cons]. repeat split; try assumption; try mlia; cbn [length]; try mlia.
      + (* PSample *)
        destruct (prod s) as [|e r g] eqn:EP; [apply quiet; cbn [astream_step]; rewrite EP; reflexivity|].
        destruct P as (P1 & P2 & P3 & P4 & P5 & P6 & P7).
        destruct (g <? r) eqn:G; [|apply quiet; cbn [astream_step]; rewrite EP, G; reflexivity].
        cbn [run_outs run_state]. cbn [astream_step]. rewrite EP, G. cbn [stored received fst].
        match goal with |- context [run_outs _ ?s' es] => destruct (IH s' q (pend ++ [x]) seen) as (lft & E & B & FIN) end.
        * unfold ainv. cbn [buffer buf_start buf_end prod cons].
          assert (LP : length (pend ++ [x]) = S (length pend)) by (rewrite app_length; cbn; mlia). rewrite LP.
          split; [exact BS|]. split; [mlia|]. split; [exact BE|]. split; [|split; [|exact C]].
          { intros i I. rewrite <- D by mlia. apply upd_other. intros X.
            assert (Z.of_nat i = Z.of_nat (length q) + g); [|mlia].
            apply (mod_inj N N0 (buf_start s)); try mlia. rewrite X, P1, BE, modW by assumption.
            rewrite BE, modW in P1 by assumption. rewrite <- mod_small_add by mlia. f_equal. mlia. }
          { repeat split; try mlia. intros i I. destruct (Nat.eq_dec i (length pend)) as [-> | NE].
            - rewrite app_nth2, Nat.sub_diag by mlia. rewrite P2. apply upd_same.
            - rewrite app_nth1 by mlia. rewrite upd_other by mlia. apply P7. mlia. }
        * exists lft. split; [|split; [exact B|exact FIN]]. rewrite <- E. rewrite <- app_assoc. reflexivity.
      + (* PEnd *)
        destruct (prod s) as [|e r g] eqn:EP; [apply quiet; cbn [astream_step]; rewrite EP; reflexivity|].
        destruct P as (P1 & P2 & P3 & P4 & P5 & P6 & P7).
        cbn [run_outs run_state]. cbn [astream_step]. rewrite EP. cbn [stored received fst].
        match goal with |- context [run_outs _ ?s' es] => destruct (IH s' (q ++ pend) [] seen) as (lft & E & B & FIN) end.
        * unfold ainv. cbn [buffer buf_start buf_end prod cons]. rewrite app_length. cbn [length].
          split; [exact BS|]. split; [mlia|]. split; [rewrite BE, P2, Zplus_mod_idemp_l; f_equal; mlia|].
          split; [|split; [reflexivity|]].
          { intros i I. destruct (Nat.lt_ge_cases i (length q)) as [CC|CC]; [rewrite app_nth1 by mlia; apply D; mlia|].
            rewrite app_nth2 by mlia. rewrite <- P7 by mlia. f_equal. rewrite P1, BE, modW by assumption.
            rewrite BE, modW in P1 by assumption. rewrite <- mod_small_add by mlia. f_equal. mlia. }
          { destruct (cons s); [exact C|]. mlia. }
        * exists lft. split; [|split; [exact B|exact FIN]]. rewrite <- E. cbn [app].
          assert (SQ : (seen <= length q)%nat) by (destruct (cons s); mlia).
          rewrite skipn_app. replace (seen - length q)%nat with 0%nat by mlia. cbn [skipn]. rewrite <- app_assoc. reflexivity.
      + (* CBegin *)
        destruct (cons s) as [|p c d] eqn:EC; [|apply quiet; cbn [astream_step]; rewrite EC; destruct (prod s); reflexivity].
        subst seen.
        destruct ((Z.of_nat (length q) =? 0) || (want <=? 0)) eqn:W0.
        { apply quiet. cbn [astream_step]. rewrite EC, BUF, W0. destruct (prod s); reflexivity. }
        cbn [run_outs run_state]. cbn [astream_step]. rewrite EC, BUF, W0.
        assert (ST : forall pp, (let '(s', o) := match pp with
           | PIdle => (AStream (buffer s) (buf_start s) (buf_end s) (prod s) (CCopying (buf_start s mod N) (Z.min (Z.min (Z.of_nat (length q)) want) (N - buf_start s mod N)) 0), Quiet)
           | PFilling _ _ _ => (AStream (buffer s) (buf_start s) (buf_end s) (prod s) (CCopying (buf_start s mod N) (Z.min (Z.min (Z.of_nat (length q)) want) (N - buf_start s mod N)) 0), Quiet)
           end in (s', o)) = (AStream (buffer s) (buf_start s) (buf_end s) (prod s) (CCopying (buf_start s mod N) (Z.min (Z.min (Z.of_nat (length q)) want) (N - buf_start s mod N)) 0), Quiet)) by (intros []; reflexivity).
        replace (match prod s with
           | PIdle => (AStream (buffer s) (buf_start s) (buf_end s) (prod s) (CCopying (buf_start s mod N) (Z.min (Z.min (Z.of_nat (length q)) want) (N - buf_start s mod N)) 0), Quiet)
           | PFilling _ _ _ => (AStream (buffer s) (buf_start s) (buf_end s) (prod s) (CCopying (buf_start s mod N) (Z.min (Z.min (Z.of_nat (length q)) want) (N - buf_start s mod N)) 0), Quiet)
           end) with (AStream (buffer s) (buf_start s) (buf_end s) (prod s) (CCopying (buf_start s mod N) (Z.min (Z.min (Z.of_nat (length q)) want) (N - buf_start s mod N)) 0), Quiet) by (destruct (prod s); reflexivity).
        cbn [stored received fst]. apply IH. unfold ainv. cbn [buffer buf_start buf_end prod cons].
        split; [exact BS|]. split; [mlia|]. split; [exact BE|]. split; [exact D|]. split; [exact P|]. mlia.
      + (* CSample *)
        destruct (cons s) as [|p c d] eqn:EC; [apply quiet; cbn [astream_step]; rewrite EC; destruct (prod s); reflexivity|].
        destruct C as (C1 & C2 & C3 & C4 & C5).
        destruct (d <? c) eqn:G; [|apply quiet; cbn [astream_step]; rewrite EC, G; destruct (prod s); reflexivity].
        assert (STEP : astream_step N s CSample = (AStream (buffer s) (buf_start s) (buf_end s) (prod s) (CCopying p c (d + 1)), Received (buffer s (p + d)))).
        { cbn [astream_step]. rewrite EC, G. destruct (prod s); reflexivity. }
        cbn [run_outs run_state]. rewrite STEP. cbn [stored received fst].
        destruct (IH (AStream (buffer s) (buf_start s) (buf_end s) (prod s) (CCopying p c (d + 1))) q pend (S seen)) as (lft & E & B & FIN).
        * unfold ainv. cbn [buffer buf_start buf_end prod cons].
          split; [exact BS|]. split; [mlia|]. split; [exact BE|]. split; [exact D|]. split; [exact P|]. mlia.
        * exists lft. split; [|split; [exact B|exact FIN]]. cbn [app]. rewrite <- E.
          replace (buffer s (p + d)) with (nth seen q 0).
          { assert (SQ : (seen < length q)%nat) by mlia. clear -SQ. revert seen SQ. induction q as [|x q IH]; intros seen SQ; [cbn in SQ; mlia|].
            destruct seen; [reflexivity|]. cbn [skipn nth]. apply IH. cbn in SQ. mlia. }
          rewrite <- D by mlia. f_equal. rewrite C1, C2. apply mod_small_add; mlia.
      + (* CEnd *)
        destruct (cons s) as [|p c d] eqn:EC; [apply quiet; cbn [astream_step]; rewrite EC; destruct (prod s); reflexivity|].
        destruct C as (C1 & C2 & C3 & C4 & C5).
        destruct (d =? c) eqn:G; [|apply quiet; cbn [astream_step]; rewrite EC, G; destruct (prod s); reflexivity].
        assert (STEP : astream_step N s CEnd = (AStream (buffer s) ((buf_start s + c) mod W) (buf_end s) (prod s) CIdle, Quiet)).
        { cbn [astream_step]. rewrite EC, G. destruct (prod s); reflexivity. }
        cbn [run_outs run_state]. rewrite STEP. cbn [stored received fst].
        destruct (IH (AStream (buffer s) ((buf_start s + c) mod W) (buf_end s) (prod s) CIdle) (skipn seen q) pend 0%nat) as (lft & E & B & FIN).
        * unfold ainv. cbn [buffer buf_start buf_end prod cons]. rewrite skipn_length.
          split; [apply Z.mod_pos_bound; unfold W; mlia|]. split; [mlia|].
          split; [rewrite Zplus_mod_idemp_l, BE; f_equal; mlia|].
          split; [|split; [|reflexivity]].
          { intros i I. rewrite <- Zplus_mod_idemp_l, modW, Zplus_mod_idemp_l by assumption.
            replace (buf_start s + c + Z.of_nat i) with (buf_start s + Z.of_nat (seen + i)) by mlia. rewrite D by mlia.
            rewrite <- (firstn_skipn seen q) at 1. rewrite app_nth2 by (rewrite firstn_length; mlia). f_equal. rewrite firstn_length. mlia. }
          { destruct (prod s); [exact P|]. destruct P as (P1 & P2 & P3 & P4 & P5 & P6 & P7).
            repeat split; try assumption; try mlia. }
        * exists lft. split; [exact E|]. split; [exact B|exact FIN].
  Qed.
End AStream.

(** ** SoundQueue *)
Definition squeue_inv (Q : Z) (s : squeue) (q : list Z) : Prop :=
  sounds s = Z.of_nat (length q) /\ sounds s <= Q /\ forall i, (i < length q)%nat -> queue s (Z.of_nat i) = nth i q 0.
Lemma shift_spec n : forall i q j, 0 <= i -> shift n i q j = if (i <=? j) && (j <? i + Z.of_nat n) then q (j + 1) else q j.
Proof.
  induction n as [|n IH]; intros i q j I; cbn [shift].
  - replace ((i <=? j) && (j <? i + Z.of_nat 0)) with false by lia. reflexivity.
  - rewrite IH by lia. unfold upd. destruct ((i + 1 <=? j) && (j <? i + 1 + Z.of_nat n)) eqn:E.
    + replace (j + 1 =? i) with false by lia. replace ((i <=? j) && (j <? i + Z.of_nat (S n))) with true by lia. reflexivity.
    + destruct (j =? i) eqn:J.
      * replace ((i <=? j) && (j <? i + Z.of_nat (S n))) with true by lia. f_equal. lia.
      * replace ((i <=? j) && (j <? i + Z.of_nat (S n))) with false by lia. reflexivity.
Qed.
Lemma squeue_all Q ops : 0 <= Q -> forall s q, squeue_inv Q s q ->
  let outs := run_outs (sq_step Q) s ops in
  squeue_ok (Z.to_nat Q) q ops outs /\
  (~ In Fadeout ops -> exists waiting, q ++ accepted ops outs = started outs ++ waiting /\ Z.of_nat (length waiting) <= Q).
Proof.
  intros Q0. induction ops as [|o ops IH]; intros s q H; pose proof H as (H1 & H2 & H3).
  - cbn. split; [exact I|]. intros _. exists q. rewrite app_nil_r. split; [reflexivity|lia].
  - destruct o as [x|playing free|]; cbn [run_outs sq_step].
    + destruct (sounds s <? Q) eqn:E; cbn [squeue_ok accepted started].
      * replace (length q <? Z.to_nat Q)%nat with true by lia.
        match goal with |- context [run_outs _ ?s' ops] => destruct (IH s' (q ++ [x])) as (A & B) end.
        { unfold squeue_inv. cbn [sounds queue]. rewrite app_length. cbn [length]. repeat split; try lia.
          intros i I. unfold upd. destruct (Z.of_nat i =? sounds s) eqn:C.
          - rewrite app_nth2 by lia. replace (i - length q)%nat with 0%nat by lia. reflexivity.
          - rewrite app_nth1 by lia. apply H3. lia. }
        split; [split; [reflexivity|exact A]|]. intros NF. destruct B as (w & B1 & B2); [intros X; apply NF; right; exact X|].
        exists w. split; [|exact B2]. rewrite <- B1, <- app_assoc. reflexivity.
      * replace (length q <? Z.to_nat Q)%nat with false by lia. destruct (IH s q H) as (A & B).
        split; [split; [reflexivity|exact A]|]. intros NF. apply B. intros X; apply NF; right; exact X.
    + destruct (player s && playing) eqn:E.
      * match goal with |- context [run_outs _ ?s' ops] => destruct (IH s' q) as (A & B) end; [exact H|].
        destruct (fade s); cbn [squeue_ok accepted started]; (split; [split; [lia || (right; left; lia) |exact A]|]);
          (intros NF; apply B; intros X; apply NF; right; exact X).
      * destruct (sounds s =? 0) eqn:E0; cbn [negb].
        { assert (q = []) by (destruct q; [reflexivity|cbn in H1; lia]).
          match goal with |- context [run_outs _ ?s' ops] => destruct (IH s' q) as (A & B) end; [exact H|].
          destruct (player s) eqn:EP; cbn [squeue_ok accepted started].
          - split; [split; [assumption|split; [destruct playing; [discriminate|reflexivity]|exact A]]|]. intros NF; apply B; intros X; apply NF; right; exact X.
          - split; [split; [left; assumption|exact A]|]. intros NF; apply B; intros X; apply NF; right; exact X. }
        destruct (negb (player s) && negb free) eqn:EF.
        { match goal with |- context [run_outs _ ?s' ops] => destruct (IH s' q) as (A & B) end; [exact H|]. cbn [squeue_ok accepted started].
          split; [split; [right; right; destruct free; [rewrite andb_false_r in EF; discriminate|reflexivity]|exact A]|].
          intros NF; apply B; intros X; apply NF; right; exact X. }
        destruct q as [|y q]; [cbn in H1; lia|]. cbn [length] in H1, H3.
        assert (Y : queue s 0 = y) by (apply (H3 0%nat); lia). rewrite Y. cbn [squeue_ok accepted started].
        match goal with |- context [run_outs _ ?s' ops] => destruct (IH s' q) as (A & B) end.
        { unfold squeue_inv. cbn [sounds queue]. repeat split; try lia. intros i I. rewrite shift_spec by lia.
          replace ((0 <=? Z.of_nat i) && (Z.of_nat i <? 0 + Z.of_nat (Z.to_nat (sounds s - 1)))) with true by lia.
          replace (Z.of_nat i + 1) with (Z.of_nat (S i)) by lia. apply (H3 (S i)). lia. }
        split; [exists q; split; [reflexivity|exact A]|]. intros NF. destruct B as (w & B1 & B2); [intros X; apply NF; right; exact X|].
        exists w. split; [|exact B2]. cbn [app]. rewrite B1. reflexivity.
    + cbn [squeue_ok]. match goal with |- context [run_outs _ ?s' ops] => destruct (IH s' []) as (A & B) end.
      { unfold squeue_inv. cbn [sounds queue length]. repeat split; try lia. }
      split; [exact A|]. intros NF. exfalso. apply NF. left. reflexivity.
Qed.

(** ** BoxFilter *)
Definition tot (l : list Z) : Z := fold_right Z.add 0 l.
Lemma tot_app a b : tot (a ++ b) = tot a + tot b. Proof. unfold tot. induction a as [|x a IH]; cbn [app fold_right]; [lia|]. rewrite IH. lia. Qed.
Lemma fold_left_tot l : forall a, fold_left Z.add l a = a + tot l.
Proof. induction l as [|x l IH]; intros a; cbn [fold_left]; [cbn; lia|]. rewrite IH. unfold tot. cbn [fold_right]. lia. Qed.
Lemma bsum_tot N b : (0 < N)%nat -> bsum N b = tot (read_at (bdata b) 0 N).
Proof.
  intros H. unfold bsum. rewrite fold_left_tot. destruct N as [|N]; [lia|]. cbn [read_at]. replace (S N - 1)%nat with N by lia. reflexivity.
Qed.
Definition boxed (N : nat) (b : boxf) (old new : list Z) : Prop :=
  (length old + length new = N)%nat /\ old <> [] /\ bpos b = Z.of_nat (length new) /\ read_at (bdata b) 0 N = new ++ old.
Lemma read_at_app m a : forall i b, read_at m i (a + b) = read_at m i a ++ read_at m (i + Z.of_nat a) b.
Proof.
  induction a as [|a IH]; intros i b; cbn [read_at Nat.add app]; [f_equal; lia|]. rewrite IH. do 2 f_equal. f_equal. lia.
Qed.
Lemma read_at_upd_out m n : forall i j x, j < i \/ i + Z.of_nat n <= j -> read_at (upd m j x) i n = read_at m i n.
Proof. induction n as [|n IH]; intros i j x H; cbn [read_at]; [reflexivity|]. rewrite upd_other by lia. rewrite IH by lia. reflexivity. Qed.
Lemma bpush_boxed N b v old new : (0 < N)%nat -> boxed N b old new ->
  exists old' new', boxed N (bpush (Z.of_nat N) b v) old' new' /\ old' ++ new' = tl (old ++ new) ++ [v].
Proof.
  intros N0 (L & O & P & R). destruct old as [|x old]; [congruence|]. cbn [length] in L.
  assert (R' : read_at (upd (bdata b) (bpos b) v) 0 N = new ++ v :: old).
  { replace N with (length new + S (length old))%nat in * by lia. rewrite read_at_app in *. cbn [read_at] in *.
    rewrite P. rewrite read_at_upd_out by lia. replace (0 + Z.of_nat (length new)) with (Z.of_nat (length new)) in * by lia. rewrite upd_same.
    rewrite read_at_upd_out by lia.
    assert (read_at (bdata b) 0 (length new) = new /\ bdata b (Z.of_nat (length new)) :: read_at (bdata b) (Z.of_nat (length new) + 1) (length old) = x :: old) as (A & B).
    { pose proof (f_equal (firstn (length new)) R) as F1. pose proof (f_equal (skipn (length new)) R) as F2.
      rewrite firstn_app, firstn_app in F1. rewrite skipn_app, skipn_app in F2.
      rewrite read_at_length, Nat.sub_diag in F1, F2. cbn [firstn skipn] in F1, F2.
      rewrite !app_nil_r in F1. rewrite !firstn_all2 in F1 by (rewrite ?read_at_length; lia).
      rewrite !skipn_all2 in F2 by (rewrite ?read_at_length; lia). cbn [app] in F2. split; assumption. }
    rewrite A. injection B as _ B. rewrite B. reflexivity. }
  unfold bpush, boxed. cbn [bdata bpos]. destruct (bpos b + 1 =? Z.of_nat N) eqn:E.
  - assert (old = []) by (destruct old; [reflexivity|cbn in L; lia]). subst old. exists (new ++ [v]), []. cbn [app length tl]. rewrite app_length. cbn [length] in *.
    repeat split; try lia; [intros X; apply app_eq_nil in X as (_ & X); discriminate|exact R'|rewrite app_nil_r; reflexivity].
  - exists old, (new ++ [v]). rewrite app_length. cbn [length app tl]. repeat split; try lia.
    + intros X. subst old. cbn [length] in L. lia.
    + rewrite R', <- app_assoc. reflexivity.
    + rewrite app_assoc. reflexivity.
Qed.
Lemma tl_app_ne {A} (a b : list A) : a <> [] -> tl (a ++ b) = tl a ++ b.
Proof. destruct a; [congruence|reflexivity]. Qed.
Lemma box_run N l : (0 < N)%nat -> forall b old new, boxed N b old new ->
  exists old' new', boxed N (fold_left (bpush (Z.of_nat N)) l b) old' new' /\ old' ++ new' = skipn (length l) (old ++ new ++ l).
Proof.
  intros N0. induction l as [|v l IH]; intros b old new H; cbn [fold_left length skipn].
  - exists old, new. rewrite app_nil_r. split; [assumption|reflexivity].
  - destruct (bpush_boxed N b v old new N0 H) as (o & n & H' & E). destruct (IH _ _ _ H') as (o' & n' & H'' & E').
    exists o', n'. split; [exact H''|]. rewrite E'. rewrite app_assoc, E.
    destruct H as (_ & O & _). destruct old as [|x old]; [congruence|]. cbn [app tl skipn]. rewrite <- !app_assoc. reflexivity.
Qed.
Lemma box_sum N l b : (0 < N)%nat -> 0 <= bpos b < Z.of_nat N -> (N <= length l)%nat ->
  bsum N (fold_left (bpush (Z.of_nat N)) l b) = sum_last N l.
Proof.
  intros N0 P L. set (arr := read_at (bdata b) 0 N). set (p := Z.to_nat (bpos b)).
  assert (LA : length arr = N) by apply read_at_length.
  assert (H : boxed N b (skipn p arr) (firstn p arr)).
  { unfold boxed. rewrite skipn_length, firstn_length, LA. repeat split; try lia.
    - intros X. apply (f_equal (@length Z)) in X. rewrite skipn_length, LA in X. cbn in X. lia.
    - symmetry. apply firstn_skipn. }
  destruct (box_run N l N0 _ _ _ H) as (o & n & (B1 & B2 & B3 & B4) & E).
  rewrite bsum_tot by assumption. rewrite B4, tot_app, Z.add_comm, <- tot_app, E. unfold sum_last, tot. f_equal.
  rewrite app_assoc, skipn_app. rewrite app_length, skipn_length, firstn_length, LA.
  rewrite skipn_all2 by (rewrite app_length, skipn_length, firstn_length, LA; lia). cbn [app]. f_equal. lia.
Qed.
