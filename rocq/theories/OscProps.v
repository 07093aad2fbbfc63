(** C150: Sin, Saw and PulsingF. *)
From Coq Require Import ZArith QArith Qround List Bool Lia ZifyBool Lqa.
From Verif Require Import ArithModel PovModel PovProofs BlendModel OscModel OscSpec OscProofs.
Import ListNotations.
Local Open Scope Z_scope.

Definition osc0 : osc := Osc 4294967000 (Some (5 # 7)%Q).

(** Saw: however the time is cut into frames, the position is where RPM turns a minute take it
    (up to whole turns), and the value is that far from LOW to HIGH. *)
Theorem C150_saw : forall rpm low high o p0 ts now, pos o = Some p0 ->
  let o1 := fst (calls (saw_calculate rpm low high) o ts) in
  exists p k v, snd (saw_calculate rpm low high now o1) = Some v /\ (0 <= p)%Q /\ (p < 1)%Q /\
    (p == p0 + inject_Z (total (last o) (ts ++ [now])) * inject_Z rpm / 60000000 + inject_Z k)%Q /\
    near v (inject_Z low + p * (inject_Z high - inject_Z low))%Q /\ between low v high.
Proof.
  intros rpm low high o p0 ts now P o1.
  pose proof (calls_place _ _ _ (ts ++ [now]) o p0 (saw_steps rpm low high) P) as (p & k & A & B).
  rewrite calls_snoc in A. fold o1 in A.
  assert (P1 : exists p1, pos o1 = Some p1).
  { destruct (calls_place _ _ _ ts o p0 (saw_steps rpm low high) P) as (p1 & _ & X & _). exists p1. exact X. }
  destruct P1 as [p1 P1]. destruct (saw_steps rpm low high now o1 p1 P1) as ((p' & R1 & R2 & R3) & _ & _ & V).
  rewrite A in R1. injection R1 as <-. rewrite A in V.
  exists p, k, (saw_value low high p). repeat split; auto.
  - rewrite B. field.
  - unfold saw_value. pose proof (trunc_near (inject_Z low + p * inject_Z (high - low))) as [N _].
    eapply Qlt_le_trans; [exact N|]. unfold Z.sub. rewrite inject_Z_plus, inject_Z_opp. lra.
  - unfold saw_value. pose proof (trunc_near (inject_Z low + p * inject_Z (high - low))) as [_ N].
    eapply Qle_lt_trans; [|exact N]. unfold Z.sub. rewrite inject_Z_plus, inject_Z_opp. lra.
  - destruct (mix_between low high p R2 ltac:(lra)) as [M1 M2].
    apply (trunc_between (inject_Z low + p * inject_Z (high - low)) (Z.min low high) (Z.max low high)); lra.
  - destruct (mix_between low high p R2 ltac:(lra)) as [M1 M2].
    apply (trunc_between (inject_Z low + p * inject_Z (high - low)) (Z.min low high) (Z.max low high)); lra.
Qed.
Example C150_saw_ex : snd (calls (saw_calculate 60 (-100) 900) osc0 [704; 250704; 500704]) = [Some 615; Some 865; Some 115].
Proof. vm_compute. reflexivity. Qed.

(** Sin: likewise, along the sine (1024 steps a turn) and never beyond LOW or HIGH. *)
Theorem C150_sin : forall rpm low high o p0 ts now, pos o = Some p0 ->
  let o1 := fst (calls (sin_calculate rpm low high) o ts) in
  exists p k v, snd (sin_calculate rpm low high now o1) = Some v /\ (0 <= p)%Q /\ (p < 1)%Q /\
    (p == p0 + inject_Z (total (last o) (ts ++ [now])) * inject_Z rpm / 60000000 + inject_Z k)%Q /\
    near v (inject_Z low + (inject_Z (BlendModel.sin_table (Qfloor (p * 1024))) + 16384) / 32768 * (inject_Z high - inject_Z low))%Q /\
    between low v high.
Proof.
  intros rpm low high o p0 ts now P o1.
  pose proof (calls_place _ _ _ (ts ++ [now]) o p0 (sin_steps rpm low high) P) as (p & k & A & B).
  rewrite calls_snoc in A. fold o1 in A.
  assert (P1 : exists p1, pos o1 = Some p1).
  { destruct (calls_place _ _ _ ts o p0 (sin_steps rpm low high) P) as (p1 & _ & X & _). exists p1. exact X. }
  destruct P1 as [p1 P1]. destruct (sin_steps rpm low high now o1 p1 P1) as ((p' & R1 & R2 & R3) & _ & _ & V).
  rewrite A in R1. injection R1 as <-. rewrite A in V. unfold sin_value in V. rewrite look_some in V by auto.
  pose proof (table_range _ (floor_1024 p R2 R3)) as TR. set (s := BlendModel.sin_table (Qfloor (p * 1024))) in *.
  set (x := ((inject_Z s / 32768 + (1 # 2)) * inject_Z (high - low) + inject_Z low)%Q) in *.
  exists p, k, (PovModel.to_int x). fold s. clearbody s. repeat split; auto.
  - rewrite B. field.
  - pose proof (trunc_near x) as [N _]. eapply Qlt_le_trans; [exact N|]. unfold x, Z.sub. rewrite inject_Z_plus, inject_Z_opp. 
    apply Qle_lteq. right. field.
  - pose proof (trunc_near x) as [_ N]. eapply Qle_lt_trans; [|exact N]. unfold x, Z.sub. rewrite inject_Z_plus, inject_Z_opp.
    apply Qle_lteq. right. field.
  - assert (F1 : (0 <= inject_Z s / 32768 + (1 # 2))%Q /\ (inject_Z s / 32768 + (1 # 2) <= 1)%Q).
    { assert (L1 : (inject_Z (-16383) <= inject_Z s)%Q) by (rewrite <- Zle_Qle; lia).
      assert (L2 : (inject_Z s <= inject_Z 16383)%Q) by (rewrite <- Zle_Qle; lia).
      change (inject_Z (-16383)) with (-16383)%Q in L1. change (inject_Z 16383) with (16383)%Q in L2.
      set (y := (inject_Z s / 32768)%Q). assert (Y : (inject_Z s == y * 32768)%Q) by (unfold y; field). clearbody y. split; lra. }
    destruct (mix_between low high _ (proj1 F1) (proj2 F1)) as [M1 M2].
    apply (trunc_between x (Z.min low high) (Z.max low high)); assumption.
  - assert (F1 : (0 <= inject_Z s / 32768 + (1 # 2))%Q /\ (inject_Z s / 32768 + (1 # 2) <= 1)%Q).
    { assert (L1 : (inject_Z (-16383) <= inject_Z s)%Q) by (rewrite <- Zle_Qle; lia).
      assert (L2 : (inject_Z s <= inject_Z 16383)%Q) by (rewrite <- Zle_Qle; lia).
      change (inject_Z (-16383)) with (-16383)%Q in L1. change (inject_Z 16383) with (16383)%Q in L2.
      set (y := (inject_Z s / 32768)%Q). assert (Y : (inject_Z s == y * 32768)%Q) by (unfold y; field). clearbody y. split; lra. }
    destruct (mix_between low high _ (proj1 F1) (proj2 F1)) as [M1 M2].
    apply (trunc_between x (Z.min low high) (Z.max low high)); assumption.
Qed.
Example C150_sin_ex : snd (calls (sin_calculate 60 0 32768) (Osc 0 (Some 0%Q)) [0; 250000; 500000; 750000; 1000000]) =
  [Some 16384; Some 32767; Some 16384; Some 1; Some 16384].
Proof. vm_compute. reflexivity. Qed.

(** A whole number of turns later, the value is the same again, whatever frames come between. *)
Theorem C150_round : forall rpm low high o now ts now2 k, pos o <> None ->
  total now (ts ++ [now2]) * rpm = 60000000 * k ->
  (let f := saw_calculate rpm low high in snd (f now2 (fst (calls f (fst (f now o)) ts))) = snd (f now o)) /\
  (let f := sin_calculate rpm low high in snd (f now2 (fst (calls f (fst (f now o)) ts))) = snd (f now o)).
Proof.
  intros rpm low high o now ts now2 k P H.
  assert (E : (inject_Z (total now (ts ++ [now2])) * (inject_Z rpm / 60000000) == inject_Z k)%Q).
  { transitivity (inject_Z (total now (ts ++ [now2]) * rpm) / 60000000)%Q; [rewrite inject_Z_mult; field|].
    rewrite H, inject_Z_mult. change (inject_Z 60000000) with 60000000%Q. field. }
  split; cbv zeta.
  - apply (round _ _ _ o now ts now2 k (saw_steps rpm low high) (saw_value_eq low high) P E).
  - apply (round _ _ _ o now ts now2 k (sin_steps rpm low high) (sin_value_eq low high) P E).
Qed.
Example C150_round_ex : total 704 ([250704; 999999] ++ [1000704]) * 120 = 60000000 * 2.
Proof. reflexivity. Qed.

(** PulsingF: once every PULSE_MILLIS milliseconds ... *)
Theorem C150_pulse_round : forall millis o now ts now2 k, millis <> 0 -> pos o <> None ->
  total now (ts ++ [now2]) = 1000 * millis * k ->
  let f := pulse_calculate millis in snd (f now2 (fst (calls f (fst (f now o)) ts))) = snd (f now o).
Proof.
  intros millis o now ts now2 k M P H. cbv zeta.
  apply (round _ _ _ o now ts now2 k (pulse_steps millis M) pulse_value_eq P).
  rewrite H, !inject_Z_mult. change (inject_Z 1000) with 1000%Q. field.
  intros X. unfold Qeq in X. cbn [Qnum Qden inject_Z] in X. lia.
Qed.
Example C150_pulse_round_ex : total 704 ([250704; 999999] ++ [1000704]) = 1000 * 500 * 2 /\
  snd (calls (pulse_calculate 1000) (Osc 0 (Some 0%Q)) [0; 250000; 500000; 750000; 1000000]) =
  [Some 16384; Some 32767; Some 16384; Some 1; Some 16384].
Proof. split; vm_compute; reflexivity. Qed.
(** ... along the sine, at the place the clock gives. *)
Theorem C150_pulse : forall millis o p0 ts now, millis <> 0 -> pos o = Some p0 ->
  let o1 := fst (calls (pulse_calculate millis) o ts) in
  exists p k v, snd (pulse_calculate millis now o1) = Some v /\ (0 <= p)%Q /\ (p < 1)%Q /\
    (p == p0 + inject_Z (total (last o) (ts ++ [now])) / (1000 * inject_Z millis) + inject_Z k)%Q /\
    v = BlendModel.sin_table (Qfloor (p * 1024)) + 16384 /\ 1 <= v <= 32767.
Proof.
  intros millis o p0 ts now M P o1.
  pose proof (calls_place _ _ _ (ts ++ [now]) o p0 (pulse_steps millis M) P) as (p & k & A & B).
  rewrite calls_snoc in A. fold o1 in A.
  assert (P1 : exists p1, pos o1 = Some p1).
  { destruct (calls_place _ _ _ ts o p0 (pulse_steps millis M) P) as (p1 & _ & X & _). exists p1. exact X. }
  destruct P1 as [p1 P1]. destruct (pulse_steps millis M now o1 p1 P1) as ((p' & R1 & R2 & R3) & _ & _ & V).
  rewrite A in R1. injection R1 as <-. rewrite A in V. unfold pulse_value in V. rewrite look_some in V by auto.
  pose proof (table_range _ (floor_1024 p R2 R3)) as TR.
  exists p, k, (BlendModel.sin_table (Qfloor (p * 1024)) + 16384). repeat split; auto; try lia.
  rewrite B. field. intros X. unfold Qeq in X. cbn [Qnum Qden inject_Z] in X. lia.
Qed.
Example C150_pulse_ex : snd (calls (pulse_calculate 2000) osc0 [704; 250704]) <> [None; None].
Proof. vm_compute. congruence. Qed.

(** A PULSE_MILLIS of 0 in one frame should not matter later: it is undefined ever after. *)
Theorem C150_zero_refuted : forall o now later,
  Forall (fun v => v = None) (pulse_calls o ((0, now) :: later)).
Proof.
  intros o now later. cbn [pulse_calls]. unfold pulse_calculate at 1. cbn [Z.eqb pos]. apply Forall_cons; [reflexivity|].
  assert (G : forall later o, pos o = None -> Forall (fun v : option Z => v = None) (pulse_calls o later)).
  { clear. intros later. induction later as [|[m t] later IH]; intros o P; [apply Forall_nil|]. cbn [pulse_calls].
    unfold pulse_calculate, move. rewrite P. destruct (m =? 0); cbn [pos]; apply Forall_cons; auto. }
  apply G. reflexivity.
Qed.

Print Assumptions C150_saw.
Print Assumptions C150_sin.
Print Assumptions C150_round.
Print Assumptions C150_pulse_round.
Print Assumptions C150_pulse.
Print Assumptions C150_zero_refuted.
