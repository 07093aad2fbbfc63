(** C111, C112: the battery. Definitions: BattSpec.v. *)
From Coq Require Import ZArith QArith List Bool Lia Lqa.
From Verif Require Import Machine ArithModel BattModel BattSpec BattProofs.
Import ListNotations.
Open Scope Z_scope.

(** C111: the voltage shown is never outside the range of the voltages read. *)
Theorem C111_range lo hi v t ops : (lo <= v <= hi)%Q -> sane ops -> reads_within lo hi ops ->
  (lo <= battery (mon (after v t ops)) <= hi)%Q.
Proof. intros V S R. exact (run_range lo hi ops (state0 v t) S R V). Qed.
Example C111_range_ex :
  let ops := [Monitor_ true true 4 0 false; Tick 2000; Monitor_ true true 3 (1 # 2) false] in
  sane ops /\ (battery (mon (after 4 0 ops)) == 7 # 2)%Q.
Proof. cbn. split; [repeat constructor; cbn; lia || lra|reflexivity]. Qed.

(** C111: two readings are never less than 1 ms apart, although the loop function may be called at any time. *)
Theorem C111_spacing v t ops : 0 <= t -> sane ops -> apart 1000 (map time (readings (after v t ops))).
Proof. intros T S. apply (after_Inv v t ops T S). Qed.
Example C111_spacing_ex :
  map time (readings (after 4 7 [Monitor_ true true 4 0 false; Tick 999; Monitor_ true true 4 0 false; Tick 1; Monitor_ true true 4 0 false; Monitor_ true true 4 0 false;
    Tick 5000; Monitor_ true true 4 0 false])) = [6007; 1007].
Proof. reflexivity. Qed.

(** C111: and the first call with the converter ready, 1 ms or more after a reading, makes another. *)
Theorem C111_next v0 t ops a b v mul c r l idle v' mul' c' :
  readings (after v0 t (ops ++ [Monitor_ a b v mul c])) = r :: l -> length l = length (readings (after v0 t ops)) ->
  Forall elsewhere idle -> let s := after v0 t (ops ++ [Monitor_ a b v mul c] ++ idle) in
  1000 <= now s - time r < 4294967296 ->
  exists r', readings (after v0 t (ops ++ [Monitor_ a b v mul c] ++ idle ++ [Monitor_ true true v' mul' c'])) = r' :: r :: l /\
    time r' = now s /\ usb r' = c' /\ (shown r' == shown r * mul' + v' * (1 - mul'))%Q.
Proof. intros R L Q s N. exact (next_reading v0 t ops a b v mul c r l idle _ R L Q N v' mul' c' eq_refl). Qed.
Example C111_next_ex :
  let ops := [Monitor_ true true 4 0 false; Tick 1000] in let m := Monitor_ true true 4 0 false in
  map time (readings (after 4 0 (ops ++ [m]))) = [1000] /\ readings (after 4 0 ops) = [] /\
  map time (readings (after 4 0 (ops ++ [m] ++ [Tick 2000; BOn 0] ++ [m]))) = [3000; 1000].
Proof. cbn. auto. Qed.

(** C111: the voltage shown is that of the last reading. *)
Theorem C111_shown v t ops :
  battery (mon (after v t ops)) = match readings (after v t ops) with r :: _ => shown r | [] => v end.
Proof. exact (run_shown v ops (state0 v t) eq_refl). Qed.
Example C111_shown_ex : battery (mon (after 4 0 [])) = 4%Q.
Proof. reflexivity. Qed.

(** C111: the battery counts as low exactly when the last 1001 readings all were low ones (up to 2^32 readings, which take
    49 days at least)... *)
Theorem C111_low v t ops : let l := readings (after v t ops) in Z.of_nat (length l) < 4294967296 ->
  (low (mon (after v t ops)) = true <-> (1001 <= length l)%nat /\ Forall low_reading (firstn 1001 l)).
Proof. intros l. apply low_iff. Qed.
(** In the examples: n readings of v, one every millisecond. *)
Definition reads (v : Q) (n : nat) : list op := concat (repeat [Tick 1000; Monitor_ true true v 0 false] n).
Definition low_reads : nat -> list op := reads 2.
Lemma reads_all (P : op -> Prop) v n : P (Tick 1000) -> P (Monitor_ true true v 0 false) -> Forall P (reads v n).
Proof. intros A B. induction n as [|n IH]; [constructor|]. constructor; [exact A|]. constructor; [exact B|exact IH]. Qed.
Lemma reads_run v n : forall s, at_ (mon s) = Wait -> last_voltage_read_time_ (mon s) = u32 (now s) ->
  let s' := run step s (reads v n) in
  lit s' = lit s /\ exists l, readings s' = l ++ readings s /\ length l = n /\
    Forall (fun r => usb r = false /\ (shown r == v)%Q /\ load r = loaded_ (mon s)) l.
Proof.
  induction n as [|n IH]; intros s A T; [split; [reflexivity|]; exists []; repeat split; constructor|].
  change (reads v (S n)) with ([Tick 1000; Monitor_ true true v 0 false] ++ reads v n). cbv zeta. rewrite run_app.
  set (s1 := run step s [Tick 1000; Monitor_ true true v 0 false]).
  assert (E : s1 = sample (State (mon s) (now s + 1000) (on s) (last_beep_ s) (lit s) (readings s) (announced s)) v 0 false).
  { unfold s1. cbn [run step]. unfold MonitorLoop. cbn [mon]. rewrite A. unfold loop_wait, micros. cbn [mon now]. rewrite T.
    replace (u32 (u32 (now s + 1000) - u32 (now s))) with 1000 by (unfold u32; rewrite <- Zminus_mod; replace (now s + 1000 - now s) with 1000 by lia; reflexivity).
    reflexivity. }
  clearbody s1. destruct (IH s1) as (L & l & R & N & F); [subst s1; reflexivity|subst s1; reflexivity|]. subst s1. split; [exact L|].
  eexists (l ++ [_]). rewrite R, app_length, N, <- app_assoc. cbn [sample readings app]. split; [reflexivity|]. split; [cbn; lia|].
  apply Forall_app. split; [exact F|]. constructor; [|constructor]. cbn [usb shown load mon loaded_ last_voltage_]. repeat split. ring.
Qed.
Example C111_low_ex :
  let m := Monitor_ true true 2 0 false in
  low (mon (after 4 0 (m :: low_reads 1001))) = true /\ low (mon (after 4 0 (m :: low_reads 1000))) = false /\
  low (mon (after 4 0 (m :: low_reads 600 ++ [Tick 1000; Monitor_ true true 4 0 false] ++ low_reads 600))) = false.
Proof. vm_compute. auto. Qed.

(** C111: ... which takes a second at least. *)
Theorem C111_second v t ops old new : 0 <= t -> sane ops -> let l := readings (after v t ops) in
  nth_error l 0 = Some new -> nth_error l 1000 = Some old -> time old + 1000000 <= time new.
Proof.
  intros T S l H0 H1. pose proof (proj1 (proj2 (proj2 (proj2 (proj2 (after_Inv v t ops T S)))))) as A.
  pose proof (apart_nth 1000 (map time l) 1000 (time new) (time old) A ltac:(lia)) as P.
  rewrite !nth_error_map, H0, H1 in P. specialize (P eq_refl eq_refl). lia.
Qed.
Example C111_second_ex :
  let l := readings (after 4 0 (Monitor_ true true 4 0 false :: low_reads 1001)) in
  option_map time (nth_error l 0) = Some 1001000 /\ option_map time (nth_error l 1000) = Some 1000.
Proof. vm_compute. auto. Qed.

(** C112: a check that finds the battery low, with a style that is not the charging style, leaves the saber off and, if the
    last announcement (or the start) was more than 15 s before, announces it. *)
Theorem C112_off v t ops : 0 <= t -> sane ops -> low (mon (after v t ops)) = true ->
  let s := after v t ops in
  on (step s (Check true false)) = false /\
  (let last := hd 0 (announced s) in
   last + 15001000 <= now s < last + 4294967000000 -> announced (step s (Check true false)) = now s :: announced s).
Proof. apply check_act. Qed.
Example C112_off_ex :
  let ops := Turn true :: Monitor_ true true 2 0 false :: low_reads 1001 ++ [Tick 14000000] in
  low (mon (after 4 0 ops)) = true /\ on (after 4 0 ops) = true /\ on (after 4 0 (ops ++ [Check true false])) = false /\
  announced (after 4 0 (ops ++ [Check true false])) = [15001000].
Proof. vm_compute. auto. Qed.

(** C112: nothing else turns it off or announces anything: not a check without a low battery, without a style or while charging. *)
Theorem C112_only s style charging :
  low (mon s) = false \/ style = false \/ charging = true -> step s (Check style charging) = s.
Proof.
  cbn [step]. unfold CheckLowBattery. destruct (low (mon s)); auto. intros [H|[H|H]]; [discriminate|..]; rewrite H; auto.
  rewrite andb_false_r. reflexivity.
Qed.
Example C112_only_ex :
  let ops := Turn true :: Monitor_ true true 2 0 false :: low_reads 1001 in
  on (after 4 0 (ops ++ [Check true true; Check false false])) = true.
Proof. vm_compute. reflexivity. Qed.

(** C112: announcements are more than 15 s apart, and there is none in the first 15 s. *)
Theorem C112_apart v t ops : 0 <= t -> sane ops -> apart 15000001 (announced (after v t ops) ++ [0]).
Proof. intros T S. apply (after_Inv v t ops T S). Qed.
Example C112_apart_ex :
  announced (after 4 0 (Monitor_ true true 2 0 false :: low_reads 1001 ++ [Check true false; Tick 14000000; Check true false; Tick 9000000; Check true false; Tick 9000000; Check true false]))
  = [33001000; 15001000].
Proof. vm_compute. reflexivity. Qed.

(** C112: with one blade, the lower limit (2.6 V) applies whenever it is on. *)
Theorem C112_load i v t ops : Forall (only_blade i) ops -> lit (after v t ops) <> [] -> loaded_ (mon (after v t ops)) = true.
Proof. intros F. apply (run_one i ops (state0 v t) F). split; [intros H; contradiction|constructor]. Qed.
Example C112_load_ex : lit (after 4 0 [BOn 3; BOff 3; BOn 3]) = [3%nat].
Proof. reflexivity. Qed.

(** C112, a finding: with two blades it does not. Turning one off makes the battery count as low under the load of the other,
    although it never shows less than 2.8 V. *)
Theorem C112_two_blades_refuted :
  ~ (forall v t ops, 0 <= t -> sane ops -> (28 # 10 <= v <= 5)%Q -> reads_within (28 # 10) 5 ops ->
     lit (after v t ops) <> [] -> low (mon (after v t ops)) = false).
Proof.
  intros H. set (ops := Monitor_ true true (28 # 10) 0 false :: [BOn 0; BOn 1; BOff 0] ++ reads (28 # 10) 1001).
  assert (A : sane ops /\ reads_within (28 # 10) 5 ops).
  { unfold ops. split; (constructor; [cbn; lra|]; do 3 (constructor; [exact I|]); apply reads_all; cbn; lia || lra). }
  specialize (H 4%Q 0 ops ltac:(lia) (proj1 A) ltac:(lra) (proj2 A)).
  assert (E : low (mon (after 4 0 ops)) = true /\ lit (after 4 0 ops) = [1%nat]).
  { set (pre := Monitor_ true true (28 # 10) 0 false :: [BOn 0; BOn 1; BOff 0]).
    assert (O : after 4 0 ops = run step (after 4 0 pre) (reads (28 # 10) 1001)) by exact (run_app step _ pre (reads (28 # 10) 1001)).
    destruct (reads_run (28 # 10) 1001 (after 4 0 pre) eq_refl eq_refl) as (L & l & R & N & F).
    change (readings (after 4 0 pre)) with (@nil reading) in R. rewrite app_nil_r in R. rewrite <- O in L, R.
    split; [|exact L]. apply low_iff; rewrite R, N; [lia|]. split; [lia|].
    rewrite firstn_all2 by lia. revert F. apply Forall_impl. intros r (U & V & W). unfold low_reading. rewrite U, V, W. split; [reflexivity|]. cbn. split; lra. }
  destruct E as [E1 E2]. rewrite E1, E2 in H. discriminate H. discriminate.
Qed.
Example C112_two_blades_ex : loaded_ (mon (after 4 0 [BOn 0; BOn 1; BOff 0])) = false.
Proof. reflexivity. Qed.

(** C112, a finding: an effect on a blade that is off leaves the lower limit in force, so that a battery at 2.8 V without
    any load does not count as low. *)
Theorem C112_effect_refuted :
  ~ (forall v t ops, lit (after v t ops) = [] -> loaded_ (mon (after v t ops)) = false).
Proof. intros H. specialize (H 4%Q 0 [BEffect 0] eq_refl). discriminate H. Qed.
Example C112_effect_ex :
  low (mon (after 4 0 (Monitor_ true true (28 # 10) 0 false :: BEffect 0 :: reads (28 # 10) 1001))) = false.
Proof.
  set (pre := [Monitor_ true true (28 # 10) 0 false; BEffect 0]). set (ops := _ :: _).
  assert (O : after 4 0 ops = run step (after 4 0 pre) (reads (28 # 10) 1001)) by exact (run_app step _ pre (reads (28 # 10) 1001)).
  destruct (reads_run (28 # 10) 1001 (after 4 0 pre) eq_refl eq_refl) as (_ & l & R & N & F).
  change (readings (after 4 0 pre)) with (@nil reading) in R. rewrite app_nil_r in R. rewrite <- O in R.
  destruct (low (mon (after 4 0 ops))) eqn:E; [|reflexivity]. exfalso. apply low_iff in E; rewrite R in *; [|rewrite N; lia]. destruct E as [_ E].
  destruct l as [|r l]; [discriminate|]. inversion E as [|? ? (_ & _ & B) _]; subst. inversion F as [|? ? (_ & V & W) _]; subst. rewrite V, W in B. cbn in B. lra.
Qed.

Print Assumptions C111_range.
Print Assumptions C111_spacing.
Print Assumptions C111_next.
Print Assumptions C111_shown.
Print Assumptions C111_low.
Print Assumptions C111_second.
Print Assumptions C112_off.
Print Assumptions C112_only.
Print Assumptions C112_apart.
Print Assumptions C112_load.
Print Assumptions C112_two_blades_refuted.
Print Assumptions C112_effect_refuted.
