(** C90, C91: clash and stab detection. *)
From Coq Require Import ZArith List Bool Lia.
From Verif Require Import Machine ClashModel ClashSpec ClashProofs.
Import ListNotations.
Open Scope Z_scope.

(** Nothing held, nothing handled, blade on. *)
Definition w_idle := World false false [] true false.
Definition w_held := World true false [] true false.
Definition w_used := World true true [] true false.

(** * C90: no clash is reported within the quiet time after a report, a button or a request *)
Theorem C90_quiet : forall l a x b e t w os stab v h,
  ordered 0 l -> Forall sane l -> steady (hist state0 l) ->
  hist state0 l = a ++ x :: b -> forbids a x e ->
  In (Loop t w, os) b -> In (Report stab v h) os -> e <= t.
Proof. intros. eapply forbidden; eauto. Qed.
(** Nor in the first 100 ms after power-on. *)
Theorem C90_boot : forall l t w os stab v h,
  ordered 0 l -> Forall sane l -> steady (hist state0 l) -> In (Loop t w, os) (hist state0 l) -> In (Report stab v h) os -> 100 <= t.
Proof. exact at_boot. Qed.
Example C90_boot_ex : run_outs step state0 [Hit false 3; Loop 50 w_idle; Hit false 4; Loop 149 w_idle; Hit false 5; Loop 249 w_idle] = [[]; [Update 3]; []; [Update 4]; []; [Report false 5 false; Effect false]].
Proof. reflexivity. Qed.
Theorem C90_once : forall l x,
  ordered 0 l -> Forall sane l -> steady (hist state0 l) -> In x (hist state0 l) -> (length (reports (snd x)) <= 1)%nat.
Proof. exact one_report. Qed.
(** A clash is reported, a second one 60 ms later is not, one 100 ms after that is; a plain
    release silences the next 50 ms. *)
Definition demo := [Hit false 3; Loop 1000 w_idle; Hit true 2; Loop 1060 w_idle; Hit true 4; Loop 1160 w_idle; Button 2000 2 1 false; Hit false 7; Loop 2049 w_idle; Hit false 8; Loop 2099 w_idle].
Example C90_quiet_ex :
  run_outs step state0 demo = [[]; [Report false 3 false; Effect false]; []; []; []; [Report true 4 false; Effect true]; []; []; [Update 7]; []; [Report false 8 false; Effect false]] /\
  ordered 0 demo /\ Forall sane demo /\ steady (hist state0 demo).
Proof.
  split; [reflexivity|]. split; [cbn; repeat split; lia|]. split; [repeat constructor; cbn; lia|].
  assert (W : forall a b, hist state0 demo = a ++ b -> waits a = false).
  { intros a b E. vm_compute in E.
    do 12 (destruct a as [|? a]; [reflexivity|]; try discriminate E; injection E as <- E). }
  intros a t w os b E X. rewrite (W _ _ E) in X. discriminate.
Qed.

(** If the button's modifier is cleared (its event was used) while a clash is put aside, two
    clashes are reported in the same millisecond. *)
Theorem C90_double_refuted : exists l x, ordered 0 l /\ Forall sane l /\ In x (hist state0 l) /\ reports (snd x) = [(false, 5); (true, 3)].
Proof.
  exists [Hit true 3; Loop 1000 w_held; Hit false 5; Loop 1003 w_idle], (Loop 1003 w_idle, [Report false 5 false; Effect false; Report true 3 false; Effect true]).
  split; [cbn; repeat split; lia|]. split; [repeat constructor; cbn; lia|]. split; [|reflexivity].
  vm_compute. auto 10.
Qed.
(** A press does not silence a clash that is put aside at that time: it is reported 1 ms later. *)
Theorem C90_press_refuted : exists l t w os, ordered 0 (l ++ [Loop t w]) /\ Forall sane (l ++ [Loop t w]) /\ steady (hist state0 (l ++ [Loop t w])) /\
  In (Button (t - 1) 1 1 false) l /\ List.last (run_outs step state0 (l ++ [Loop t w])) [] = os /\ reports os = [(false, 5)].
Proof.
  exists [Hit false 5; Loop 1000 w_held; Button 1002 1 1 false], 1003, w_held, [Report false 5 false; Effect false].
  split; [cbn; repeat split; lia|]. split; [repeat constructor; cbn; lia|]. split.
  - intros a t w os b E X. vm_compute in E.
    do 4 (destruct a as [|? a]; [injection E; intros; subst; try discriminate; reflexivity|injection E as <- E]). destruct a; discriminate E.
  - split; [cbn; auto|]. split; reflexivity.
Qed.
(** Nor does a press silence anything if the prop makes use of its counted event, as the
    default prop does with a double click on a lit blade. *)
Theorem C90_counted_refuted : exists l t w, ordered 0 (l ++ [Loop t w]) /\ Forall sane (l ++ [Loop t w]) /\ steady (hist state0 (l ++ [Loop t w])) /\
  In (Button (t - 1) 1 2 true) l /\ reports (List.last (run_outs step state0 (l ++ [Loop t w])) []) = [(false, 5)].
Proof.
  exists [Button 1002 1 2 true; Hit false 5], 1003, w_idle.
  split; [cbn; repeat split; lia|]. split; [repeat constructor; cbn; lia|]. split.
  - assert (W : forall a b, hist state0 ([Button 1002 1 2 true; Hit false 5] ++ [Loop 1003 w_idle]) = a ++ b -> waits a = false).
    { intros a b E. vm_compute in E. do 4 (destruct a as [|? a]; [reflexivity|]; try discriminate E; injection E as <- E). }
    intros a t w os b E X. rewrite (W _ _ E) in X. discriminate.
  - split; [cbn; auto|]. reflexivity.
Qed.

(** * C91: a clash after quiet is reported, once, with its full strength *)
Theorem C91_heard : forall l0 T w0 l2 stab v more t w M,
  let l := l0 ++ [Loop T w0] in
  ordered 0 l -> Forall sane l -> asks_le M l -> 400 <= M ->
  steady (hist state0 l) -> waits (hist state0 l) = false ->
  ordered T l2 -> Forall sane l2 -> Forall (calm t) l2 -> T + M <= t < 2 ^ 32 ->
  let os := List.last (run_outs step state0 (l ++ l2 ++ hits ((stab, v) :: more) ++ [Loop t w])) [] in
  if held w then os = [Deferred] else reports os = [(stab, fold_left Z.max (map snd more) v)].
Proof. exact heard. Qed.
Theorem C91_deferred : forall l0 t0 w0 stab v t w l2 t3 w3,
  let l := l0 ++ [Loop t0 w0; Hit stab v; Loop t w] in
  List.last (run_outs step state0 l) [] = [Deferred] -> close 3 t l2 -> final t l2 + 3 <= t3 < final t l2 + 2 ^ 32 ->
  concat (run_outs step (run_state step state0 l) (shocks l2)) = [] /\
  reports (List.last (run_outs step state0 (l ++ shocks l2 ++ [Loop t3 w3])) []) = [(stab, strongest v l2)].
Proof. exact deferred. Qed.
Theorem C91_vibration : forall l t w stab v h l2,
  let l1 := l ++ [Loop t w] in
  ordered 0 l1 -> Forall sane l1 -> steady (hist state0 l1) ->
  In (Report stab v h) (List.last (run_outs step state0 l1) []) -> close (if h then 400 else 100) t l2 ->
  Forall (fun os => os = [] \/ exists v, os = [Update v]) (run_outs step (run_state step state0 l1) (shocks l2)) /\
  cstr (run_state step (run_state step state0 l1) (shocks l2)) = strongest (cstr (run_state step state0 l1)) l2.
Proof. exact vibration. Qed.
Theorem C91_effect : forall l t w stab,
  let os := List.last (run_outs step state0 (l ++ [Loop t w])) [] in
  In (Effect stab) os <-> (exists v, In (Report stab v false) os) /\ is_on w = true /\ lockup w = false.
Proof.
  intros. apply (effect (run_state step state0 l) t w). unfold os. rewrite run_outs_app. cbn [run_outs step].
  destruct (loop _ t w). rewrite last_last. reflexivity.
Qed.
Example C91_heard_ex :
  let l2 := [Loop 600 w_held; Ignore 700 190; Button 850 1 1 false; Loop 899 w_held] in
  ordered 500 l2 /\ Forall sane l2 /\ Forall (calm 900) l2 /\
  run_outs step state0 ([Loop 500 w_idle] ++ l2 ++ hits [(true, 5); (false, 7); (false, 6)] ++ [Loop 900 w_idle]) =
    [[]; []; []; []; []; []; []; []; [Report true 7 false; Effect true]].
Proof. cbv zeta. split; [cbn; lia|]. split; [repeat constructor; cbn; lia|]. split; [repeat constructor; cbn; lia|]. reflexivity. Qed.
Example C91_deferred_ex :
  run_outs step state0 ([Loop 500 w_idle; Hit true 5; Loop 900 w_held] ++ shocks [(false, 9, 902, w_held); (false, 4, 904, w_held)] ++ [Loop 907 w_used]) =
  [[]; []; [Deferred]; []; []; []; []; [Report true 9 true]] /\ close 3 900 [(false, 9, 902, w_held); (false, 4, 904, w_held)].
Proof. split; [reflexivity|cbn; lia]. Qed.
Example C91_vibration_ex :
  run_outs step state0 ([Hit true 5; Loop 900 w_idle] ++ shocks [(false, 9, 999, w_held); (false, 4, 1098, w_held)]) =
  [[]; [Report true 5 false; Effect true]; []; [Update 9]; []; []] /\ close 100 900 [(false, 9, 999, w_held); (false, 4, 1098, w_held)].
Proof. split; [reflexivity|cbn; lia]. Qed.
Example C91_effect_ex : run_outs step state0 [Hit true 5; Loop 900 (World false false [] true true)] = [[]; [Report true 5 false]].
Proof. reflexivity. Qed.

(** Continued vibration hides every later clash: for each length there is a run in which a clash far stronger than
    the first comes that long after it and is not reported. *)
Lemma hiding n : forall T, close 100 T (map (fun k => (false, 9, T + 99 * Z.of_nat k, w_idle)) (seq 1 n)).
Proof.
  intros T. assert (K : forall n k, close 100 (T + 99 * Z.of_nat k) (map (fun k => (false, 9, T + 99 * Z.of_nat k, w_idle)) (seq (S k) n))).
  { intros m. induction m as [|m IH]; intros k; [exact Logic.I|]. cbn [seq map close]. split; [lia|]. apply IH. }
  specialize (K n O). replace (T + 99 * Z.of_nat 0) with T in K by lia. exact K.
Qed.
Theorem C91_hidden_refuted : forall n, exists l2, length l2 = n /\ final 1000 l2 = 1000 + 99 * Z.of_nat n /\ (forall x, In x l2 -> snd (fst (fst x)) = 9) /\
  Forall (fun os => os = [] \/ exists v, os = [Update v])
    (run_outs step (run_state step state0 [Hit false 1; Loop 1000 w_idle]) (shocks l2)).
Proof.
  intros n. exists (map (fun k => (false, 9, 1000 + 99 * Z.of_nat k, w_idle)) (seq 1 n)).
  split; [rewrite map_length, seq_length; reflexivity|]. split.
  { assert (K : forall n k, final (1000 + 99 * Z.of_nat k) (map (fun k => (false, 9, 1000 + 99 * Z.of_nat k, w_idle)) (seq (S k) n)) = 1000 + 99 * Z.of_nat (k + n)).
    { intros m. induction m as [|m IH]; intros k; cbn [seq map final]; [f_equal; f_equal; lia|]. rewrite IH. f_equal. f_equal. lia. }
    specialize (K n O). exact K. }
  split; [intros x I; apply in_map_iff in I as (k & <- & _); reflexivity|].
  apply (vibration [Hit false 1] 1000 w_idle false 1 false (map (fun k => (false, 9, 1000 + 99 * Z.of_nat k, w_idle)) (seq 1 n))).
  - cbn. lia.
  - repeat constructor.
  - assert (W : forall a b, hist state0 ([Hit false 1] ++ [Loop 1000 w_idle]) = a ++ b -> waits a = false).
    { intros a b EQ. vm_compute in EQ. do 3 (destruct a as [|? a]; [reflexivity|]; try discriminate EQ; injection EQ as <- EQ). }
    intros a t w os b EQ X. rewrite (W _ _ EQ) in X. discriminate.
  - left. reflexivity.
  - apply hiding.
Qed.
(** The counter wraps after 49.7 days: a clash then is taken for vibration of the one before. *)
Theorem C91_wrap_refuted : run_outs step state0 [Hit false 5; Loop 1000 w_idle; Hit false 5; Loop (1000 + 2 ^ 32) w_idle] = [[]; [Report false 5 false; Effect false]; []; []].
Proof. reflexivity. Qed.

Print Assumptions C90_quiet.
Print Assumptions C90_boot.
Print Assumptions C90_once.
Print Assumptions C90_double_refuted.
Print Assumptions C90_press_refuted.
Print Assumptions C90_counted_refuted.
Print Assumptions C91_heard.
Print Assumptions C91_deferred.
Print Assumptions C91_vibration.
Print Assumptions C91_effect.
Print Assumptions C91_hidden_refuted.
Print Assumptions C91_wrap_refuted.
