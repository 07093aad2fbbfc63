(** C92 (twists) and C93 (shakes and swings). *)
From Coq Require Import ZArith List Bool Lia.
From Verif Require Import Machine GestModel GestSpec GestProofs.
Import ListNotations.
Open Scope Z_scope.

(** A twist is reported only if the blade turned to one side and back, as [twist_at] says. *)
Theorem C92_sound : forall cs c, ordered 251 (cs ++ [c]) ->
  In EVENT_TWIST (last (run_outs step strokes0 (cs ++ [c])) []) -> twist_at (cs ++ [c]) (length cs).
Proof. exact twist_right. Qed.
Definition ex_left t := Twist t 300000 0 (-5000).
Definition ex_right t := Twist t (-300000) 7000 0.
Definition ex_none t := Twist t 1000 2000 3000.
Definition ex_calm t := Shake t 500 (-300) 9800 2000.
Definition ex_fwd t := Shake t 9000 1000 2000 3000.
Definition ex_back t := Shake t (-8000) 1000 2000 3000.
Example C92_sound_ex :
  let cs := [ex_left 1000; ex_none 1001; ex_none 1200; ex_left 2000; ex_calm 2001; ex_left 2060; ex_none 2100; ex_right 2150; ex_right 2200] in
  ordered 251 (cs ++ [ex_none 2260]) /\ In EVENT_TWIST (last (run_outs step strokes0 (cs ++ [ex_none 2260])) []).
Proof. cbn. split; [lia|auto]. Qed.

(** A clean turn to one side and back is reported at once, once the blade has moved before and has come
    to rest. *)
Theorem C92_complete : forall l0 d a1 m1 c1 g a2 m2 c2,
  (d = Left \/ d = Right) -> let l := l0 ++ (a1 :: m1) ++ c1 :: g ++ (a2 :: m2) ++ [c2] in
  ordered 251 l -> rested l0 a1 (time a1) ->
  clean d a1 m1 c1 -> Forall still g -> clean (opposite d) a2 m2 c2 ->
  90 < time c1 - time a1 < 300 -> 90 < time c2 - time a2 < 300 -> time a2 - time c1 < 200 ->
  last (run_outs step strokes0 l) [] = [EVENT_TWIST].
Proof. exact twist_complete. Qed.
Ltac no_move := intros [] X; cbn in X; lia.
Example C92_complete_ex :
  rested [ex_left 1000; ex_none 1001; ex_calm 1200] (ex_left 2000) 2000 /\
  clean Left (ex_left 2000) [ex_calm 2001; ex_left 2060] (ex_right 2100) /\ Forall still [ex_calm 2101; ex_none 2102] /\
  clean Right (ex_right 2150) [ex_right 2200] (ex_none 2260).
Proof.
  split; [|split; [|split]].
  - exists [ex_left 1000], [ex_none 1001; ex_calm 1200]. split; [reflexivity|]. split; [exists (ex_left 1000), Left; cbn; split; [auto|lia]|].
    split; [repeat constructor; no_move|]. split; [exists (ex_none 1001); split; [left; auto|unfold same_detector; cbn; tauto]|]. repeat constructor; cbn; lia.
  - split; [cbn; lia|]. split; [|split; [unfold same_detector; cbn; tauto|cbn; lia]]. constructor.
    + right. split; [unfold same_detector; cbn; tauto|no_move].
    + constructor; [|constructor]. left. cbn. lia.
  - repeat constructor; no_move.
  - split; [cbn; lia|]. split; [|split; [unfold same_detector; cbn; tauto|cbn; lia]]. constructor; [left; cbn; lia|constructor].
Qed.

(** The first turn after power-on is not seen: a twist made of it is not reported. *)
Theorem C92_first_refuted :
  ~ (forall a1 m1 c1 a2 m2 c2, ordered 251 ((a1 :: m1) ++ c1 :: (a2 :: m2) ++ [c2]) ->
     clean Left a1 m1 c1 -> clean Right a2 m2 c2 ->
     90 < time c1 - time a1 < 300 -> 90 < time c2 - time a2 < 300 -> time a2 - time c1 < 200 ->
     last (run_outs step strokes0 ((a1 :: m1) ++ c1 :: (a2 :: m2) ++ [c2])) [] = [EVENT_TWIST]).
Proof.
  intros H. specialize (H (ex_left 2000) [] (ex_none 2100) (ex_right 2150) [] (ex_none 2260)).
  assert (X : last (run_outs step strokes0 [ex_left 2000; ex_none 2100; ex_right 2150; ex_none 2260]) [] = []) by reflexivity.
  cbn [app] in H. rewrite X in H. enough ([] = [EVENT_TWIST]) by discriminate. apply H; cbn; try lia.
  - split; [cbn; lia|]. split; [constructor|]. split; [unfold same_detector; cbn; tauto|cbn; lia].
  - split; [cbn; lia|]. split; [constructor|]. split; [unfold same_detector; cbn; tauto|cbn; lia].
Qed.
(** A turn can be part of two reported twists: three turns, two reports. *)
Theorem C92_shared_refuted :
  exists cs, ordered 251 cs /\
    map (fun e => length e) (run_outs step strokes0 cs) = [0; 0; 0; 0; 1; 0; 1]%nat /\
    (forall c, In c cs -> exists t, c = ex_left t \/ c = ex_right t \/ c = ex_none t) /\
    filter (fun c => match c with Twist _ gx _ _ => 200000 <? Z.abs gx | _ => false end) (skipn 1 cs) = [ex_left 2000; ex_right 2150; ex_left 2300].
Proof.
  exists [ex_left 1000; ex_left 2000; ex_none 2100; ex_right 2150; ex_none 2260; ex_left 2300; ex_none 2400].
  split; [vm_compute; repeat split; discriminate|]. split; [vm_compute; reflexivity|]. split; [|vm_compute; reflexivity].
  intros c X. repeat destruct X as [<-|X]; eauto. destruct X.
Qed.

(** A shake is reported only after five thrusts, as [shake_at] says. *)
Theorem C93_sound : forall cs c, ordered 251 (cs ++ [c]) ->
  In EVENT_SHAKE (last (run_outs step strokes0 (cs ++ [c])) []) -> shake_at (cs ++ [c]) 0 (length cs).
Proof. exact shake_right. Qed.
Definition ex_shake (e : Z) := [ex_fwd 1000; ex_calm 1020; ex_back 1040; ex_calm 1060; ex_none 1061; ex_fwd 1100; ex_calm 1120; ex_back 1140; ex_calm 1160; ex_fwd e].
Example C93_sound_ex : ordered 251 (ex_shake 1200 ++ [ex_calm 1230]) /\ In EVENT_SHAKE (last (run_outs step strokes0 (ex_shake 1200 ++ [ex_calm 1230])) []).
Proof. split; [vm_compute; repeat split; discriminate|vm_compute; auto]. Qed.

(** Clean thrusts forward, back, forward, back and forward are reported, once the blade has moved before
    and has come to rest: at the latest when the last one ends. *)
Theorem C93_complete : forall l0 t1 t2 t3 t4 t5,
  let l := calls t1 ++ calls t2 ++ calls t3 ++ calls t4 ++ calls t5 in
  ordered 251 (l0 ++ l) -> rested l0 (first t1) (time (first t1)) ->
  clean_thrust Forward t1 -> clean_thrust Back t2 -> clean_thrust Forward t3 -> clean_thrust Back t4 -> clean_thrust Forward t5 ->
  time (stop t1) - time (first t1) > 10 -> time (stop t2) - time (first t2) > 10 -> time (stop t3) - time (first t3) > 10 -> time (stop t4) - time (first t4) > 10 ->
  time (first t2) - time (stop t1) <= 250 -> time (first t3) - time (stop t2) <= 250 -> time (first t4) - time (stop t3) <= 250 -> time (first t5) - time (stop t4) <= 250 ->
  In [EVENT_SHAKE] (skipn (length l0) (run_outs step strokes0 (l0 ++ l))).
Proof. exact shake_complete. Qed.
Example C93_complete_ex :
  rested [ex_fwd 300; ex_calm 320] (ex_fwd 1000) 1000 /\ clean_thrust Forward (Thrust (ex_fwd 1000) [ex_none 1001; ex_fwd 1010] (ex_calm 1020) [ex_calm 1030; ex_none 1031]) /\
  clean_thrust Back (Thrust (ex_back 1040) [] (ex_fwd 1060) []).
Proof.
  split; [|split].
  - exists [ex_fwd 300], [ex_calm 320]. split; [reflexivity|]. split; [exists (ex_fwd 300), Forward; cbn; split; [auto|lia]|].
    split; [repeat constructor; no_move|]. split; [exists (ex_calm 320); split; [left; auto|unfold same_detector; cbn; tauto]|]. repeat constructor; cbn; lia.
  - split; [|repeat constructor; no_move]. split; [cbn; lia|]. split; [|split; [unfold same_detector; cbn; tauto|cbn; lia]]. constructor.
    + right. split; [unfold same_detector; cbn; tauto|no_move].
    + constructor; [|constructor]. left. cbn. lia.
  - split; [|constructor]. split; [cbn; lia|]. split; [constructor|]. split; [unfold same_detector; cbn; tauto|cbn; lia].
Qed.

(** Two reported shakes have no thrust in common if the last one of the first shake took more than 10 ms. *)
Theorem C93_disjoint : forall cs1 c1 cs2 c2,
  ordered 251 (cs1 ++ c1 :: cs2 ++ [c2]) ->
  In EVENT_SHAKE (last (run_outs step strokes0 (cs1 ++ [c1])) []) ->
  10 < time c1 - start_millis (newest (run_state step strokes0 (cs1 ++ [c1]))) ->
  In EVENT_SHAKE (last (run_outs step strokes0 (cs1 ++ c1 :: cs2 ++ [c2])) []) ->
  shake_at (cs1 ++ c1 :: cs2 ++ [c2]) (S (length cs1)) (S (length cs1 + length cs2)).
Proof. exact shake_disjoint. Qed.
Definition ex_shake2 := [ex_back 1300; ex_calm 1320; ex_fwd 1340; ex_calm 1360; ex_back 1400; ex_calm 1420; ex_fwd 1440; ex_calm 1460; ex_back 1500; ex_calm 1520; ex_fwd 1540].
Example C93_disjoint_ex :
  ordered 251 (ex_shake 1200 ++ ex_calm 1230 :: ex_shake2 ++ [ex_calm 1580]) /\
  In EVENT_SHAKE (last (run_outs step strokes0 (ex_shake 1200 ++ [ex_calm 1230])) []) /\
  10 < 1230 - start_millis (newest (run_state step strokes0 (ex_shake 1200 ++ [ex_calm 1230]))) /\
  In EVENT_SHAKE (last (run_outs step strokes0 (ex_shake 1200 ++ ex_calm 1230 :: ex_shake2 ++ [ex_calm 1580])) []).
Proof. split; [vm_compute; repeat split; discriminate|]. split; [vm_compute; auto|]. split; vm_compute; auto. Qed.
(** Without that: four thrusts are counted for two shakes. *)
Theorem C93_overlap_refuted : exists cs1 c1 cs2 c2,
  ordered 251 (cs1 ++ c1 :: cs2 ++ [c2]) /\
  In EVENT_SHAKE (last (run_outs step strokes0 (cs1 ++ [c1])) []) /\
  In EVENT_SHAKE (last (run_outs step strokes0 (cs1 ++ c1 :: cs2 ++ [c2])) []) /\
  ~ shake_at (cs1 ++ c1 :: cs2 ++ [c2]) (S (length cs1)) (S (length cs1 + length cs2)).
Proof.
  exists (ex_shake 1200), (ex_calm 1205), [ex_fwd 1300], (ex_calm 1320). split; [vm_compute; repeat split; discriminate|]. split; [vm_compute; auto|]. split; [vm_compute; auto|].
  intros (p & l & L & A). destruct l as [|[p' q'] l]; [discriminate L|]. cbn [length ex_shake Nat.add] in *. cbn [alternate] in A.
  destruct A as ((A1 & _) & A2 & (A3 & _) & (A4 & _) & A5 & _). lia.
Qed.

(** A swing is reported when the blade is faster than 250 degrees per second, the first
    time since it was slower than 100. *)
Theorem C93_swing : forall vs v, last (run_outs DetectSwing false (vs ++ [v])) false = true <->
  v > 250 /\ forall l1 w l2, vs = l1 ++ w :: l2 -> w > 250 -> exists x, In x l2 /\ x < 100.
Proof. exact swing_ok. Qed.
Example C93_swing_ex : run_outs DetectSwing false [240; 260; 150; 300; 90; 260; 260] = [false; true; false; false; false; true; false].
Proof. reflexivity. Qed.

Print Assumptions C92_sound.
Print Assumptions C92_complete.
Print Assumptions C92_first_refuted.
Print Assumptions C92_shared_refuted.
Print Assumptions C93_sound.
Print Assumptions C93_complete.
Print Assumptions C93_disjoint.
Print Assumptions C93_overlap_refuted.
Print Assumptions C93_swing.
