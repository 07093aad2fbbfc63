(** C121, C122: settings changed by turning the hilt. *)
From Coq Require Import ZArith QArith List Bool Lia Lqa.
From Verif Require Import Machine DialModel DialSpec DialProofs.
Import ListNotations.
Open Scope Q_scope.

(** C121.  Whatever is turned, clicked or returned to, every value set is between 0 and 32767;
    leaving by select keeps the last one; leaving by cancel sets what the setting was on entry. *)
Theorem C121_sets : forall X get set k rev ops (s : smooth X) a,
  let s1 := run (step X get set k rev) (activate X get k s false a) ops in
  exists vs, Forall in_range vs /\ store s1 = fold_left set vs (store s) /\
             store (select X s1) = store s1 /\
             store (exit X set s1) = set (store s1) (get (store s)).
Proof. exact all_sets. Qed.

(** Hence cancelling restores a stored setting. *)
Theorem C121_cancel : forall X get set k rev ops (s : smooth X) a,
  register get set -> in_range (get (store s)) ->
  get (store (exit X set (run (step X get set k rev) (activate X get k s false a) ops))) = get (store s).
Proof.
  intros X get set k rev ops s a R I. destruct (all_sets X get set k rev ops s a) as (_ & _ & _ & _ & E).
  rewrite E. apply R, I.
Qed.
Definition reg_get (z : Z) : Z := z.
Definition reg_set (_ z : Z) : Z := z.
Example C121_register : register reg_get reg_set.
Proof. intros x v _. reflexivity. Qed.
Example C121_cancel_ex :
  let s1 := run (step Z reg_get reg_set Wrap 3) (activate Z reg_get Wrap (Smooth 1000%Z 0 0 0) false 0) [Loop 3000; Loop 6000] in
  store s1 = 3000%Z /\ store (exit Z reg_set s1) = 1000%Z.
Proof. split; reflexivity. Qed.

(** Wrap-around settings: the value moves with the hilt, [rev] turns of the hilt being the whole
    range; turning back to where one started, or any whole number of such rounds, gives exactly the
    first value again. *)
Theorem C121_wrap : forall X get set rev, 1 <= rev -> register get set -> forall (s : smooth X) a0 ds rs,
  in_range (get (store s)) -> - (16384) <= a0 <= 16384 -> turned a0 ds rs ->
  let v0 := get (store s) in
  let v := get (store (run (fun s a => fst (loop X set Wrap rev s a)) (activate X get Wrap s false a0) rs)) in
  (exists n : Z, within1 v (inject_Z v0 + total ds / rev + inject_Z n * 32768)) /\
  (forall n : Z, total ds == inject_Z n * 32768 * rev -> v = v0).
Proof. exact wrap_value. Qed.
Example C121_wrap_ex : turned 16000 [3000; 3000] [-13768; -10768] /\
  store (run (fun s a => fst (loop Z reg_set Wrap 3 s a)) (activate Z reg_get Wrap (Smooth 32000%Z 0 0 0) false 16000) [-13768; -10768]) = 1232%Z.
Proof.
  split; [|reflexivity]. cbn. unfold turns. repeat split; try lra; [exists (-1)%Z|exists 0%Z]; reflexivity.
Qed.

(** Settings with ends: turning one way never moves the value the other way. *)
Theorem C121_way : forall X get set m rev, 1 <= rev -> 0 <= m -> register get set ->
  forall (s : smooth X) a d b, - (16384) <= a <= 16384 -> turns a d b ->
  let s1 := fst (loop X set (Rails m) rev s a) in let s2 := fst (loop X set (Rails m) rev s1 b) in
  (0 <= d -> (get (store s1) <= get (store s2))%Z) /\ (d <= 0 -> (get (store s2) <= get (store s1))%Z).
Proof. intros X get set m rev R M. exact (rails_dir X get set m rev R M). Qed.
(** As long as no end is hit the value moves in proportion. *)
Theorem C121_turn : forall X get set m rev, 1 <= rev -> 0 <= m -> register get set ->
  forall (s : smooth X) a ds rs, - (16384) <= a <= 16384 -> turned a ds rs ->
  let s0 := fst (loop X set (Rails m) rev s a) in
  let s' := run (fun s a => fst (loop X set (Rails m) rev s a)) s0 rs in
  Forall (fun b => b = 0%Z) (run_outs (loop X set (Rails m) rev) s0 rs) ->
  (0 < get (store s0) < 32767)%Z -> (0 < get (store s') < 32767)%Z ->
  within1 (get (store s')) (inject_Z (get (store s0)) + total ds / rev * (1 + m)).
Proof. intros X get set m rev R M. exact (rails_turn X get set m rev R). Qed.
Example C121_turn_ex :
  let f := loop Z reg_set (Rails (2#100)) 3 in
  let s0 := fst (f (activate Z reg_get (Rails (2#100)) (Smooth 10000%Z 0 0 0) false 0) 0) in
  turned 0 [3000; 3000] [3000; 6000] /\ run_outs f s0 [3000; 6000] = [0; 0]%Z /\
  store s0 = 9672%Z /\ store (run (fun s a => fst (f s a)) s0 [3000; 6000]) = 11712%Z.
Proof.
  split; [|split; [|split]]; try reflexivity. cbn. unfold turns. repeat split; try lra; exists 0%Z; reflexivity.
Qed.
(** The bump is felt at the ends, and only there; both ends can be reached from anywhere. *)
Theorem C121_bump : forall X get set m rev, 0 <= m -> register get set ->
  forall (s : smooth X) a, - (16384) <= a <= 16384 ->
  let (s1, b) := loop X set (Rails m) rev s a in
  (b = 1%Z -> get (store s1) = 32767%Z) /\ (b = (-1)%Z -> get (store s1) = 0%Z).
Proof. intros X get set m rev M. exact (rails_bump X get set m rev M). Qed.
Theorem C121_ends : forall X get set m rev, 1 <= rev -> 0 <= m -> register get set ->
  forall (s : smooth X) a ds rs, - (16384) <= a <= 16384 -> turned a ds rs ->
  let s' := run (fun s a => fst (loop X set (Rails m) rev s a)) (fst (loop X set (Rails m) rev s a)) rs in
  (Forall (fun d => 0 <= d) ds -> 32768 * rev <= total ds -> get (store s') = 32767%Z) /\
  (Forall (fun d => d <= 0) ds -> total ds <= - (32768 * rev) -> get (store s') = 0%Z).
Proof. intros X get set m rev R M. exact (rails_ends X get set m rev R M). Qed.
Example C121_ends_ex :
  let s := run (fun s a => fst (loop Z reg_set (Rails (2#100)) 1 s a)) (Smooth 5%Z 0 (-16000) 0) [0; 12000; -8768; 3232] in
  turned 0 [12000; 12000; 12000] [12000; -8768; 3232] /\ store s = 32767%Z.
Proof.
  split; [|reflexivity]. cbn. unfold turns. repeat split; try lra; [exists 0%Z|exists (-1)%Z|exists 0%Z]; reflexivity.
Qed.

(** The finding: opening such a setting (volume, for one) and not turning at all lowers it by one
    percent of the range. *)
Theorem C121_still_refuted : forall X get set (rev : Q) (s : smooth X) a,
  1 <= rev -> register get set -> - (16384) <= a <= 16384 -> (0 < get (store s) < 32767)%Z ->
  get (store (fst (loop X set (Rails (2#100)) rev (activate X get (Rails (2#100)) s false a) a))) =
  Z.max 0 (get (store s) - 328).
Proof. exact rails_drift. Qed.
Example C121_still_ex : store (fst (loop Z reg_set (Rails (2#100)) 1 (activate Z reg_get (Rails (2#100)) (Smooth 20000%Z 0 0 0) false 77) 77)) = 19672%Z.
Proof. reflexivity. Qed.
(** The finding: at the top end, the button that should go up wraps around to the bottom. *)
Theorem C121_click_refuted : exists s : smooth Z,
  let f := loop Z reg_set (Rails (2#100)) 1 in
  s = fst (f (activate Z reg_get (Rails (2#100)) (Smooth 32767%Z 0 0 0) false 0) 0) /\
  store s = 32767%Z /\ (store (fst (f (click Z s true) 0%Q)) < 1000)%Z.
Proof. eexists. split; [reflexivity|]. split; reflexivity. Qed.

(** C122.  Menus: whatever the turning, the number of steps forth minus steps back keeps up with it:
    it is never further off than the reach of one entry. *)
Theorem C122_track : forall n dz, (4 <= n)%Z -> (0 <= dz <= 100)%Z -> forall a0 ds is,
  - (16384) <= a0 <= 16384 -> turned a0 ds (map fst is) ->
  Forall (fun i => snd i <= 360) is -> Forall2 (allowed n) ds is ->
  near (total ds) (inject_Z (net is_next (run_outs (stepped_loop n dz) (stepped_activate a0) is)) * step_of n) (reach n dz).
Proof. exact slow_track. Qed.
Example C122_track_ex : turned 0 [4000; 4000; 1000] (map fst [(4000, 10); (8000, 10); (9000, 0)]) /\
  Forall2 (allowed 6) [4000; 4000; 1000] [(4000, 10); (8000, 10); (9000, 0)] /\
  run_outs (stepped_loop 6 25) (stepped_activate 0) [(4000, 10); (8000, 10); (9000, 0)] = [Some Next; None; Some Next].
Proof.
  split; [|split; [|reflexivity]].
  - cbn. unfold turns. repeat split; try lra; exists 0%Z; reflexivity.
  - assert (A : forall d a g, 0 <= g -> g <= 360 -> - (5000) <= d <= 5000 -> allowed 6 d (a, g)).
    { intros d a g G H D. unfold allowed, fast_step. cbn [fst snd]. destruct (Qlt_le_dec 360 g); [lra|].
      assert (step_of 6 == 32768 # 6) by reflexivity. split; [auto|]. rewrite H0. lra. }
    repeat (apply Forall2_cons; [apply A; lra|]). apply Forall2_nil.
Qed.
(** Spun faster than one turn per second, the steps are smaller, by the square of the speed. *)
Theorem C122_fast : forall n dz, (4 <= n)%Z -> (0 <= dz <= 100)%Z -> forall a0 ds is,
  - (16384) <= a0 <= 16384 -> turned a0 ds (map fst is) -> Forall2 (allowed n) ds is ->
  near (total ds) (weighted is_next (map (fun i => fast_step n (snd i)) is) (run_outs (stepped_loop n dz) (stepped_activate a0) is)) (reach n dz).
Proof. exact fast_track. Qed.
Example C122_fast_ex :
  run_outs (stepped_loop 6 25) (stepped_activate 0) [(1000, 720); (2000, 720); (3000, 720); (4000, 720); (5000, 720)] =
  [None; None; None; Some Next; Some Next].
Proof. reflexivity. Qed.
(** Held still, the menu does not move. *)
Theorem C122_still : forall n dz, (4 <= n)%Z -> (0 <= dz <= 100)%Z -> forall a0 ds is is2,
  - (16384) <= a0 <= 16384 -> turned a0 ds (map fst is) -> Forall2 (allowed n) ds is ->
  turned (List.last (map fst is) a0) (map (fun _ => 0) is2) (map fst is2) -> Forall (fun i => 0 <= snd i) is2 ->
  Forall (fun o => o = None)
    (run_outs (stepped_loop n dz) (run_state (stepped_loop n dz) (stepped_activate a0) is) is2).
Proof. exact still. Qed.
Example C122_still_ex : run_outs (stepped_loop 6 25) (stepped_activate 0) [(4000, 10); (4000, 500); (4000, 0)] = [Some Next; None; None].
Proof. reflexivity. Qed.
(** A step is only taken back after turning back by the dead zone. *)
Theorem C122_back : forall n dz, (4 <= n)%Z -> (0 <= dz <= 100)%Z -> forall a0 ds1 is1 d1 i1 ds2 is2 d2 i2 (b : bool),
  - (16384) <= a0 <= 16384 ->
  turned a0 (ds1 ++ d1 :: ds2 ++ [d2]) (map fst (is1 ++ i1 :: is2 ++ [i2])) ->
  Forall2 (allowed n) ds1 is1 -> Forall2 (allowed n) ds2 is2 -> allowed n d1 i1 -> allowed n d2 i2 ->
  snd i1 <= 360 ->
  run_outs (stepped_loop n dz) (stepped_activate a0) (is1 ++ i1 :: is2 ++ [i2]) =
    run_outs (stepped_loop n dz) (stepped_activate a0) is1 ++
    Some (if b then Next else Prev) :: map (fun _ => None) is2 ++ [Some (if b then Prev else Next)] ->
  if b then total (ds2 ++ [d2]) < - (step_of n * inject_Z dz / 200)
  else step_of n * inject_Z dz / 200 < total (ds2 ++ [d2]).
Proof. exact back. Qed.
Example C122_back_ex : run_outs (stepped_loop 6 25) (stepped_activate 0) [(3100, 0); (2500, 0); (2300, 0)] = [Some Next; None; Some Prev].
Proof. reflexivity. Qed.
Print Assumptions C121_sets.
Print Assumptions C121_cancel.
Print Assumptions C121_wrap.
Print Assumptions C121_way.
Print Assumptions C121_turn.
Print Assumptions C121_bump.
Print Assumptions C121_ends.
Print Assumptions C121_still_refuted.
Print Assumptions C121_click_refuted.
Print Assumptions C122_track.
Print Assumptions C122_fast.
Print Assumptions C122_still.
Print Assumptions C122_back.
