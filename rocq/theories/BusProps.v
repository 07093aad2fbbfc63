(** C125: sharing the I2C bus.  C126: the bus sleeps when nobody asks for it. *)
From Coq Require Import ZArith List Bool Arith Lia ZifyBool.
From Verif Require Import Machine BusModel BusSpec BusProofs.
Import ListNotations.

Lemma play_spec os s xs : polite free os -> play lk0 os = Some (s, xs) ->
  xs = snd (spec_play free os) /\ rel s (fst (spec_play free os)).
Proof. intros P E. destruct (play_rel os lk0 free rel0 P) as (s' & E' & R). rewrite E in E'. injection E' as -> ->. auto. Qed.
Lemma free_ok : NoDup (fst free) /\ (snd free = true -> fst free <> []).
Proof. split; [constructor|discriminate]. Qed.

(** C125.  Whatever the devices do, at whatever moments, the lock answers and calls exactly as a queue
    does, and no null pointer is followed; provided no device gives back the bus after it was given it
    and before it was called. *)
Theorem C125_queue : forall os, polite free os ->
  exists s, play lk0 os = Some (s, snd (spec_play free os)).
Proof. intros os P. destruct (play_rel os lk0 free rel0 P) as (s & E & _). eauto. Qed.
Definition ex_ops : list op :=
  [LockAndRun 1 true; LockAndRun 2 true; LockAndRun 3 false; Lock 3 false true; LockAndRun 3 true; LockAndRun 2 true;
   Unlock 3; Unlock 1; LockAndRun 1 true; Call; Lock 2 true true; Unlock 2; Call].
Definition ex_outs : list out :=
  [Out true (Some 1); Out true None; Out false None; Out false None; Out true None; Out false None;
   Out true None; Out true None; Out true None; Out true (Some 2); Out true None; Out true None; Out true (Some 3)].
Example C125_queue_ex : polite free ex_ops /\ option_map snd (play lk0 ex_ops) = Some ex_outs.
Proof. split; [|reflexivity]. cbn. repeat split; try exact I; intros [? ?]; congruence. Qed.

(** C125.  Requests are served in the order in which they were accepted, each once: what was accepted is
    what was served, followed by those still waiting, all different. *)
Theorem C125_order : forall os s xs, polite free os -> Forall no_recapture os -> play lk0 os = Some (s, xs) ->
  exists w, accepted os xs = served os xs ++ w /\ NoDup w.
Proof.
  intros os s xs P F E. destruct (play_spec os s xs P E) as [-> _]. destruct free_ok as [A B].
  exists (waiting (fst (spec_play free os))). split; [exact (order_play os free A B P F)|].
  destruct (spec_ok os free A B P) as [ND _]. unfold waiting. destruct (snd (fst (spec_play free os))); [exact ND|].
  destruct (fst (fst (spec_play free os))); [constructor|]. now inversion ND.
Qed.
Example C125_order_ex : exists s, play lk0 (firstn 10 ex_ops) = Some (s, firstn 10 ex_outs) /\
  Forall no_recapture (firstn 10 ex_ops) /\
  accepted (firstn 10 ex_ops) (firstn 10 ex_outs) = [1; 2; 3; 1] /\ served (firstn 10 ex_ops) (firstn 10 ex_outs) = [1; 2].
Proof. eexists. split; [reflexivity|]. split; [repeat constructor|]. split; reflexivity. Qed.

(** C125.  From the moment a device gets the bus until it gives it back, nobody is called and nobody else
    is told to have it. *)
Theorem C125_alone : forall a o b d s xs x ys, polite free (a ++ o :: b) -> no_recapture o ->
  play lk0 (a ++ o :: b) = Some (s, xs ++ x :: ys) -> length xs = length a ->
  served [o] [x] = [d] -> Forall (fun o => o <> Unlock d) b -> Forall2 (quiet d) b ys.
Proof.
  intros a o b d s xs x ys P NR E L S F.
  rewrite (app_assoc a [o] b : a ++ o :: b = (a ++ [o]) ++ b) in P, E.
  apply polite_app in P. destruct P as [P1 P2].
  destruct (play_rel _ lk0 free rel0 P1) as (s1 & E1 & R1). rewrite play_app, E1 in E.
  destruct (play_rel b s1 _ R1 P2) as (s2 & E2 & _). rewrite E2 in E. injection E as _ E.
  assert (L1 : length (snd (spec_play free (a ++ [o]))) = length (xs ++ [x])) by (rewrite spec_len, !app_length; cbn; lia).
  rewrite (app_assoc xs [x] ys : xs ++ x :: ys = (xs ++ [x]) ++ ys) in E.
  assert (EE : snd (spec_play free (a ++ [o])) = xs ++ [x] /\ snd (spec_play (fst (spec_play free (a ++ [o]))) b) = ys).
  { revert E L1. generalize (snd (spec_play free (a ++ [o]))) (snd (spec_play (fst (spec_play free (a ++ [o]))) b)) (xs ++ [x]). clear.
    intros l m n. revert n. induction l as [|y l IH]; intros [|z n] E L; try discriminate; [auto|].
    cbn in E, L. injection E as -> E. destruct (IH n E ltac:(lia)). split; congruence. }
  destruct EE as [EA EB]. subst ys.
  assert (X : forall os c, fst (spec_play c (os ++ [o])) = fst (spec_step (fst (spec_play c os)) o) /\
                        snd (spec_play c (os ++ [o])) = snd (spec_play c os) ++ [snd (spec_step (fst (spec_play c os)) o)]).
  { clear. induction os as [|p os IH]; intros c; cbn.
    - destruct (spec_step c o); auto.
    - destruct (spec_step c p) as [c1 y]. destruct (IH c1) as [A B]. destruct (spec_play c1 (os ++ [o])), (spec_play c1 os); cbn in *. subst. auto. }
  destruct (X a free) as [XA XB]. rewrite XB in EA. apply app_inj_tail in EA. destruct EA as [_ EX].
  apply polite_app in P1. destruct P1 as [P1 _]. destruct free_ok as [FA FB]. destruct (spec_ok a free FA FB P1) as [_ N].
  subst x. destruct (served_state _ o d NR N S) as (q & Q). rewrite XA, Q. now apply hold_play.
Qed.
Example C125_alone_ex : exists s, polite free (firstn 9 ex_ops ++ Call :: [Lock 2 true true; Unlock 1; LockAndRun 4 true]) /\
  play lk0 (firstn 9 ex_ops ++ Call :: [Lock 2 true true; Unlock 1; LockAndRun 4 true]) =
    Some (s, firstn 9 ex_outs ++ Out true (Some 2) :: [Out true None; Out true None; Out true None]) /\
  Forall (fun o => o <> Unlock 2) [Lock 2 true true; Unlock 1; LockAndRun 4 true].
Proof. eexists. split; [cbn; repeat split; try exact I; intros [? ?]; congruence|]. split; [reflexivity|]. repeat constructor; discriminate. Qed.

(** C125.  The first in line is always one step away: it is called as soon as the device that got the
    bus last gives it back, or at once if that has happened already. *)
Theorem C125_next : forall os s xs n w, polite free os -> Forall no_recapture os -> play lk0 os = Some (s, xs) ->
  accepted os xs = served os xs ++ n :: w ->
  (exists s', play s [Call] = Some (s', [Out true (Some n)])) \/
  exists h l s', served os xs = l ++ [h] /\ play s [Unlock h; Call] = Some (s', [Out true None; Out true (Some n)]).
Proof.
  intros os s xs n w P F E AC. destruct (play_spec os s xs P E) as [-> R]. destruct free_ok as [A B].
  pose proof (order_play os free A B P F) as O. cbn [waiting free snd fst tl app] in O. rewrite AC in O. apply app_inv_head in O.
  assert (H := holder_play os free [] F). cbn [free fst snd app] in H. specialize (H ltac:(intros _ K; now elim K)). cbv zeta in H.
  destruct (spec_play free os) as [[q d] ys]. cbn [fst snd] in *. unfold waiting in O. cbn [fst snd] in O. destruct d.
  - left. subst q. destruct (play_rel [Call] s _ R) as (s' & E' & _); [cbn; auto|]. exists s'. exact E'.
  - right. destruct q as [|h q]; [discriminate|]. cbn [tl] in O. subst q. specialize (H eq_refl ltac:(discriminate)). cbn [hd_error] in H.
    unfold last_in in H. destruct (rev (served os ys)) as [|h' l] eqn:RV; [discriminate|]. injection H as ->.
    destruct (play_rel [Unlock h; Call] s _ R) as (s' & E' & _).
    { cbn. repeat split; auto. intros [K _]. discriminate. }
    exists h, (rev l), s'. split.
    + rewrite <- (rev_involutive (served os ys)), RV. reflexivity.
    + rewrite E'. cbn. rewrite Nat.eqb_refl. reflexivity.
Qed.
Example C125_next_ex : exists s s', play lk0 (firstn 10 ex_ops) = Some (s, firstn 10 ex_outs) /\
  accepted (firstn 10 ex_ops) (firstn 10 ex_outs) = served (firstn 10 ex_ops) (firstn 10 ex_outs) ++ [3; 1] /\
  play s [Unlock 2; Call] = Some (s', [Out true None; Out true (Some 3)]).
Proof. eexists. eexists. repeat split. Qed.

(** Without the proviso the lock fails: if the next device gives back the bus between being given it and
    being called, a null pointer is followed, or the device after it is called twice. *)
Theorem C125_early_refuted :
  play lk0 [LockAndRun 1 true; LockAndRun 2 true; Unlock 1; Unlock 2; Call] = None /\
  option_map (fun p => served [LockAndRun 1 true; LockAndRun 2 true; LockAndRun 3 true; Unlock 1; Unlock 2; Call; Call] (snd p))
    (play lk0 [LockAndRun 1 true; LockAndRun 2 true; LockAndRun 3 true; Unlock 1; Unlock 2; Call; Call]) = Some [1; 3; 3].
Proof. split; reflexivity. Qed.

(** A device that only tries for the bus may never get it, however often it tries and however often the
    others give it back. *)
Definition taking_turns (n : nat) : list op :=
  LockAndRun 1 true :: concat (repeat [LockAndRun 2 true; Unlock 1; Call; Lock 0 false true; LockAndRun 1 true; Unlock 2; Call; Lock 0 false true] n).
Theorem C125_starve_refuted : forall n, exists os s xs, polite free os /\ play lk0 os = Some (s, xs) /\
  (n <= count_occ Nat.eq_dec (served os xs) 1 /\ n <= count_occ Nat.eq_dec (served os xs) 2)%nat /\
  (n <= length (filter (fun o => match o with Lock 0 _ true => true | _ => false end) os))%nat /\ ~ In 0 (served os xs).
Proof.
  intros n. exists (taking_turns n).
  assert (X : forall n, polite ([1], false) (tl (taking_turns n)) /\ exists xs, spec_play ([1], false) (tl (taking_turns n)) = (([1], false), xs) /\
    served (tl (taking_turns n)) xs = concat (repeat [2; 1] n) /\
    (n <= length (filter (fun o => match o with Lock 0 _ true => true | _ => false end) (tl (taking_turns n))))%nat).
  { clear n. induction n as [|n (IP & xs & IE & IS & IL)]; [cbn; split; [auto|]; exists []; auto|].
    cbn [taking_turns tl repeat concat app] in *. split.
    - cbn. repeat split; try exact I; try (intros [? ?]; congruence). exact IP.
    - cbn [spec_play spec_step]. cbn. rewrite IE. eexists. split; [reflexivity|]. cbn. split; [now rewrite IS|lia]. }
  destruct (X n) as (IP & xs & IE & IS & IL).
  assert (P : polite free (taking_turns n)) by (unfold taking_turns; cbn [polite]; split; [exact I|exact IP]).
  destruct (play_rel _ lk0 free rel0 P) as (s & E & _). exists s, (snd (spec_play free (taking_turns n))).
  assert (SV : served (taking_turns n) (snd (spec_play free (taking_turns n))) = 1 :: concat (repeat [2; 1] n)).
  { unfold taking_turns in *. cbn [tl] in *. cbn [spec_play spec_step free existsb]. rewrite IE. cbn. now rewrite IS. }
  split; [exact P|]. split; [exact E|]. rewrite SV. clear - IL. split; [|split].
  - assert (C : count_occ Nat.eq_dec (concat (repeat [2; 1] n)) 1 = n /\ count_occ Nat.eq_dec (concat (repeat [2; 1] n)) 2 = n).
    { clear IL. induction n as [|n [A B]]; [auto|]. cbn in *. rewrite A, B. auto. }
    cbn. destruct C as [-> ->]. lia.
  - exact IL.
  - clear IL. intros [H|H]; [discriminate|]. induction n as [|n IH]; [elim H|]. cbn in H. destruct H as [H|[H|H]]; [discriminate|discriminate|auto].
Qed.

(** * C126 *)
Open Scope Z_scope.
Definition after (h : list bop) : bus := run bstep bus0 (map seen h).
Lemma after_inv h : binv (after h).
Proof. apply brun_inv, binv0. Qed.
Lemma after_app h k : after (h ++ k) = run bstep (after h) (map seen k).
Proof. unfold after. rewrite map_app. apply run_app. Qed.
Lemma after_ask h t : last (after (h ++ [Ask t])) = t mod 2 ^ 32 /\ at_ (after (h ++ [Ask t])) = at_ (after h) /\
  on (after (h ++ [Ask t])) = on (after h) /\ ons (after (h ++ [Ask t])) = ons (after h) /\ offs (after (h ++ [Ask t])) = offs (after h).
Proof. rewrite after_app. cbn. auto. Qed.

(** C126.  Once the bus is on, it stays on, without being started again, as long as the loop always runs
    within two seconds of the latest request, for any length of time. *)
Theorem C126_awake : forall h t os, on (after h) = true -> busy t os ->
  let s := after (h ++ Ask t :: os) in
  on s = true /\ ons s = ons (after h) /\ offs s = offs (after h).
Proof.
  intros h t os O B. cbv zeta. rewrite (app_assoc h [Ask t] os : h ++ Ask t :: os = _).
  destruct (after_ask h t) as (L & A & O1 & N & F). destruct (after_inv h) as [_ I].
  rewrite (after_app (h ++ [Ask t]) os). destruct (busy_run os _ t ltac:(rewrite A; now apply I) L B) as (X & Y & Z0).
  rewrite X, Y, Z0, O1, N, F. auto.
Qed.
Definition ex_boot : list bop := [Tick 5; Tick 600; Ask 900; Tick 1005].
Example C126_awake_ex : on (after ex_boot) = true /\ busy 1500 [Tick 1500; Tick 3500; Ask 3600; Tick 4000] /\
  after (ex_boot ++ [Ask 1500; Tick 1500; Tick 3500; Ask 3600; Tick 4000]) = Bus Awake 3600 true 1 0.
Proof. split; [reflexivity|]. split; [cbn; lia|reflexivity]. Qed.

(** C126.  The bus is switched off, once, as soon as the loop runs more than two seconds after the latest
    request, and stays off until there is one. *)
Theorem C126_sleeps : forall h t t1 os, on (after h) = true -> idle t (Tick t1) -> Forall (idle t) os ->
  let s := after (h ++ Ask t :: Tick t1 :: os) in
  on s = false /\ ons s = ons (after h) /\ offs s = S (offs (after h)).
Proof.
  intros h t t1 os O T B. cbv zeta. rewrite (app_assoc h [Ask t] (Tick t1 :: os) : h ++ Ask t :: Tick t1 :: os = _).
  destruct (after_ask h t) as (L & A & O1 & N & F). destruct (after_inv h) as [_ I].
  rewrite (after_app (h ++ [Ask t]) (Tick t1 :: os)). set (s := after (h ++ [Ask t])) in *.
  change (run bstep s (map seen (Tick t1 :: os))) with (run bstep (Loop s (t1 mod 2 ^ 32)) (map seen os)).
  assert (E : Loop s (t1 mod 2 ^ 32) = Bus Asleep (last s) false (ons s) (S (offs s))).
  { unfold Loop. rewrite A, (proj1 I O). unfold awake. now rewrite (used_far s t t1 L T). }
  rewrite E. rewrite (idle_run os _ t); [|reflexivity|exact L|exact B]. cbn. rewrite N, F. auto.
Qed.
Example C126_sleeps_ex : on (after ex_boot) = true /\ idle 1500 (Tick 3501) /\
  after (ex_boot ++ [Ask 1500; Tick 3501; Tick 90000]) = Bus Asleep 1500 false 1 1.
Proof. split; [reflexivity|]. split; [cbn; lia|reflexivity]. Qed.

(** C126.  A request while the bus sleeps is refused, but the next run of the loop, if it comes within
    two seconds, starts the bus, and later requests are granted. *)
Theorem C126_wakes : forall h t t1 t2, at_ (after h) = Asleep -> t <= t1 <= t + 2000 ->
  snd (inited (after h) (t mod 2 ^ 32)) = false /\
  let s := after (h ++ [Ask t; Tick t1]) in
  snd (inited s (t2 mod 2 ^ 32)) = true /\ ons s = S (ons (after h)) /\ offs s = offs (after h).
Proof.
  intros h t t1 t2 AS T. destruct (after_inv h) as [_ I]. split.
  - cbn. destruct (on (after h)); [|reflexivity]. destruct I as [I _]. rewrite AS in I. discriminate (I eq_refl).
  - rewrite (app_assoc h [Ask t] [Tick t1] : h ++ [Ask t; Tick t1] = _). destruct (after_ask h t) as (L & A & O1 & N & F).
    cbv zeta. rewrite (after_app (h ++ [Ask t]) [Tick t1]). set (s := after (h ++ [Ask t])) in *.
    change (run bstep s (map seen [Tick t1])) with (Loop s (t1 mod 2 ^ 32)). unfold Loop. rewrite A, AS, (used_near s t t1 L T).
    unfold awake. replace (used (init s) (t1 mod 2 ^ 32)) with (used s (t1 mod 2 ^ 32)) by reflexivity. rewrite (used_near s t t1 L T).
    cbn. rewrite N, F. auto.
Qed.
Example C126_wakes_ex : at_ (after (ex_boot ++ [Ask 1500; Tick 3501])) = Asleep /\
  after ((ex_boot ++ [Ask 1500; Tick 3501]) ++ [Ask 9000; Tick 9010]) = Bus Awake 9000 true 2 1.
Proof. split; reflexivity. Qed.

(** C126.  The bus is started for the first time when the loop runs a second or more after it first ran,
    and not before. *)
Theorem C126_first : forall t ts t1, 0 <= t -> t + 1000 <= t1 < 2 ^ 32 -> Forall (fun x => t <= x < t + 1000) ts ->
  let s := after (Tick t :: map Tick ts) in
  on s = false /\ ons s = 0%nat /\ ons (after (Tick t :: map Tick ts ++ [Tick t1])) = 1%nat.
Proof.
  intros t ts t1 T T1 F. cbv zeta.
  assert (S1 : after [Tick t] = Bus (Sleep (t + 1000)) 0 false 0 0).
  { unfold after. cbn [map seen run bstep Loop bus0 at_ last on ons offs]. change W with (2 ^ 32). rewrite (Z.mod_small t) by lia. rewrite (Z.mod_small (t + 1000)) by lia.
    replace (t <? t + 1000) with true by lia. reflexivity. }
  assert (S2 : after (Tick t :: map Tick ts) = Bus (Sleep (t + 1000)) 0 false 0 0).
  { rewrite (app_assoc [] [Tick t] (map Tick ts) : Tick t :: map Tick ts = [Tick t] ++ map Tick ts), after_app, S1. clear S1. induction F as [|x ts X F IH]; [reflexivity|].
    cbn [map seen run bstep]. unfold Loop at 1. cbn [at_]. rewrite Z.mod_small by lia. replace (x <? t + 1000) with true by lia. exact IH. }
  rewrite S2. split; [reflexivity|]. split; [reflexivity|].
  change (Tick t :: map Tick ts ++ [Tick t1]) with ((Tick t :: map Tick ts) ++ [Tick t1]). rewrite after_app, S2.
  cbn [map seen run bstep Loop at_]. rewrite Z.mod_small by lia. replace (t1 <? t + 1000) with false by lia. unfold awake. destruct (used _ _); reflexivity.
Qed.
Example C126_first_ex : Forall (fun x => 7 <= x < 1007) [8; 500; 1006] /\ after (map Tick [7; 8; 500; 1006; 1010]) = Bus Awake 0 true 1 0.
Proof. split; [repeat constructor; lia|reflexivity]. Qed.

(** The bus does not sleep until it is asked: nobody having asked for 2^31 ms and two seconds, 24.9
    days, the loop starts it. *)
Theorem C126_spurious_refuted : forall h t t1 t2, on (after h) = true -> idle t (Tick t1) ->
  t + 2000 + 2 ^ 31 < t2 < t + 2 ^ 32 -> on (after (h ++ [Ask t; Tick t1; Tick t2])) = true.
Proof.
  intros h t t1 t2 O T T2. rewrite (app_assoc h [Ask t] [Tick t1; Tick t2] : h ++ [Ask t; Tick t1; Tick t2] = _).
  destruct (after_ask h t) as (L & A & O1 & N & F). destruct (after_inv h) as [_ I].
  rewrite (after_app (h ++ [Ask t]) [Tick t1; Tick t2]). set (s := after (h ++ [Ask t])) in *.
  change (run bstep s (map seen [Tick t1; Tick t2])) with (Loop (Loop s (t1 mod 2 ^ 32)) (t2 mod 2 ^ 32)).
  assert (E : Loop s (t1 mod 2 ^ 32) = Bus Asleep (last s) false (ons s) (S (offs s))).
  { unfold Loop. rewrite A, (proj1 I O). unfold awake. now rewrite (used_far s t t1 L T). }
  rewrite E. unfold Loop. cbn [at_]. set (z := Bus _ _ _ _ _). rewrite (used_again z t t2 L T2). unfold awake.
  replace (used (init z) (t2 mod 2 ^ 32)) with (used z (t2 mod 2 ^ 32)) by reflexivity. rewrite (used_again z t t2 L T2). reflexivity.
Qed.
Example C126_spurious_ex : on (after ex_boot) = true /\ idle 1500 (Tick 3501) /\ 1500 + 2000 + 2 ^ 31 < 2147487149 < 1500 + 2 ^ 32 /\
  after (ex_boot ++ [Ask 1500; Tick 3501; Tick 2147487149]) = Bus Awake 1500 true 2 1.
Proof. split; [reflexivity|]. split; [cbn; lia|]. split; [lia|reflexivity]. Qed.

(** Holding the bus does not keep it on: a device that got it is left with the bus switched off two
    seconds after the latest request of any device. *)
Theorem C126_held_refuted : exists h t d s, snd (inited (after h) t) = true /\
  play lk0 [LockAndRun d true] = Some (s, [Out true (Some d)]) /\ cur s = Some d /\
  on (after (h ++ [Ask t; Tick (t + 2001)])) = false.
Proof. exists ex_boot, 1500, 1%nat. eexists. repeat split. Qed.
Print Assumptions C125_queue.
Print Assumptions C125_order.
Print Assumptions C125_alone.
Print Assumptions C125_next.
Print Assumptions C125_early_refuted.
Print Assumptions C125_starve_refuted.
Print Assumptions C126_awake.
Print Assumptions C126_sleeps.
Print Assumptions C126_wakes.
Print Assumptions C126_first.
Print Assumptions C126_spurious_refuted.
Print Assumptions C126_held_refuted.
