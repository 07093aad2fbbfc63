(** C109, C110: the buffers the sound is played from are filled, the emptiest first, and no request to fill them
    leaves the filling stuck. Definitions: WorkSpec.v. *)
From Coq Require Import ZArith List Bool Lia.
From Verif Require Import Machine WorkModel WorkSpec WorkProofs.
Import ListNotations.
Open Scope Z_scope.

(** C109: one run of the filler leaves every buffer full, unless its stream has ended or there is none, as long as
    the reads it takes (two for each stream, and one more for each short answer) are no more than fifty. *)
Theorem C109_full l : Forall sound_stream l -> (effort l <= 50)%nat -> Forall satisfied (fst (ProcessAudioStreams false l)).
Proof. apply all_full. Qed.
Example C109_full_ex :
  let l := [Stream 512 1000 1100 false true false [(200, false); (0, false)]; Stream 512 0 512 false true false []; Stream 64 3 10 false true false [(5, false); (0, true)]] in
  map buffered (fst (ProcessAudioStreams false l)) = [512; 512; 12] /\ map eof_ (fst (ProcessAudioStreams false l)) = [false; false; true].
Proof. vm_compute. auto. Qed.

(** C109: whichever stream is read, none wanted more at that time, and it had room. A paused player wants very little. *)
Theorem C109_order l : Forall sound_stream l ->
  Forall (fun e => exists d, nth_error (snd e) (fst e) = Some d /\ 0 < wants d /\ Forall (fun x => wants x <= wants d) (snd e))
    (snd (ProcessAudioStreams false l)).
Proof. apply rounds_order. Qed.
Example C109_order_ex :
  let l := [Stream 512 0 400 false true false []; Stream 512 0 0 false true true []; Stream 512 0 100 false true false []] in
  map fst (snd (ProcessAudioStreams false l)) = [2%nat; 0%nat; 1%nat].
Proof. vm_compute. auto. Qed.

(** C109: nothing is read while the card is locked. *)
Theorem C109_locked l : ProcessAudioStreams true l = (l, []).
Proof. reflexivity. Qed.
Example C109_locked_ex : fst (ProcessAudioStreams true [Stream 512 0 400 false true false []]) = [Stream 512 0 400 false true false []].
Proof. reflexivity. Qed.

(** C109, a finding: without the bound on the reads the claim is false. A stream whose reads go on giving nothing, without
    its end being reached, keeps every stream that wants less from being read at all. *)
Theorem C109_starved_refuted N r d : 0 < N -> sound_stream d -> wants d < N ->
  let stuck := Stream N 0 0 false true false (repeat (0, false) 50 ++ r) in
  nth_error (fst (ProcessAudioStreams false [stuck; d])) 1 = Some d.
Proof. intros A B C stuck. unfold ProcessAudioStreams, stuck. rewrite starved_rounds; auto. Qed.
Example C109_starved_ex :
  let d := Stream 512 0 1 false true false [] in sound_stream d /\ wants d < 512 /\ ~ satisfied d.
Proof. cbn. unfold sound_stream, wants, satisfied. cbn. repeat split; try lia; try constructor. Qed.

(** C110: whatever the interrupts, the request flag is set exactly when a run is queued or under way, never both, and
    never more than one. *)
Theorem C110_one_run l ops :
  let s := after l ops in
  (queued s <= 1)%nat /\ (queued s = 1%nat -> running s = false) /\
  (pending s = true <-> queued s = 1%nat \/ running s = true).
Proof.
  intros s. pose proof (after_Inv l ops) as I. fold s in I. unfold Inv, running in *.
  destruct I as [(P & Q & W)|[(P & Q & W)|(P & Q & W)]]; rewrite P, Q; try rewrite W.
  - repeat split; auto.
  - repeat split; auto; try discriminate. intros _. right. destruct (where_ s); auto.
  - repeat split; auto; try discriminate. intros [H|H]; discriminate.
Qed.
Example C110_one_run_ex :
  let l := [Stream 512 0 512 false true false []] in
  let s := after l [Take 0 44; Take 0 44; Work; Work; Request; Work] in running s = true /\ queued s = 0%nat /\ pending s = true.
Proof. vm_compute. auto. Qed.

(** C110: a run ends after a bounded number of its own steps, whatever interrupts it; then a request starts another one. *)
Theorem C110_ends l ops more : (50 * (length l + 2) + 3 <= count_work more)%nat ->
  exists a b, more = a ++ b /\ running (after l (ops ++ a)) = false.
Proof.
  intros H. destruct (ends more (after l ops)) as (a & b & E & X).
  - pose proof (togo_max (after l ops)) as T. unfold after in T at 2. rewrite run_length in T. cbn [streams state0] in T. lia.
  - exists a, b. split; [exact E|]. unfold after. rewrite run_app. exact X.
Qed.
Example C110_ends_ex :
  let l := [Stream 512 0 512 false true false []] in
  running (after l [Take 0 44; Work; Work]) = true /\
  running (after l ([Take 0 44; Work; Work] ++ [Work; Take 0 44; Work; Work; Take 0 44; Work; Work; Work; Work; Take 0 44; Work])) = false.
Proof. vm_compute. auto. Qed.

(** C110: a buffer stays within its bounds under every interleaving of filling and reading. *)
Theorem C110_bounds l ops : Forall sound_stream l -> sane ops -> Forall sound_stream (streams (after l ops)).
Proof. intros F S. exact (proj1 (run_streams ops (state0 l) F S)). Qed.
Example C110_bounds_ex :
  map buffered (streams (after [Stream 512 0 512 false true false []] ([Take 0 44; Work; Work; Work; Take 0 600; Work; Take 0 9; Work]))) = [503].
Proof. vm_compute. reflexivity. Qed.

(** C110: a request made between runs, with the card free, fills every buffer once the run it starts is let through. *)
Theorem C110_filled l ops n : Forall sound_stream l -> sane ops -> (effort l <= 50)%nat ->
  sd_locked (after l ops) = false -> running (after l ops) = false -> (whole_run_steps l <= n)%nat ->
  Forall satisfied (streams (after l (ops ++ Request :: works n))).
Proof. apply run_filled. Qed.
Example C110_filled_ex :
  let l := [Stream 512 0 512 false true false []; Stream 512 0 3 false true false [(9, false)]] in
  (effort l <= 50)%nat /\ running (after l [Take 0 44]) = false /\ sd_locked (after l [Take 0 44]) = false /\
  map buffered (streams (after l [Take 0 44])) = [468; 3] /\
  map buffered (streams (after l ([Take 0 44] ++ Request :: works (whole_run_steps l)))) = [512; 512].
Proof. vm_compute. repeat split; auto. repeat (apply le_n || apply le_S). Qed.

(** C110: so does a read by the audio interrupt. *)
Theorem C110_read_filled l ops k x n : Forall sound_stream l -> sane ops -> 0 <= x -> (effort l <= 50)%nat ->
  sd_locked (after l ops) = false -> running (after l ops) = false -> (whole_run_steps l <= n)%nat ->
  Forall satisfied (streams (after l (ops ++ Take k x :: works n))).
Proof.
  intros F S X E K RU N. rewrite take_request. destruct (take_rest l ops k x) as [R1 R2]. apply run_filled; auto; try congruence.
  apply Forall_app. split; [exact S|]. repeat constructor. exact X.
Qed.
Example C110_read_filled_ex :
  let l := [Stream 512 0 512 false true false []] in
  map buffered (streams (after l [Take 0 100])) = [412] /\ map buffered (streams (after l (Take 0 100 :: works (whole_run_steps l)))) = [512].
Proof. vm_compute. auto. Qed.

(** C110, a finding: a request made in the last step of a run is lost. The run has looked at all the buffers already, and
    ends by clearing the flag that made the request do nothing. *)
Theorem C110_lost_refuted :
  ~ (forall l ops n, Forall sound_stream l -> sane ops -> (effort l <= 50)%nat -> sd_locked (after l ops) = false ->
     (whole_run_steps l <= n)%nat -> Forall satisfied (streams (after l (ops ++ Request :: works n)))).
Proof.
  intros H. set (l := [Stream 512 0 512 false true false []]). specialize (H l [Request; Work; Work; Work; Take 0 44] (whole_run_steps l)).
  assert (X : Forall satisfied (streams (after l ([Request; Work; Work; Work; Take 0 44] ++ Request :: works (whole_run_steps l))))).
  { apply H; [..|apply le_n].
    - constructor; [|constructor]. unfold sound_stream. cbn. repeat split; try lia. constructor.
    - repeat constructor. lia.
    - cbn. lia.
    - reflexivity. }
  assert (E : streams (after l ([Request; Work; Work; Work; Take 0 44] ++ Request :: works (whole_run_steps l))) = [Stream 512 44 512 false true false []])
    by (vm_compute; reflexivity).
  rewrite E in X. inversion X as [|? ? Y]; subst. destruct Y as [Y|[Y|Y]]; cbn in Y; try discriminate; lia.
Qed.
Example C110_lost_ex : map buffered (streams (after [Stream 512 0 512 false true false []] ([Request; Work; Work; Work; Take 0 44] ++ works 1000))) = [468].
Proof. vm_compute. reflexivity. Qed.

(** C110, a finding: requests made while the card is locked are dropped, and unlocking it makes none. *)
Theorem C110_unlock_refuted :
  ~ (forall l ops n, Forall sound_stream l -> sane ops -> (effort l <= 50)%nat ->
     (whole_run_steps l <= n)%nat -> Forall satisfied (streams (after l (ops ++ [Lock true; Request] ++ works n ++ [Lock false] ++ works n)))).
Proof.
  intros H. set (l := [Stream 512 0 12 false true false []]). specialize (H l [] (whole_run_steps l)).
  assert (X : Forall satisfied (streams (after l ([] ++ [Lock true; Request] ++ works (whole_run_steps l) ++ [Lock false] ++ works (whole_run_steps l))))).
  { apply H; [..|apply le_n].
    - constructor; [|constructor]. unfold sound_stream. cbn. repeat split; try lia. constructor.
    - constructor.
    - cbn. lia. }
  assert (E : streams (after l ([] ++ [Lock true; Request] ++ works (whole_run_steps l) ++ [Lock false] ++ works (whole_run_steps l))) = l)
    by (vm_compute; reflexivity).
  rewrite E in X. inversion X as [|? ? Y]; subst. destruct Y as [Y|[Y|Y]]; cbn in Y; try discriminate; lia.
Qed.
Example C110_unlock_ex : pending (after [Stream 512 0 12 false true false []] ([Lock true; Request] ++ works 3 ++ [Lock false])) = false.
Proof. vm_compute. reflexivity. Qed.

Print Assumptions C109_full.
Print Assumptions C109_order.
Print Assumptions C109_locked.
Print Assumptions C109_starved_refuted.
Print Assumptions C110_one_run.
Print Assumptions C110_ends.
Print Assumptions C110_bounds.
Print Assumptions C110_filled.
Print Assumptions C110_read_filled.
Print Assumptions C110_lost_refuted.
Print Assumptions C110_unlock_refuted.
