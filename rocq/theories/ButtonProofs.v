(** Proofs about buttons. *)
From Coq Require Import ZArith List Bool Lia ZifyBool ZifyNat.
From Verif Require Import Machine ButtonModel ButtonSpec.
Import ListNotations.
Open Scope Z_scope.

Lemma since_small now t : 0 <= t <= now -> now < 2 ^ 32 -> since now t = now - t.
Proof. intros A B. unfold since. apply Z.mod_small. lia. Qed.

Section Button.
  Variable timeout : Z. Hypothesis T0 : 0 <= timeout.
  Definition idx (x : pos) : option nat :=
    match x with P87 => Some 0%nat | P90 => Some 1%nat | P93 => Some 2%nat | P96 => Some 3%nat | _ => None end.
  Definition brel (b : button) (ph : phase) : Prop :=
    match ph with
    | Up t n s => at_ b = P70 /\ push_millis_ b = t /\ press_count_ b = n /\ saved b = s /\ 0 <= n <= 4
    | Down t n k e low =>
      push_millis_ b = t /\ press_count_ b = n /\ saved b = false /\ mod_ b = negb e /\ 1 <= n <= 4 /\ (k <= 3)%nat /\
      match idx (at_ b) with
      | Some j => (j <= k)%nat /\ (low = 0%nat -> e = false -> j = k) /\ (low <= k - j)%nat
      | None => at_ b = P106 /\ (low <> 0%nat \/ e = true) /\ (low <= k + 1)%nat
      end
    end.
  Definition drel (d : debouncer) (ph : phase) (prev : Z) (ps : list poll) : Prop :=
    match ph with
    | Up _ _ _ => pushed_ d = false /\ (dpos d = DStart \/ 0 <= last_off_ d <= prev)
    | Down _ _ _ _ low =>
      dpos d <> DStart /\ 0 <= last_off_ d <= prev /\
      match low with
      | O => dpos d = DHold /\ prev - last_off_ d > timeout
      | _ => pushed_ d = false /\ Forall (fun q => now q - last_off_ d <= timeout) (firstn (5 - low) ps)
      end
    end.
  Lemma kinds_send p e n : kinds [send p e n] = [(e, n)].
  Proof. unfold kinds, send. destruct (handles p (e + SECTION * n)); reflexivity. Qed.
  Lemma kinds_send2 p e n e' n' : kinds [send p e n; send p e' n'] = [(e, n); (e', n')].
  Proof. unfold kinds. cbn [map]. unfold send. destruct (handles p (e + SECTION * n)), (handles p (e' + SECTION * n')); reflexivity. Qed.

  (** The debouncer alone, one poll. *)
  Lemma deb_down d t n k e low prev p ps :
    drel d (Down t n k e low) prev (p :: ps) -> prev <= now p < 2 ^ 32 ->
    Forall (fun q => now q - now p <= timeout) (firstn 4 ps) ->
    (low <= 4)%nat ->
    let d' := deb_step timeout d (now p) (raw p) in
    if pushed_ d' then low = 0%nat /\ (forall t' n' k' e', drel d' (Down t' n' k' e' 0) (now p) ps)
    else (forall t' n' k' e', drel d' (Down t' n' k' e' (S low)) (now p) ps) /\ (forall t' n' s', drel d' (Up t' n' s') (now p) ps).
  Proof.
    intros D TM Q L d'. destruct D as (D1 & D2 & D3). unfold d', deb_step. destruct (dpos d) eqn:DP; [congruence| |].
    - (* after an unpressed sample: low is positive *)
      destruct low as [|low]; [destruct D3; congruence|]. destruct D3 as (D3 & D4).
      destruct (raw p); cbn [pushed_].
      + rewrite D3. split; intros; cbn [drel dpos last_off_ pushed_].
        * split; [congruence|]. split; [lia|]. split; [reflexivity|].
          destruct low as [|[|[|low]]]; cbn [Nat.sub firstn] in *; inversion D4; subst; auto; constructor.
        * split; [reflexivity|right; lia].
      + split; intros; cbn [drel dpos last_off_ pushed_].
        * split; [congruence|]. split; [lia|]. split; [reflexivity|].
          rewrite Forall_forall in *. intros q IN. apply Q. revert IN. destruct low as [|[|[|low]]]; cbn [Nat.sub firstn]; destruct ps as [|? [|? [|? [|? ?]]]]; cbn [firstn In]; tauto.
        * split; [reflexivity|right; lia].
    - destruct (raw p); cbn [pushed_].
      + rewrite since_small by lia. destruct low as [|low].
        * destruct D3 as (D3 & D4). replace (now p - last_off_ d >? timeout) with true by lia. split; [reflexivity|]. intros.
          cbn [drel dpos last_off_ pushed_]. split; [congruence|]. split; [lia|]. split; [reflexivity|lia].
        * destruct D3 as (D3 & D4). 
          assert (NP : now p - last_off_ d <= timeout).
          { destruct (5 - S low)%nat as [|m] eqn:M; [lia|]. cbn [firstn] in D4. inversion D4; subst. assumption. }
          replace (now p - last_off_ d >? timeout) with false by lia. split; intros; cbn [drel dpos last_off_ pushed_].
          -- split; [congruence|]. split; [lia|]. split; [reflexivity|].
             destruct low as [|[|[|low]]]; cbn [Nat.sub firstn] in *; inversion D4; subst; auto; constructor.
          -- split; [reflexivity|right; lia].
      + split; intros; cbn [drel dpos last_off_ pushed_].
        * split; [congruence|]. split; [lia|]. split; [reflexivity|].
          rewrite Forall_forall in *. intros q IN. apply Q. revert IN. destruct low as [|[|[|[|low]]]]; cbn [Nat.sub firstn]; destruct ps as [|? [|? [|? [|? ?]]]]; cbn [firstn In]; tauto.
        * split; [reflexivity|right; lia].
  Qed.
  Lemma deb_up d t n s prev p ps :
    drel d (Up t n s) prev (p :: ps) -> 0 <= prev <= now p -> now p < 2 ^ 32 ->
    let d' := deb_step timeout d (now p) (raw p) in
    if pushed_ d' then (forall t' n' k' e', drel d' (Down t' n' k' e' 0) (now p) ps)
    else forall t' n' s', drel d' (Up t' n' s') (now p) ps.
  Proof.
    intros (P & D) T1 T2 d'. unfold d', deb_step. destruct (dpos d) eqn:DP.
    - cbn [pushed_]. intros. cbn. split; [reflexivity|right; lia].
    - destruct D as [D|D]; [congruence|]. destruct (raw p); cbn [pushed_]; [rewrite P|]; intros; cbn; (split; [reflexivity|right; lia]).
    - destruct D as [D|D]; [congruence|]. destruct (raw p); cbn [pushed_].
      + rewrite since_small by lia. destruct (now p - last_off_ d >? timeout) eqn:E; intros; cbn.
        * split; [congruence|]. split; [lia|]. split; [reflexivity|lia].
        * split; [reflexivity|right; lia].
      + intros; cbn. split; [reflexivity|right; lia].
  Qed.

  Ltac bsplit := repeat match goal with |- _ /\ _ => split end; try reflexivity; try lia.
  Lemma but_up b t n s p d : brel b (Up t n s) ->
    let '(b', out) := but_step b p d in
    exists ph', follows (Up t n s) p d out ph' /\ brel b' ph' /\
      (if d then exists n', ph' = Down (now p) n' 0 false 0 else exists t' n' s', ph' = Up t' n' s').
  Proof.
    intros (A & B & C & D & E). unfold but_step. rewrite A, B, C, D. destruct d.
    - set (n' := if since (now p) t <? 500 then if n <? 4 then n + 1 else n else 1).
      assert (N' : n' = if since (now p) t <? 500 then Z.min (n + 1) 4 else 1).
      { unfold n'. destruct (since (now p) t <? 500); [|reflexivity]. destruct (n <? 4) eqn:X; lia. }
      exists (Down (now p) n' 0 false 0). split; [apply F_press; [exact N'|apply kinds_send]|]. split; [|exists n'; reflexivity].
      cbn [brel push_millis_ press_count_ saved mod_ at_ idx negb]. split; [reflexivity|]. split; [reflexivity|]. split; [reflexivity|]. split; [reflexivity|].
      split. { rewrite N'. destruct (since (now p) t <? 500); lia. } split; [lia|]. lia.
    - destruct (s && (since (now p) t >? 500)) eqn:X.
      + apply andb_prop in X as (X1 & X2). subst s. rewrite X1. exists (Up t n false). split; [apply F_saved; [lia|apply kinds_send]|]. split; [|eauto].
        cbn. auto.
      + exists (Up t n s). split; [|split; [cbn; auto|eauto]]. apply F_up. intros ->. cbn [andb] in X. lia.
  Qed.
  Lemma but_down b t n k e low p d : brel b (Down t n k e low) -> (d = true -> low = 0%nat) ->
    let '(b', out) := but_step b p d in
    exists ph', follows (Down t n k e low) p d out ph' /\ brel b' ph' /\
      (if d then exists k' e', ph' = Down t n k' e' 0 else (exists t' n' s', ph' = Up t' n' s') \/ (exists k' e', ph' = Down t n k' e' (S low))) /\ (low <= 4)%nat.
  Proof.
    intros (A & B & C & D & E & F & G) DL.
    assert (L4 : (low <= 4)%nat) by (destruct (idx (at_ b)); lia).
    unfold but_step. rewrite A, B, C, D. rewrite <- negb_orb. set (m := e || eat p) in *.
    (* unpressed or taken over: leaving the nested loops *)
    assert (LEAVE : forall x, (d = false \/ m = true) ->
      (forall j, idx x = Some j -> (j < k)%nat /\ (low < k - j)%nat) -> (idx x = None -> x = P106) ->
      (idx x = None -> (low <= k)%nat) ->
      exists ph', follows (Down t n k e low) p d [] ph' /\ brel (Button x t n false (negb m)) ph' /\
        (if d then exists k' e', ph' = Down t n k' e' 0 else (exists t' n' s', ph' = Up t' n' s') \/ (exists k' e', ph' = Down t n k' e' (S low))) /\ (low <= 4)%nat).
    { intros x DM J N NL. destruct d.
      - destruct DM as [DM|DM]; [discriminate|]. pose proof (DL eq_refl) as L0. rewrite L0 in *. exists (Down t n k true 0).
        split; [apply F_taken; exact DM|]. split; [|split; [exists k, true; reflexivity|lia]].
        cbn [brel push_millis_ press_count_ saved mod_ at_]. rewrite DM. cbn [negb].
        split; [reflexivity|]. split; [reflexivity|]. split; [reflexivity|]. split; [reflexivity|]. split; [lia|]. split; [lia|].
        destruct (idx x) as [j|] eqn:IX.
        + specialize (J j eq_refl). split; [lia|]. split; [discriminate|lia].
        + split; [auto|]. split; [auto|lia].
      - exists (Down t n k m (S low)). split; [apply F_low|].
        { destruct (idx x) as [j|] eqn:IX; [specialize (J j eq_refl); lia|specialize (NL eq_refl); lia]. }
        split; [|split; [right; exists k, m; reflexivity|lia]].
        cbn [brel push_millis_ press_count_ saved mod_ at_].
        split; [reflexivity|]. split; [reflexivity|]. split; [reflexivity|]. split; [reflexivity|]. split; [lia|]. split; [lia|].
        destruct (idx x) as [j|] eqn:IX.
        + specialize (J j eq_refl). split; [lia|]. split; [discriminate|lia].
        + split; [auto|]. split; [left; discriminate|specialize (NL eq_refl); lia]. }
    (* pressed and ours *)
    assert (HOLD : forall j x y limit evn, d = true -> m = false -> idx x = Some j -> idx y = Some (S j) -> (j <= k)%nat -> (low = 0%nat -> e = false -> j = k) ->
      threshold j = Some (limit, evn) ->
      let '(b', out) := (if since (now p) t >? limit then (Button y t n false (negb m), [send p evn n]) else (Button x t n false (negb m), [])) in
      exists ph', follows (Down t n k e low) p d out ph' /\ brel b' ph' /\
        (if d then exists k' e', ph' = Down t n k' e' 0 else (exists t' n' s', ph' = Up t' n' s') \/ (exists k' e', ph' = Down t n k' e' (S low))) /\ (low <= 4)%nat).
    { intros j x y limit evn -> M IX IY JK JE TH. pose proof (DL eq_refl) as L0. rewrite L0 in *.
      assert (e = false /\ eat p = false) as (E0 & P0) by (unfold m in M; destruct e, (eat p); auto). rewrite E0 in *.
      specialize (JE eq_refl eq_refl). subst j.
      assert (K2 : (k <= 2)%nat) by (destruct k as [|[|[|k]]]; cbn in TH; try discriminate; lia).
      destruct (since (now p) t >? limit) eqn:X.
      - exists (Down t n (S k) false 0). split; [apply (F_hold t n k p _ limit evn); [exact P0|exact TH|lia|apply kinds_send]|].
        split; [|split; [exists (S k), false; reflexivity|lia]]. cbn [brel push_millis_ press_count_ saved mod_ at_]. rewrite IY, M. cbn [negb].
        split; [reflexivity|]. split; [reflexivity|]. split; [reflexivity|]. split; [reflexivity|]. split; [lia|]. split; [lia|]. split; [lia|]. split; [auto|lia].
      - exists (Down t n k false 0). split; [apply F_still; [exact P0|]|].
        { intros l' e' TH'. rewrite TH in TH'. inversion TH'; subst. lia. }
        split; [|split; [exists k, false; reflexivity|lia]]. cbn [brel push_millis_ press_count_ saved mod_ at_]. rewrite IX, M. cbn [negb].
        split; [reflexivity|]. split; [reflexivity|]. split; [reflexivity|]. split; [reflexivity|]. split; [lia|]. split; [lia|]. split; [lia|]. split; [auto|lia]. }
    destruct (at_ b) eqn:AT; cbn [idx] in G.
    - destruct G as (G & _). discriminate.
    - destruct G as (G1 & G2 & G3). destruct (d && negb m) eqn:DM.
      + apply andb_prop in DM as (-> & DM). apply (HOLD 0%nat P87 P90 300 HELD); try reflexivity; try assumption. destruct m; [discriminate|reflexivity].
      + apply LEAVE; [destruct d, m; auto| | |]; cbn [idx]; try discriminate; try reflexivity; lia.
    - destruct G as (G1 & G2 & G3). destruct (d && negb m) eqn:DM.
      + apply andb_prop in DM as (-> & DM). apply (HOLD 1%nat P90 P93 800 HELD_MEDIUM); try reflexivity; try assumption. destruct m; [discriminate|reflexivity].
      + apply LEAVE; [destruct d, m; auto| | |]; cbn [idx]; try discriminate; try reflexivity. intros j J; inversion J; subst; lia.
    - destruct G as (G1 & G2 & G3). destruct (d && negb m) eqn:DM.
      + apply andb_prop in DM as (-> & DM). apply (HOLD 2%nat P93 P96 2000 HELD_LONG); try reflexivity; try assumption. destruct m; [discriminate|reflexivity].
      + apply LEAVE; [destruct d, m; auto| | |]; cbn [idx]; try discriminate; try reflexivity. intros j J; inversion J; subst; lia.
    - destruct G as (G1 & G2 & G3). destruct (d && negb m) eqn:DM.
      + apply andb_prop in DM as (-> & DM). pose proof (DL eq_refl) as L0. rewrite L0 in *.
        assert (M : m = false) by (destruct m; [discriminate|reflexivity]). assert (e = false /\ eat p = false) as (E0 & P0) by (unfold m in M; destruct e, (eat p); auto). rewrite E0 in *.
        exists (Down t n k false 0). assert (k = 3%nat) by lia. subst k. split; [apply F_still; [exact P0|]|]. { intros l' e' TH'. discriminate. }
        split; [|split; [exists 3%nat, false; reflexivity|lia]]. cbn [brel push_millis_ press_count_ saved mod_ at_ idx]. rewrite M.
        split; [reflexivity|]. split; [reflexivity|]. split; [reflexivity|]. split; [reflexivity|]. split; [lia|]. split; [lia|]. split; [lia|]. split; [auto|lia].
      + apply LEAVE; [destruct d, m; auto| | |]; cbn [idx]; try discriminate; try reflexivity. intros j J; inversion J; subst; lia.
    - destruct G as (_ & G1 & G2). destruct d.
      + pose proof (DL eq_refl) as L0. rewrite L0 in *. destruct G1 as [G1|G1]; [lia|]. apply LEAVE; cbn [idx]; try discriminate; try reflexivity; try lia.
      + destruct (negb m && negb (eat2 p)) eqn:ME.
        * assert (M : m = false) by (destruct m; [discriminate|reflexivity]). assert (e = false /\ eat p = false) as (E0 & P0) by (unfold m in M; destruct e, (eat p); auto).
          assert (P2 : eat2 p = false) by (destruct (eat2 p); [rewrite andb_false_r in ME; discriminate|reflexivity]). subst e.
          destruct (since (now p) t <? 500) eqn:X; [|destruct (since (now p) t <? 2500) eqn:Y].
          -- eexists. split; [eapply F_short; [exact P0|exact P2|lia|apply kinds_send2]|]. split; [|split; [left; eauto|exact L4]].
             cbn [brel at_ push_millis_ press_count_ saved]. split; [reflexivity|]. split; [reflexivity|]. split; [reflexivity|]. split; [destruct (ok (send p CLICK_SHORT n)); reflexivity|lia].
          -- eexists. split; [eapply F_long; [exact P0|exact P2|lia|apply kinds_send2]|]. split; [|split; [left; eauto|exact L4]].
             cbn [brel at_ push_millis_ press_count_ saved]. split; [reflexivity|]. split; [reflexivity|]. split; [reflexivity|]. split; [reflexivity|lia].
          -- eexists. split; [eapply F_slow; [exact P0|exact P2|lia|apply kinds_send]|]. split; [|split; [left; eauto|exact L4]].
             cbn [brel at_ push_millis_ press_count_ saved]. split; [reflexivity|]. split; [reflexivity|]. split; [reflexivity|]. split; [reflexivity|lia].
        * eexists. split; [eapply F_eaten; [|apply kinds_send]|]. { fold m. destruct m; [reflexivity|]. cbn [orb]. destruct (eat2 p); [reflexivity|discriminate]. }
          split; [|split; [left; eauto|exact L4]].
          cbn [brel at_ push_millis_ press_count_ saved]. split; [reflexivity|]. split; [reflexivity|]. split; [reflexivity|]. split; [reflexivity|lia].
  Qed.
  Lemma button_cycle ps : forall d b ph prev, brel b ph -> drel d ph prev ps -> 0 <= prev -> forward prev ps -> quick timeout ps ->
    exists ph', cycle ph ps (run_outs (poll_step timeout) (d, b) ps) ph' /\
      let '(d', b') := run_state (poll_step timeout) (d, b) ps in brel b' ph'.
  Proof.
    induction ps as [|p ps IH]; intros d b ph prev BR DR P0 FW QU; [exists ph; split; [constructor|exact BR]|].
    cbn [forward quick] in FW, QU. destruct FW as (FW1 & FW2). destruct QU as (Q1 & Q2).
    set (d' := deb_step timeout d (now p) (raw p)) in *.
    assert (PS : forall b' out, but_step b p (pushed_ d') = (b', out) -> poll_step timeout (d, b) p = ((d', b'), (pushed_ d', out))).
    { intros b' out E. unfold poll_step. cbn [fst snd]. fold d'. rewrite E. reflexivity. }
    cbn [run_outs run_state].
    destruct ph as [t n s|t n k e low].
    - pose proof (deb_up d t n s prev p ps DR) as DU. cbv zeta in DU. fold d' in DU. specialize (DU ltac:(lia) ltac:(lia)).
      pose proof (but_up b t n s p (pushed_ d') BR) as BU. destruct (but_step b p (pushed_ d')) as (b', out) eqn:BS. rewrite (PS b' out eq_refl). cbn [fst]. destruct BU as (ph1 & F & BR' & SH).
      assert (DR' : drel d' ph1 (now p) ps).
      { destruct (pushed_ d'); [destruct SH as (n' & ->)|destruct SH as (t' & n' & s' & ->)]; apply DU. }
      destruct (IH d' b' ph1 (now p) BR' DR') as (ph2 & C & R); try assumption; [lia|]. exists ph2. split; [|exact R]. econstructor; eauto.
    - assert (L4 : (low <= 4)%nat) by (destruct BR as (_ & _ & _ & _ & _ & ? & G); destruct (idx (at_ b)); lia).
      pose proof (deb_down d t n k e low prev p ps DR FW1 Q1 L4) as DD. cbv zeta in DD. fold d' in DD.
      assert (DL : pushed_ d' = true -> low = 0%nat) by (intros X; rewrite X in DD; apply DD).
      pose proof (but_down b t n k e low p (pushed_ d') BR DL) as BU. destruct (but_step b p (pushed_ d')) as (b', out) eqn:BS. rewrite (PS b' out eq_refl). cbn [fst]. destruct BU as (ph1 & F & BR' & SH & _).
      assert (DR' : drel d' ph1 (now p) ps).
      { destruct (pushed_ d'); [destruct SH as (k' & e' & ->); apply DD|destruct SH as [(t' & n' & s' & ->)|(k' & e' & ->)]; apply DD]. }
      destruct (IH d' b' ph1 (now p) BR' DR') as (ph2 & C & R); try assumption; [lia|]. exists ph2. split; [|exact R]. econstructor; eauto.
  Qed.
End Button.

(** * Debouncing *)
Section Deb.
  Variable timeout : Z.
  Definition deb_run (d : debouncer) (samples : list (Z * bool)) : debouncer :=
    run (fun d s => deb_step timeout d (fst s) (snd s)) d samples.
  Definition sorted_samples (l : list (Z * bool)) : Prop := (* newest first *)
    forall i j d, (i <= j < length l)%nat -> 0 <= fst (nth j l d) <= fst (nth i l d) /\ fst (nth i l d) < 2 ^ 32.
  Lemma last_unpressed_le l t0 : sorted_samples l -> last_unpressed l = Some t0 -> forall d, 0 <= t0 <= fst (nth 0 l d).
  Proof.
    induction l as [|(t, x) l IH]; intros S E d; [discriminate|]. cbn [last_unpressed] in E. cbn [nth fst].
    assert (0 <= t) by (specialize (S 0%nat 0%nat d); cbn in S; lia).
    destruct l as [|(t1, x1) l].
    - inversion E; subst. lia.
    - destruct x; [|inversion E; subst; lia].
      assert (S' : sorted_samples ((t1, x1) :: l)). { intros i j d' L. apply (S (Datatypes.S i) (Datatypes.S j) d'). cbn [length] in *. lia. }
      specialize (IH S' E d). cbn [nth fst] in IH. specialize (S 0%nat 1%nat d). cbn in S. lia.
  Qed.
  Lemma deb_state g l : sorted_samples l -> l <> [] ->
    let d := deb_run (Deb DStart g false) (rev l) in
    last_unpressed l = Some (last_off_ d) /\
    (dpos d = match l with (_, true) :: _ :: _ => DHold | _ => DOff end) /\
    (dpos d = DOff -> pushed_ d = false) /\
    (pushed_ d = true <-> debounced timeout l).
  Proof.
    induction l as [|(t, x) l IH]; intros S NE d; [congruence|]. unfold d. cbn [rev]. unfold deb_run. rewrite run_snoc. fold (deb_run (Deb DStart g false) (rev l)).
    cbn [fst snd]. destruct l as [|(t1, x1) l].
    - cbn. split; [reflexivity|]. split; [destruct x; reflexivity|]. split; [reflexivity|]. split; [discriminate|]. unfold debounced. cbn. intros (P & _). destruct x; contradiction.
    - assert (S' : sorted_samples ((t1, x1) :: l)). { intros i j d' L. apply (S (Datatypes.S i) (Datatypes.S j) d'). cbn [length] in *. lia. }
      destruct (IH S' ltac:(discriminate)) as (A & B & C & D). set (d1 := deb_run (Deb DStart g false) (rev ((t1, x1) :: l))) in *.
      assert (LT : t1 <= t < 2 ^ 32) by (specialize (S 0%nat 1%nat (0, false)); cbn in S; lia).
      unfold deb_step. destruct x.
      + change (last_unpressed ((t, true) :: (t1, x1) :: l)) with (last_unpressed ((t1, x1) :: l)).
        assert (LO : 0 <= last_off_ d1 <= t1) by (exact (last_unpressed_le _ _ S' A (0, false))).
        destruct (dpos d1) eqn:DP.
        * destruct x1; [destruct l|]; discriminate.
        * cbn [last_off_ dpos pushed_]. split; [exact A|]. split; [reflexivity|]. split; [discriminate|]. rewrite (C eq_refl). split; [discriminate|].
          intros (P & _). exfalso. cbn in P. destruct x1; [destruct l as [|]; [contradiction|discriminate]|contradiction].
        * cbn [last_off_ dpos pushed_]. split; [exact A|]. split; [reflexivity|]. split; [discriminate|]. rewrite since_small by lia.
          assert (exists y l', x1 = true /\ l = y :: l') as (y & l' & -> & ->) by (destruct x1; [destruct l; [discriminate|eauto]|discriminate]).
          unfold debounced. cbn [pressed_twice]. change (last_unpressed ((t, true) :: (t1, true) :: y :: l')) with (last_unpressed ((t1, true) :: y :: l')). rewrite A.
          split.
          -- intros G. split; [exact I|]. exists t, (last_off_ d1), true, ((t1, true) :: y :: l'). split; [reflexivity|]. split; [reflexivity|lia].
          -- intros (_ & t' & t0 & l0 & rest & E1 & E2 & E3). inversion E1; subst. inversion E2; subst. lia.
      + assert (O : match dpos d1 with DStart => Deb DOff t false | _ => Deb DOff t false end = Deb DOff t false) by (destruct (dpos d1); reflexivity).
        rewrite O. cbn [last_off_ dpos pushed_]. split; [reflexivity|]. split; [reflexivity|]. split; [reflexivity|]. split; [discriminate|].
        intros (P & _). contradiction.
  Qed.
End Deb.

(** * Latching *)
Lemma latch_eq on d : latch_step on d = (d, if Bool.eqb on d then [] else [d]).
Proof. destruct on, d; reflexivity. Qed.
Lemma last_cons {A} (l : list A) : forall a d, last (a :: l) d = last l a.
Proof. induction l as [|b l IH]; intros a d; [reflexivity|]. change (last (a :: b :: l) d) with (last (b :: l) d). rewrite !IH. reflexivity. Qed.
Lemma latch_all ds : forall on,
  alternating (negb on) (concat (run_outs latch_step on ds)) /\ run_state latch_step on ds = last ds on.
Proof.
  induction ds as [|d ds IH]; intros on; [split; [exact I|reflexivity]|]. cbn [run_outs run_state]. rewrite latch_eq. cbn [fst concat].
  destruct (IH d) as (A & B). rewrite last_cons. split; [|exact B]. destruct on, d; cbn [Bool.eqb app negb alternating] in *; auto.
Qed.
(** every latch event reports the debounced level *)
Lemma latch_reports ds : forall on, Forall2 (fun d out => out = [] \/ out = [d]) ds (run_outs latch_step on ds).
Proof. induction ds as [|d ds IH]; intros on; cbn [run_outs]; [constructor|]. rewrite latch_eq. constructor; [destruct (Bool.eqb on d); auto|apply IH]. Qed.

(** * Floating pins: [trailing x l] counts the votes for [x] at the end of [l], newest first *)
Fixpoint trailing (x : bool) (l : list bool) : Z :=
  match l with [] => 0 | y :: l => if Bool.eqb x y then 1 + trailing x l else 0 end.
Lemma trailing_nonneg x l : 0 <= trailing x l.
Proof. induction l as [|y l IH]; cbn [trailing]; [lia|]. destruct (Bool.eqb x y); lia. Qed.

(** * Event ids *)
Lemma lor_disjoint_inj n a b a' b' : 0 <= n -> 0 <= b < 2 ^ n -> 0 <= b' < 2 ^ n ->
  Z.lor (Z.shiftl a n) b = Z.lor (Z.shiftl a' n) b' -> a = a' /\ b = b'.
Proof.
  intros N B B' E.
  assert (SUM : forall a b, 0 <= b < 2 ^ n -> Z.lor (Z.shiftl a n) b = a * 2 ^ n + b).
  { intros x y Y. assert (L : Z.land (Z.shiftl x n) y = 0).
    { apply Z.bits_inj'. intros i I. rewrite Z.land_spec, Z.bits_0. destruct (Z.ltb_spec i n).
      - rewrite Z.shiftl_spec_low by lia. reflexivity.
      - rewrite <- (Z.mod_small y (2 ^ n)) by lia. rewrite Z.mod_pow2_bits_high by lia. apply andb_false_r. }
    rewrite <- Z.lxor_lor, <- Z.add_nocarry_lxor, Z.shiftl_mul_pow2 by (exact L || lia). reflexivity. }
  rewrite !SUM in E by assumption.
  assert (a = a').
  { assert (Q : (a * 2 ^ n + b) / 2 ^ n = (a' * 2 ^ n + b') / 2 ^ n) by congruence. rewrite !Z.div_add_l in Q by lia. rewrite !Z.div_small in Q by lia. lia. }
  split; [assumption|]. subst. lia.
Qed.

(** * The rotary knob *)
Lemma i8_add256 x : i8 (x + 256) = i8 x.
Proof. unfold i8. replace (x + 256 + 128) with (x + 128 + 1 * 256) by ring. rewrite Z_mod_plus_full. reflexivity. Qed.
Lemma i8_mod4 x : i8 x mod 4 = x mod 4.
Proof. unfold i8. Z.div_mod_to_equations. lia. Qed.
Lemma i8_i8 x y : i8 (i8 x + y) = i8 (x + y).
Proof. unfold i8. f_equal. replace ((x + 128) mod 256 - 128 + y + 128) with ((x + 128) mod 256 + y) by ring. rewrite Zplus_mod_idemp_l. f_equal. ring. Qed.
Lemma i8_small x : -128 <= x <= 127 -> i8 x = x.
Proof. intros H. unfold i8. rewrite Z.mod_small; lia. Qed.
Definition waits (x : Z) : handler := match x mod 4 with 0 => LO1 | 1 => LO2 | 2 => HI1 | _ => HI2 end.
(** the position [x] tracked by the interrupts, ignoring the width of delta_ *)
Definition tracks (k : knob) (x : Z) : Prop :=
  hnd k = waits x /\ delta_ k = i8 x /\ (angle k = x \/ angle k = x - 1).
Lemma mod4_cases x : x mod 4 = 0 \/ x mod 4 = 1 \/ x mod 4 = 2 \/ x mod 4 = 3.
Proof. pose proof (Z.mod_pos_bound x 4). lia. Qed.
Lemma mod4_add x y r s : x mod 4 = r -> (r + y) mod 4 = s -> (x + y) mod 4 = s.
Proof. intros A B. rewrite <- Zplus_mod_idemp_l, A. exact B. Qed.
Lemma adjust_in_phase x p d : x mod 4 = p mod 4 -> adjust (i8 x) p d = i8 (x + d).
Proof.
  intros H. unfold adjust. replace ((i8 x - p) mod 4) with 0 by (rewrite Zminus_mod, i8_mod4, H, <- Zminus_mod, Z.sub_diag; reflexivity).
  apply i8_i8.
Qed.
Lemma turn_tracks k f x : tracks k x -> exists x', tracks (turn k f) x' /\ pos_ (turn k f) = pos_ k /\ angle (turn k f) = angle k + (if f then 1 else -1).
Proof.
  intros (H & D & A). unfold turn. rewrite H, D.
  assert (PM : forall y r, y mod 4 = r -> pins y = match r with 0 => (true, true) | 1 => (false, true) | 2 => (false, false) | _ => (true, false) end) by (intros y r <-; reflexivity).
  destruct k as [an h dl ps]; cbn [angle hnd delta_ pos_] in *.
  destruct (mod4_cases x) as [M|[M|[M|M]]]; destruct A as [-> | ->];
  (assert (M1 := mod4_add x (-1) _ _ M eq_refl)); (assert (M2 := mod4_add x (-2) _ _ M eq_refl)); (assert (M3 := mod4_add x 1 _ _ M eq_refl)); cbn in M1, M2, M3.
  all: change (x + -1) with (x - 1) in M1.
  all: replace (x - 1 + 1) with x by ring; replace (x - 1 - 1) with (x + -2) by ring.
  all: unfold waits; rewrite M; destruct f; cbv zeta;
       rewrite ?(PM _ _ M), ?(PM _ _ M1), ?(PM _ _ M2), ?(PM _ _ M3); cbn [edge fst snd negb andb fire setup1 setup2 angle hnd delta_ pos_].
  all: try (exists x; split; [split; [unfold waits; rewrite M; reflexivity|split; [reflexivity|cbn [angle]; lia]]|split; [reflexivity|cbn [angle]; lia]]).
  all: rewrite adjust_in_phase by (rewrite M; reflexivity).
  all: match goal with |- context [i8 (?y + ?d)] => exists (y + d) end.
  all: split; [|split; [reflexivity|cbn [angle]; lia]].
  all: split; [unfold waits; cbn [hnd]|split; [reflexivity|cbn [angle]; lia]].
  all: match goal with MM : ?y mod 4 = _ |- context [(?y + ?d) mod 4] => rewrite (mod4_add y d _ _ MM eq_refl) end; reflexivity.
Qed.
Definition sum (l : list Z) : Z := fold_right Z.add 0 l.
Lemma sum_app a b : sum (a ++ b) = sum a + sum b.
Proof. unfold sum. induction a; cbn [app fold_right]; lia. Qed.
Section Loop.
  Variable spd : Z. Hypothesis S2 : 2 <= spd <= 100.
  Lemma loop_up_ok fuel : forall delta pos, -124 <= delta <= 124 -> -125 <= pos <= 125 ->
    delta - pos < 2 * Z.of_nat fuel ->
    let '(q, l) := loop_up fuel spd delta pos in
    q = pos + spd * sum l /\ delta - q < spd /\ pos <= q /\ (q = pos \/ q <= delta).
  Proof.
    induction fuel as [|fuel IH]; intros delta pos D P F; [cbn; lia|]. cbn [loop_up].
    destruct (delta - pos >=? spd) eqn:E; [|cbn; lia]. rewrite i8_small by lia.
    specialize (IH delta (pos + spd) D ltac:(lia) ltac:(lia)). destruct (loop_up fuel spd delta (pos + spd)) as (q, l). cbn [sum fold_right]. fold (sum l). lia.
  Qed.
  Lemma loop_down_ok fuel : forall delta pos, -124 <= delta <= 124 -> -125 <= pos <= 125 ->
    pos - delta + 1 < 2 * Z.of_nat fuel ->
    let '(q, l) := loop_down fuel spd delta pos in
    q = pos + spd * sum l /\ delta - q > - spd + 1 /\ q <= pos /\ (q = pos \/ delta - 1 <= q).
  Proof.
    induction fuel as [|fuel IH]; intros delta pos D P F; [cbn; lia|]. cbn [loop_down].
    destruct (delta - pos <=? - spd + 1) eqn:E; [|cbn; lia]. rewrite i8_small by lia.
    specialize (IH delta (pos - spd) D ltac:(lia) ltac:(lia)). destruct (loop_down fuel spd delta (pos - spd)) as (q, l). cbn [sum fold_right]. fold (sum l). lia.
  Qed.
  Lemma rotary_loop_ok k x : tracks k x -> -120 <= x <= 121 -> -121 <= pos_ k <= 121 ->
    let '(k', l) := rotary_loop spd k in
    tracks k' x /\ angle k' = angle k /\ pos_ k' = pos_ k + spd * sum l /\ - spd + 1 < x - pos_ k' < spd /\ -121 <= pos_ k' <= 121.
  Proof.
    intros (A & B & C) X P. unfold rotary_loop. rewrite B, i8_small by lia.
    pose proof (loop_up_ok 128 x (pos_ k) ltac:(lia) ltac:(lia) ltac:(lia)) as U. destruct (loop_up 128 spd x (pos_ k)) as (p1, l1).
    pose proof (loop_down_ok 128 x p1 ltac:(lia) ltac:(lia) ltac:(lia)) as W. destruct (loop_down 128 spd x p1) as (p2, l2).
    cbn [angle pos_]. rewrite sum_app. split; [split; [exact A|split; [cbn [delta_]; rewrite i8_small by lia; reflexivity|exact C]]|]. split; [reflexivity|]. lia.
  Qed.
  Lemma knob_all ops : forall k x, tracks k x -> -121 <= pos_ k <= 121 ->
    (forall n, -120 <= angle (run_state (knob_step spd) k (firstn n ops)) <= 120) ->
    let k' := run_state (knob_step spd) k ops in
    exists x', tracks k' x' /\ -121 <= pos_ k' <= 121 /\ pos_ k' = pos_ k + spd * sum (concat (run_outs (knob_step spd) k ops)).
  Proof.
    induction ops as [|o ops IH]; intros k x T P R; [exists x; cbn; split; [exact T|]; lia|].
    assert (R0 := R 0%nat). cbn [firstn run_state] in R0.
    assert (RS : forall n, -120 <= angle (run_state (knob_step spd) (fst (knob_step spd k o)) (firstn n ops)) <= 120) by (intros n; exact (R (S n))).
    cbn [run_state run_outs]. destruct o as [f|].
    - cbn [knob_step fst] in *. destruct (turn_tracks k f x T) as (x1 & T1 & P1 & _). rewrite <- P1 in P |- *.
      destruct (IH _ x1 T1 P RS) as (x' & A & B & C). exists x'. split; [exact A|]. split; [exact B|]. cbn [concat app]. exact C.
    - cbn [knob_step] in *. assert (X : -120 <= x <= 121) by (destruct T as (_ & _ & T); lia).
      pose proof (rotary_loop_ok k x T X P) as L. destruct (rotary_loop spd k) as (k1, l). destruct L as (T1 & _ & P1 & _ & P2). cbn [fst] in *.
      destruct (IH k1 x T1 P2 RS) as (x' & A & B & C). exists x'. split; [exact A|]. split; [exact B|]. cbn [concat]. rewrite sum_app. rewrite C, P1. ring.
  Qed.
End Loop.
Lemma run_state_app {S I O} (step : S -> I -> S * O) a : forall s b, run_state step s (a ++ b) = run_state step (run_state step s a) b.
Proof. induction a as [|i a IH]; intros s b; [reflexivity|]. cbn [app run_state]. apply IH. Qed.
Lemma run_outs_app {S I O} (step : S -> I -> S * O) a : forall s b, run_outs step s (a ++ b) = run_outs step s a ++ run_outs step (run_state step s a) b.
Proof.
  induction a as [|i a IH]; intros s b; [reflexivity|]. cbn [app run_state run_outs]. destruct (step s i) as (s', o) eqn:E. cbn [fst app]. f_equal. apply IH.
Qed.

Lemma resync : forall delta p d, -128 <= delta <= 127 -> 0 <= p <= 3 -> d = 1 \/ d = -1 ->
  (adjust delta p d - (p + d)) mod 4 = 0 /\ exists c, -2 <= c <= 2 /\ adjust delta p d = i8 (delta + c + d) /\
  (delta mod 4 = p -> c = 0) /\ ((delta - p) mod 4 <> 2 -> -1 <= c <= 1).
Proof.
  intros delta p d D P H. unfold adjust, i8. pose proof (Z.mod_pos_bound (delta - p) 4 ltac:(lia)) as B.
  assert (C : (delta - p) mod 4 = 0 \/ (delta - p) mod 4 = 1 \/ (delta - p) mod 4 = 2 \/ (delta - p) mod 4 = 3) by lia.
  destruct C as [C|[C|[C|C]]]; rewrite C.
  - split; [Z.div_mod_to_equations; lia|]. exists 0. rewrite Z.add_0_r. repeat split; lia.
  - split; [Z.div_mod_to_equations; lia|]. exists (-1). split; [lia|]. split; [apply (f_equal (fun z => (z + 128) mod 256 - 128)); lia|]. split; intros; Z.div_mod_to_equations; lia.
  - destruct (Z.gtb_spec delta 0).
    + split; [Z.div_mod_to_equations; lia|]. exists (-2). split; [lia|]. split; [apply (f_equal (fun z => (z + 128) mod 256 - 128)); lia|]. split; intros; Z.div_mod_to_equations; lia.
    + split; [Z.div_mod_to_equations; lia|]. exists 2. split; [lia|]. split; [apply (f_equal (fun z => (z + 128) mod 256 - 128)); lia|]. split; intros; Z.div_mod_to_equations; lia.
  - split; [Z.div_mod_to_equations; lia|]. exists 1. split; [lia|]. split; [apply (f_equal (fun z => (z + 128) mod 256 - 128)); lia|]. split; intros; Z.div_mod_to_equations; lia.
Qed.
