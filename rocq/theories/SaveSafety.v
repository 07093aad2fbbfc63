From Coq Require Import ZArith List Bool Lia ZifyBool ZifyNat.
From Verif Require Import Machine StrModel FileModel FileSpec FileProofs ConfigModel ConfigSpec ConfigProofs SaveModel SaveSpec ChecksumProofs SaveProofs.
Import ListNotations.
Open Scope Z_scope.

Section S.
Variables (maxsz : Z) (install : list Z) (vs : vars) (stale : Z -> Z) (fixed : mode).
Hypothesis MS : 512 <= maxsz.
Hypothesis BO : build_ok install.
Hypothesis VO : vars_ok vs.

Notation text := (config_text install vs).
Definition vals_ok (v : list dec) : Prop := length v = length vs /\ Forall (fun d => 0 <= mant d) v /\ Z.of_nat (length (text v)) < 2 ^ 31 /\ match fixed with MSame L => L = Z.of_nat (length (text v)) | _ => True end.
Definition ev_ok (e : event) : Prop :=
  match e with
  | Boot => True
  | Save v => vals_ok v
  | Cut v missing => vals_ok v /\ match fixed with MSame _ => True | MWindow => ~ 21 <= Z.of_nat missing <= 27 | MFirst => ~ 37 <= Z.of_nat missing <= 51 end
  end.

Definition side (x : ext) (d : disk) : disk_file := match x with CONFIG_TMP => tmp d | _ => ini d end.
Definition flip (x : ext) : ext := match x with CONFIG_INI => CONFIG_TMP | _ => CONFIG_INI end.

Definition Inv (n : Z) (c : option (list dec)) (s : disk * ram) : Prop :=
  let (d, r) := s in
  match c with
  | None => (bytes_ok (ini d) /\ ~ inst install (ini d)) /\ (bytes_ok (tmp d) /\ ~ inst install (tmp d)) /\ 0 <= iteration_ r <= n
  | Some v => exists x it, x <> CONFIG_UNKNOWN /\ r = Ram x it /\ 1 <= it <= n /\ vals_ok v /\
      Good install (side x d) (text v) it /\ Tok maxsz install fixed it (side (flip x) d)
  end.

Let IO : install_ok install := proj1 BO.
Let IL : length install = 20%nat := proj1 (proj2 BO).
Let IB : Forall (fun c => 0 < c < 256) install := proj2 (proj2 BO).

Lemma try_good x o v it : vals_ok v -> Good install o (text v) it -> 1 <= it < 2 ^ 31 ->
  TryValidator install vs stale x o = Some (map two_decimals v, Ram x it).
Proof.
  intros (V1 & V2 & V3 & _) G IT. unfold TryValidator.
  rewrite (good_checksum install IL o (text v) it G ltac:(lia) V3 stale).
  destruct (good_bytes_from install IL o (text v) it G ltac:(lia)) as (junk & ->).
  rewrite config_round_trip by auto.
  rewrite (good_iteration install IL o (text v) it G) by lia. reflexivity.
Qed.

Lemma boot_good x d v it : x <> CONFIG_UNKNOWN -> vals_ok v -> 1 <= it < 2 ^ 31 ->
  Good install (side x d) (text v) it -> Tok maxsz install fixed it (side (flip x) d) ->
  boot maxsz install vs stale d = (map two_decimals v, Ram x it).
Proof.
  intros X V IT G T. unfold boot.
  pose proof (good_iteration install IL (side x d) (text v) it G ltac:(lia)) as GI.
  pose proof (tok_iteration maxsz install IL fixed it _ T IT) as TI.
  destruct x; [congruence| |]; cbn [side flip] in *.
  - rewrite GI. replace (it <? iteration install (tmp d)) with false by lia.
    rewrite (try_good CONFIG_INI (ini d) v it) by auto. reflexivity.
  - rewrite GI. replace (iteration install (ini d) <? it) with true by lia.
    rewrite (try_good CONFIG_TMP (tmp d) v it) by auto. reflexivity.
Qed.

Lemma boot_none d : ~ inst install (ini d) -> ~ inst install (tmp d) ->
  0 <= iteration_ (snd (boot maxsz install vs stale d)) <= 1.
Proof.
  intros N1 N2. unfold boot.
  destruct (none_iteration install IL _ N1) as [E1 V1]. destruct (none_iteration install IL _ N2) as [E2 V2].
  rewrite E1, E2. cbn [Z.ltb Z.compare].
  unfold TryValidator, validateChecksum. rewrite V1, V2. cbn [andb orelse].
  assert (P : forall x o, match TryPlain maxsz install vs x o with Some (_, r) => 0 <= iteration_ r <= 1 | None => True end).
  { intros x o. unfold TryPlain. destruct (maxsz <=? size o); [exact I|].
    destruct o; [|cbn; lia]. destruct (Read _ _ _ _) as [[]]; cbn; lia. }
  pose proof (P CONFIG_INI (ini d)) as P1. pose proof (P CONFIG_TMP (tmp d)) as P2.
  destruct (TryPlain maxsz install vs CONFIG_INI (ini d)) as [[? ?]|]; cbn [orelse]; [exact P1|].
  destruct (TryPlain maxsz install vs CONFIG_TMP (tmp d)) as [[? ?]|]; cbn [orelse]; [exact P2|cbn; lia].
Qed.

Lemma write_sides d r v missing x : x = flip (read_from_ext_ r) ->
  let it := (iteration_ r + 1) mod 2 ^ 32 in
  let ops := save_ops maxsz install (side x d) (text v) it in
  let o' := fold_left do_op (firstn (length ops - missing) ops) (side x d) in
  let w := write maxsz install vs (d, r) v missing in
  side x (fst w) = o' /\ side (flip x) (fst w) = side (flip x) d /\ snd w = Ram x it.
Proof.
  intros ->. unfold write. destruct (read_from_ext_ r); cbn [flip side fst snd ini tmp]; repeat split.
Qed.

Lemma good_tok o v it : vals_ok v -> 0 <= it < 2 ^ 31 -> Good install o (text v) it -> Tok maxsz install fixed (it + 1) o.
Proof.
  intros (_ & _ & V3 & V4) IT G. split; [eapply good_bytes; eauto|]. intros _.
  rewrite (good_it2 install IL o (text v) it G IT), (good_len2 install IL o (text v) it G IT V3). left. split; [lia|].
  intros L E. rewrite E in V4. left. congruence.
Qed.
Lemma none_tok o it : bytes_ok o -> ~ inst install o -> Tok maxsz install fixed it o.
Proof. intros B N. split; [exact B|tauto]. Qed.

(** A completed save. *)
Lemma inv_save n c s v : 1 <= n -> n + 1 < 2 ^ 31 -> Inv n c s -> vals_ok v ->
  Inv (n + 1) (Some v) (write maxsz install vs s v 0).
Proof.
  destruct s as [d r]. intros N1 N2 H V. set (x := flip (read_from_ext_ r)).
  destruct (write_sides d r v 0 x eq_refl) as (W1 & W2 & W3).
  destruct (write maxsz install vs (d, r) v 0) as [d' r'] eqn:EW. cbn [fst snd] in W1, W2, W3. clear EW.
  assert (XU : x <> CONFIG_UNKNOWN) by (unfold x; destruct (read_from_ext_ r); discriminate).
  assert (BITS : 0 <= iteration_ r <= n /\ bytes_ok (side x d) /\ Tok maxsz install fixed (iteration_ r + 1) (side (flip x) d)).
  { destruct c as [v0|].
    - destruct H as (x0 & it & X0 & -> & IT & V0 & G & T). cbn [iteration_ read_from_ext_] in *.
      assert (E : x = flip x0) by reflexivity. clearbody x. subst x.
      assert (FF : flip (flip x0) = x0) by (destruct x0; [congruence|reflexivity..]). rewrite FF.
      split; [lia|]. split; [apply T|]. apply good_tok with (v := v0); auto. lia.
    - destruct H as ([B1 I1] & [B2 I2] & IT). split; [lia|].
      split; [destruct x; auto|]. destruct x; apply none_tok; auto. }
  destruct BITS as (IT & BS & TK).
  assert (EM : (iteration_ r + 1) mod 2 ^ 32 = iteration_ r + 1) by (apply Z.mod_small; lia). rewrite EM in W1, W3.
  exists x, (iteration_ r + 1). split; [exact XU|]. split; [exact W3|]. split; [lia|]. split; [exact V|].
  split; [rewrite W1; apply write_full; auto|]. rewrite W2. exact TK.
Qed.

(** A save cut off, followed by power-on, once something has been saved. *)
Lemma inv_cut n v0 s v missing : 1 <= n -> n + 1 < 2 ^ 31 -> Inv n (Some v0) s -> ev_ok (Cut v missing) ->
  let (s', o) := step maxsz install vs stale s (Cut v missing) in
  exists v', (v' = v0 \/ v' = v) /\ o = Some (map two_decimals v') /\ Inv (n + 1) (Some v') s'.
Proof.
  destruct s as [d r]. intros N1 N2 (x0 & it & X0 & -> & IT & V0 & G & T) [V W]. cbn [step].
  destruct (write_sides d (Ram x0 it) v missing (flip x0) eq_refl) as (W1 & W2 & _).
  destruct (write maxsz install vs (d, Ram x0 it) v missing) as [d' r'] eqn:EW. cbn [fst snd] in *. clear EW r'.
  assert (FF : flip (flip x0) = x0) by (destruct x0; [congruence|reflexivity..]). rewrite FF in W2.
  cbn [iteration_] in W1. replace ((it + 1) mod 2 ^ 32) with (it + 1) in W1 by (symmetry; apply Z.mod_small; lia).
  pose proof V as (V1 & V2 & V3 & V4).
  assert (P : Good install (side (flip x0) d') (text v) (it + 1) \/ Tok maxsz install fixed it (side (flip x0) d')).
  { rewrite W1. apply write_partial; auto; try lia. destruct fixed; auto. }
  destruct P as [P|P].
  - rewrite (boot_good (flip x0) d' v (it + 1)); auto; try lia.
    + exists v. split; [auto|]. split; [reflexivity|].
      exists (flip x0), (it + 1). split; [destruct x0; discriminate|]. split; [reflexivity|]. split; [lia|].
      split; [exact V|]. split; [exact P|]. rewrite FF, W2. apply good_tok with (v := v0); auto. lia.
    + destruct x0; discriminate.
    + rewrite FF, W2. apply good_tok with (v := v0); auto. lia.
  - rewrite (boot_good x0 d' v0 it); auto; try lia.
    + exists v0. split; [auto|]. split; [reflexivity|].
      exists x0, it. repeat (split; auto; try lia); try apply V0; try apply P; rewrite W2; apply G.
    + rewrite W2. exact G.
Qed.

Lemma inv_boot n v0 s : 1 <= n -> n + 1 < 2 ^ 31 -> Inv n (Some v0) s ->
  let (s', o) := step maxsz install vs stale s Boot in
  o = Some (map two_decimals v0) /\ Inv (n + 1) (Some v0) s'.
Proof.
  destruct s as [d r]. intros N1 N2 (x0 & it & X0 & -> & IT & V0 & G & T). cbn [step fst].
  rewrite (boot_good x0 d v0 it) by (auto; lia). split; [reflexivity|].
  exists x0, it. split; [exact X0|]. split; [reflexivity|]. split; [lia|]. auto.
Qed.

Lemma inv_any n c s e : 1 <= n -> n + 1 < 2 ^ 31 -> Inv n c s -> ev_ok e ->
  exists c', Inv (n + 1) c' (fst (step maxsz install vs stale s e)).
Proof.
  intros N1 N2 H E. destruct e as [|v|v missing].
  - destruct c as [v0|].
    + pose proof (inv_boot n v0 s N1 N2 H) as P. destruct (step _ _ _ _ s Boot). exists (Some v0). apply P.
    + destruct s as [d r]. cbn [step fst]. destruct H as (H1 & H2 & H3).
      pose proof (boot_none d (proj2 H1) (proj2 H2)). destruct (boot _ _ _ _ d) as [vals r']. exists None.
      cbn [fst snd] in *. split; [auto|]. split; [auto|lia].
  - exists (Some v). cbn [step fst]. eapply inv_save; eauto.
  - destruct c as [v0|].
    + pose proof (inv_cut n v0 s v missing N1 N2 H E) as P. destruct (step _ _ _ _ s (Cut v missing)).
      destruct P as (v' & _ & _ & P). exists (Some v'). exact P.
    + destruct s as [d r]. destruct H as ((B1 & I1) & (B2 & I2) & IT). cbn [step].
      set (x := flip (read_from_ext_ r)).
      destruct (write_sides d r v missing x eq_refl) as (W1 & W2 & _).
      destruct (write maxsz install vs (d, r) v missing) as [d' r'] eqn:EW. cbn [fst snd] in *. clear EW r'.
      assert (XU : x <> CONFIG_UNKNOWN) by (unfold x; destruct (read_from_ext_ r); discriminate).
      replace ((iteration_ r + 1) mod 2 ^ 32) with (iteration_ r + 1) in W1 by (symmetry; apply Z.mod_small; lia).
      assert (BX : bytes_ok (side x d) /\ ~ inst install (side x d)) by (destruct x; auto).
      assert (BY : bytes_ok (side (flip x) d) /\ ~ inst install (side (flip x) d)) by (destruct x; cbn; auto).
      destruct (write_none maxsz install MS IL IB (side x d) (text v) (iteration_ r + 1) missing (proj1 BX) (proj2 BX)) as [P|P];
        rewrite <- W1 in P; rewrite <- W2 in BY.
      * pose proof (none_tok _ (iteration_ r + 1) (proj1 BY) (proj2 BY)) as TK.
        rewrite (boot_good x d' v (iteration_ r + 1)) by (auto; try lia; apply E). cbn [fst].
        exists (Some v). exists x, (iteration_ r + 1). split; [exact XU|]. split; [reflexivity|]. split; [lia|].
        split; [apply E|]. auto.
      * assert (Q : (bytes_ok (ini d') /\ ~ inst install (ini d')) /\ (bytes_ok (tmp d') /\ ~ inst install (tmp d'))).
        { destruct x; [congruence| |]; cbn [flip side] in *; auto. }
        destruct Q as [Q1 Q2]. pose proof (boot_none d' (proj2 Q1) (proj2 Q2)).
        destruct (boot _ _ _ _ d') as [vals r']. exists None. cbn [fst snd] in *. split; [auto|]. split; [auto|lia].
Qed.

Lemma inv_run es : forall n c s, 1 <= n -> n + Z.of_nat (length es) < 2 ^ 31 -> Inv n c s -> Forall ev_ok es ->
  exists c', Inv (n + Z.of_nat (length es)) c' (run_state (step maxsz install vs stale) s es).
Proof.
  induction es as [|e es IH]; intros n c s N1 N2 H F.
  - exists c. cbn [length run_state]. rewrite Z.add_0_r. exact H.
  - inversion F; subst. cbn [length run_state] in *.
    destruct (inv_any n c s e N1 ltac:(lia) H H2) as (c' & H').
    destruct (IH (n + 1) c' _ ltac:(lia) ltac:(lia) H' H3) as (c'' & H''). exists c''.
    replace (n + Z.of_nat (S (length es))) with (n + 1 + Z.of_nat (length es)) by lia. exact H''.
Qed.

Lemma atomic_run es : forall n v s, 1 <= n -> n + Z.of_nat (length es) < 2 ^ 31 -> Inv n (Some v) s -> Forall ev_ok es ->
  atomic (map two_decimals v) es (run_outs (step maxsz install vs stale) s es).
Proof.
  induction es as [|e es IH]; intros n v s N1 N2 H F; [constructor|].
  inversion F; subst. cbn [length run_outs] in *.
  destruct e as [|w|w missing].
  - pose proof (inv_boot n v s N1 ltac:(lia) H) as P. destruct (step _ _ _ _ s Boot) as [s' o]. destruct P as [-> P].
    constructor. apply IH with (n := n + 1); auto; lia.
  - cbn [step]. constructor. apply IH with (n := n + 1); auto; try lia. eapply inv_save; eauto. lia.
  - pose proof (inv_cut n v s w missing N1 ltac:(lia) H H2) as P. destruct (step _ _ _ _ s (Cut w missing)) as [s' o].
    destruct P as (v' & C & -> & P). apply atomic_cut; [destruct C as [-> | ->]; auto|]. apply IH with (n := n + 1); auto; lia.
Qed.

Lemma run_state_app {A B C} (f : A -> B -> A * C) : forall l1 s l2, run_state f s (l1 ++ l2) = run_state f (run_state f s l1) l2.
Proof. induction l1; intros; cbn; auto. Qed.

Theorem save_safe d es1 v es2 :
  not_ours install (ini d) -> not_ours install (tmp d) -> 0 <= size (ini d) -> 0 <= size (tmp d) ->
  Forall ev_ok es1 -> vals_ok v -> Forall ev_ok es2 ->
  Z.of_nat (length (es1 ++ Save v :: es2)) + 1 < 2 ^ 31 ->
  atomic (map two_decimals v) es2
    (run_outs (step maxsz install vs stale)
      (run_state (step maxsz install vs stale) (d, Ram CONFIG_UNKNOWN 0) (es1 ++ [Save v])) es2).
Proof.
  intros (BI & ii & II & NI) (BT & ti & TI & NT) S1 S2 F1 V F2 LEN. rewrite app_length in LEN. cbn [length] in LEN.
  assert (I0 : Inv 1 None (d, Ram CONFIG_UNKNOWN 0)).
  { split; [|split; [|cbn; lia]]; (split; [split; [lia|intros; auto]|]).
    - intros X. apply NI, X. exact II.
    - intros X. apply NT, X. exact TI. }
  destruct (inv_run es1 1 None _ ltac:(lia) ltac:(lia) I0 F1) as (c & H).
  rewrite run_state_app. set (s := run_state _ _ es1) in *. cbn [run_state step fst].
  apply atomic_run with (n := 1 + Z.of_nat (length es1) + 1); auto; try lia.
  apply inv_save with (c := c); auto; lia.
Qed.
End S.

Lemma save_safe_any maxsz install vs stale d es1 v es2 :
  512 <= maxsz -> build_ok install -> vars_ok vs ->
  not_ours install (ini d) -> not_ours install (tmp d) -> 0 <= size (ini d) -> 0 <= size (tmp d) ->
  (forall e, In e (es1 ++ Save v :: es2) -> event_ok vs e /\
     match saved e with Some w => Z.of_nat (length (config_text install vs w)) < 2 ^ 31 | None => True end /\
     match e with Cut _ missing => ~ 21 <= Z.of_nat missing <= 27 | _ => True end) ->
  Z.of_nat (length (es1 ++ Save v :: es2)) + 1 < 2 ^ 31 ->
  atomic (map two_decimals v) es2
    (run_outs (step maxsz install vs stale)
      (run_state (step maxsz install vs stale) (d, Ram CONFIG_UNKNOWN 0) (es1 ++ [Save v])) es2).
Proof.
  intros MS BO VO N1 N2 S1 S2 E LEN.
  assert (F : forall e, In e (es1 ++ Save v :: es2) -> ev_ok install vs MWindow e).
  { intros e I. destruct (E e I) as (A & B & C). destruct e; cbn [ev_ok event_ok saved] in *; unfold vals_ok; tauto. }
  apply save_safe with (fixed := MWindow); auto.
  - apply Forall_forall. intros e I. apply F, in_or_app. auto.
  - apply (F (Save v)). apply in_or_app. cbn. auto.
  - apply Forall_forall. intros e I. apply F, in_or_app. cbn. auto.
Qed.

Lemma save_safe_fixed maxsz install vs stale d es1 v es2 L :
  512 <= maxsz -> build_ok install -> vars_ok vs ->
  not_ours install (ini d) -> not_ours install (tmp d) -> 0 <= size (ini d) -> 0 <= size (tmp d) ->
  L < 2 ^ 31 ->
  (forall e, In e (es1 ++ Save v :: es2) -> event_ok vs e /\
     match saved e with Some w => Z.of_nat (length (config_text install vs w)) = L | None => True end) ->
  Z.of_nat (length (es1 ++ Save v :: es2)) + 1 < 2 ^ 31 ->
  atomic (map two_decimals v) es2
    (run_outs (step maxsz install vs stale)
      (run_state (step maxsz install vs stale) (d, Ram CONFIG_UNKNOWN 0) (es1 ++ [Save v])) es2).
Proof.
  intros MS BO VO N1 N2 S1 S2 LL E LEN.
  assert (F : forall e, In e (es1 ++ Save v :: es2) -> ev_ok install vs (MSame L) e).
  { intros e I. destruct (E e I) as (A & B). destruct e; cbn [ev_ok event_ok saved] in *; unfold vals_ok; try tauto;
      repeat split; try tauto; lia. }
  apply save_safe with (fixed := MSame L); auto.
  - apply Forall_forall. intros e I. apply F, in_or_app. auto.
  - apply (F (Save v)). apply in_or_app. cbn. auto.
  - apply Forall_forall. intros e I. apply F, in_or_app. cbn. auto.
Qed.

Lemma save_safe_first maxsz install vs stale d es1 v es2 :
  512 <= maxsz -> build_ok install -> vars_ok vs ->
  not_ours install (ini d) -> not_ours install (tmp d) -> 0 <= size (ini d) -> 0 <= size (tmp d) ->
  (forall e, In e (es1 ++ Save v :: es2) -> event_ok vs e /\
     match saved e with Some w => Z.of_nat (length (config_text install vs w)) < 2 ^ 31 | None => True end /\
     match e with Cut _ missing => ~ 37 <= Z.of_nat missing <= 51 | _ => True end) ->
  Z.of_nat (length (es1 ++ Save v :: es2)) + 1 < 2 ^ 31 ->
  atomic (map two_decimals v) es2
    (run_outs (step maxsz install vs stale)
      (run_state (step maxsz install vs stale) (d, Ram CONFIG_UNKNOWN 0) (es1 ++ [Save v])) es2).
Proof.
  intros MS BO VO N1 N2 S1 S2 E LEN.
  assert (F : forall e, In e (es1 ++ Save v :: es2) -> ev_ok install vs MFirst e).
  { intros e I. destruct (E e I) as (A & B & C). destruct e; cbn [ev_ok event_ok saved] in *; unfold vals_ok; tauto. }
  apply save_safe with (fixed := MFirst); auto.
  - apply Forall_forall. intros e I. apply F, in_or_app. auto.
  - apply (F (Save v)). apply in_or_app. cbn. auto.
  - apply Forall_forall. intros e I. apply F, in_or_app. cbn. auto.
Qed.
