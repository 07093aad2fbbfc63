(** A history in which a mixture of two saves is loaded: a cut in the second copy of the header, one
    in the first copy, one in the text, and two coincidences of the checksum. *)
From Coq Require Import ZArith List Bool Lia ZifyBool ZifyNat.
From Verif Require Import Machine StrModel StrSpec FileModel FileSpec FileProofs ConfigModel ConfigSpec ConfigProofs SaveModel SaveSpec ChecksumProofs SaveProofs SaveSafety.
Import ListNotations.
Open Scope Z_scope.

(** ** Files as lists of bytes *)
Definition of_list (l : list Z) : disk_file := Some (File (Z.of_nat (length l)) (fun i => nth (Z.to_nat i) l 0)).
Definition R (o : disk_file) (l : list Z) : Prop := o <> None /\ size o = Z.of_nat (length l) /\ forall i, 0 <= i -> get o i = nth (Z.to_nat i) l 0.
Definition over (l : list Z) (p : nat) (bs : list Z) : list Z := firstn p l ++ bs ++ skipn (p + length bs) l.
Lemma R_of_list l : R (of_list l) l.
Proof.
  split; [discriminate|]. split; [reflexivity|]. intros i I. cbn [of_list get flen at_].
  destruct (Z.ltb_spec i (Z.of_nat (length l))); [replace (0 <=? i) with true by lia; reflexivity|]. rewrite andb_false_r. symmetry. apply nth_overflow. lia.
Qed.
Lemma over_length l p bs : (p + length bs <= length l)%nat -> length (over l p bs) = length l.
Proof. intros H. unfold over. rewrite !app_length, firstn_length, skipn_length. lia. Qed.
Lemma R_puts o l p bs : R o l -> (p + length bs <= length l)%nat -> R (fold_left do_op (puts (Z.of_nat p) bs) o) (over l p bs).
Proof.
  intros (N & S0 & G) H. destruct o as [f|]; [|congruence]. destruct (puts_spec bs (Z.of_nat p) f ltac:(lia)) as (f' & -> & G' & S').
  split; [discriminate|]. split; [rewrite S', over_length by exact H; destruct bs; cbn [length] in *; lia|].
  intros i I. rewrite G'. unfold over. destruct (Z.leb_spec (Z.of_nat p) i) as [A|A]; cbn [andb].
  - rewrite app_nth2 by (rewrite firstn_length; lia). rewrite firstn_length. destruct (Z.ltb_spec i (Z.of_nat p + Z.of_nat (length bs))) as [B|B].
    + rewrite app_nth1 by lia. f_equal. lia.
    + rewrite app_nth2 by lia. rewrite G by lia. rewrite <- (firstn_skipn (p + length bs) l) at 1. rewrite app_nth2; rewrite firstn_length; [|lia]. f_equal. lia.
  - rewrite G, app_nth1 by (rewrite ?firstn_length; lia). symmetry. apply nth_firstn. lia.
Qed.
(** A save cut off, on a file that has its full size. *)
Definition after_cut (install : list Z) (l text : list Z) (it : Z) (missing : nat) : list Z :=
  over (over l 512 (firstn (length text + 52 - missing) text)) 0 (firstn (52 - missing) (header install (checksum text) it (Z.of_nat (length text)))).
Lemma R_cut maxsz install o l text it missing : length install = 20%nat -> R o l -> maxsz <= size o -> (512 + length text <= length l)%nat ->
  let ops := save_ops maxsz install o text it in
  R (fold_left do_op (firstn (length ops - missing) ops) o) (after_cut install l text it missing).
Proof.
  intros IL H SZ LT ops. assert (OPS : ops = puts 512 text ++ puts 0 (header install (checksum text) it (Z.of_nat (length text)))).
  { unfold ops, save_ops. replace (size o <? maxsz) with false by lia. destruct H as (N & _). destruct o; [reflexivity|congruence]. }
  assert (HL : length (header install (checksum text) it (Z.of_nat (length text))) = 52%nat) by (unfold header; rewrite !app_length, IL; reflexivity).
  rewrite OPS, app_length, !length_puts, HL, firstn_app, !firstn_puts, length_puts, fold_left_app.
  replace (length text + 52 - missing - length text)%nat with (52 - missing)%nat by lia.
  unfold after_cut. apply (R_puts _ _ 0).
  - apply (R_puts _ _ 512); [exact H|]. rewrite firstn_length. lia.
  - rewrite over_length by (rewrite firstn_length; lia). rewrite firstn_length, HL. lia.
Qed.

(** ** Loading *)
Definition w_install : list Z := repeat 74 20.
Lemma header_ext install o o' : (forall i, 0 <= i -> get o i = get o' i) -> validHeader install o = validHeader install o' /\ (forall p, 0 <= p -> g32 o p = g32 o' p).
Proof.
  intros E. assert (W : forall p, 0 <= p -> g32 o p = g32 o' p) by (intros p P; unfold g32; rewrite !E by lia; reflexivity).
  split; [|exact W]. unfold validHeader. rewrite (W 0) by lia. f_equal. f_equal.
  - apply eq_true_iff_eq. rewrite !forallb_forall. split; intros X i I; specialize (X i I); apply (upto_in w_install eq_refl) in I; rewrite !E in * by lia; exact X.
  - rewrite (combine_upto w_install eq_refl). apply eq_true_iff_eq. rewrite !forallb_forall. split; intros X i I; specialize (X i I); apply in_map_iff in I as (j & <- & J); apply (upto_in w_install eq_refl) in J; cbn [fst snd] in *; rewrite !E in * by lia; exact X.
Qed.
Definition list_validator (install : list Z) (vs : vars) (x : ext) (l : list Z) : option (list dec * ram) :=
  let o := of_list l in
  if validHeader install o && (checksum (firstn (Z.to_nat (s32 (g32 o 12))) (skipn 512 l)) =? g32 o 4) then
    let (st, vals) := Read install vs (skipn 512 l) (Defaults vs) in
    Some (vals, match st with READ_FAIL => Ram CONFIG_UNKNOWN 0 | _ => Ram x (if validHeader install o then s32 (g32 o 8) else 0) end)
  else None.
Lemma map_nth_seq (l : list Z) n k : (k + n <= length l)%nat -> map (fun x => nth (k + x) l 0) (seq 0 n) = firstn n (skipn k l).
Proof.
  intros H. apply nth_ext with (d := 0) (d' := 0); rewrite map_length, seq_length; [rewrite firstn_length, skipn_length; lia|].
  intros i I. rewrite nth_firstn by exact I. rewrite (nth_indep _ 0 (nth (k + 0) l 0)) by (rewrite map_length, seq_length; exact I).
  rewrite (map_nth (fun x => nth (k + x) l 0)), seq_nth by exact I. rewrite <- (firstn_skipn k l) at 1. rewrite app_nth2; rewrite firstn_length; [f_equal|]; lia.
Qed.
Lemma validator_list install vs stale x o l : R o l -> (512 <= length l)%nat -> (512 + Z.to_nat (s32 (g32 (of_list l) 12)) <= length l)%nat ->
  TryValidator install vs stale x o = list_validator install vs x l.
Proof.
  intros (N & S0 & G) L5 LN. pose proof (R_of_list l) as (_ & S1 & G1).
  destruct (header_ext install o (of_list l)) as (V & W); [intros i I; rewrite G, G1 by exact I; reflexivity|].
  unfold TryValidator, list_validator, validateChecksum. cbv zeta. rewrite V, !W by lia.
  assert (D : map (fun i => if 512 + i <? size o then get o (512 + i) else stale i) (upto (Z.to_nat (s32 (g32 (of_list l) 12)))) = firstn (Z.to_nat (s32 (g32 (of_list l) 12))) (skipn 512 l)).
  { rewrite <- map_nth_seq by exact LN. unfold upto. rewrite map_map. apply map_ext_in. intros i I. apply in_seq in I. replace (512 + Z.of_nat i <? size o) with true by lia.
    rewrite G by lia. f_equal. lia. }
  rewrite D. assert (BF : bytes_from o 512 = skipn 512 l).
  { unfold bytes_from. rewrite <- (firstn_all (skipn 512 l)), skipn_length. rewrite <- map_nth_seq by lia. unfold upto. rewrite map_map.
    replace (Z.to_nat (size o - 512)) with (length l - 512)%nat by lia. apply map_ext_in. intros i I. rewrite G by lia. f_equal. lia. }
  rewrite BF. unfold iteration. rewrite V, W by lia. reflexivity.
Qed.
Definition list_iteration (install : list Z) (l : list Z) : Z := iteration install (of_list l).
Lemma iteration_list install o l : R o l -> iteration install o = list_iteration install l.
Proof.
  intros (N & S0 & G). pose proof (R_of_list l) as (_ & _ & G1). destruct (header_ext install o (of_list l)) as (V & W); [intros i I; rewrite G, G1 by exact I; reflexivity|].
  unfold list_iteration, iteration. rewrite V, W by lia. reflexivity.
Qed.

(** ** The history *)
Definition w_names : list (list Z) := [[97; 97]; [97; 98]; [97; 99]; [97; 100]; [97; 101]; [97; 102]; [97; 103]; [97; 104]; [98; 97]; [98; 98]; [98; 99]; [98; 100]; [98; 101]; [98; 102]; [98; 103]; [98; 104]; [99; 97]; [99; 98]; [99; 99]; [99; 100]; [99; 101]; [99; 102]; [99; 103]; [99; 104]; [100; 97]; [100; 98]; [100; 99]; [100; 100]; [100; 101]; [100; 102]; [100; 103]; [100; 104]; [101; 97]; [101; 98]; [101; 99]; [101; 100]; [101; 101]; [101; 102]; [101; 103]; [101; 104]; [102; 97]; [102; 98]; [102; 99]; [102; 100]; [102; 101]; [102; 102]; [102; 103]; [102; 104]].
Definition w_vars : vars := map (fun n => (n, Dec 0 0)) w_names.
Definition w_old : list dec := map (fun n => Dec n 0) [9200582; 3270728; 2749444; 6254; 1656623; 63293; 2227981; 498700; 3471760; 26; 6719310; 220260; 7342452; 2286001; 4753299; 84182; 2371424; 5474880; 7121868; 5958549; 691865; 9963968; 2917905; 580005; 5650355; 2807420; 1767586; 5961659; 1207731; 743486; 802977; 1244077; 2538187; 7937956; 2931099; 1671483; 4152809; 5020380; 8063435; 3718241; 25146; 8564991; 3808228; 5050360; 30833; 880147; 2725270; 8299814].
Definition w_other : list dec := map (fun n => Dec n 0) [74; 8; 2; 6; 9; 1; 7; 3; 67; 7; 3; 31; 4; 1; 2; 3; 9; 85; 2; 7; 2; 47; 4; 96; 4; 7; 2; 5; 4; 60; 5; 6; 1; 4; 1; 7; 1; 7; 8; 27; 1; 4; 7; 24; 1; 2; 4; 4].
Definition w_1 : list dec := map (fun n => Dec n 0) [6182; 2712099; 1406072; 569575; 907; 26716; 630; 698; 7438; 598; 9636956; 6502269; 28; 6587; 43960; 374556; 7877; 785050; 12; 833451; 3303; 786; 17442; 5244080; 134; 3157; 265; 3796; 22566; 575413; 750; 342907; 9527174; 1526826; 41; 343766; 831; 566299; 2205; 362962; 182; 4738; 6895; 369074; 800; 65445; 5676433; 9828002].
Definition w_2 : list dec := map (fun n => Dec n 0) [7; 8; 2; 7; 6; 0; 0; 2; 79; 6; 7; 4; 2; 4; 3; 76; 7; 1; 2; 3; 1; 5; 1; 44; 8; 7; 7; 7; 8; 3; 56; 2; 1; 3; 73; 4; 5; 788; 65; 5; 63; 9; 7; 6; 9; 7; 4; 6].
Definition w_3 : list dec := map (fun n => Dec n 0) [4; 3; 4; 1; 8; 0; 0; 2; 84; 7; 8; 0; 5; 2; 7; 63; 2; 4; 2; 9; 7; 1; 2; 38; 1; 7; 1; 4; 1; 9; 27; 5; 7; 3; 79; 2; 5; 673; 97; 3; 23; 4; 6; 2; 9; 2; 1; 4].

Definition w_told : list Z := Eval vm_compute in config_text w_install w_vars w_old.
Definition w_tother : list Z := Eval vm_compute in config_text w_install w_vars w_other.
Definition w_t1 : list Z := Eval vm_compute in config_text w_install w_vars w_1.
Definition w_t2 : list Z := Eval vm_compute in config_text w_install w_vars w_2.
Definition w_t3 : list Z := Eval vm_compute in config_text w_install w_vars w_3.
Definition w_blank : list Z := repeat 0 1300.
Definition w_a : list Z := Eval vm_compute in after_cut w_install w_blank w_told 1 0.
Definition w_b : list Z := Eval vm_compute in after_cut w_install w_blank w_tother 2 0.
Definition w_a1 : list Z := Eval vm_compute in after_cut w_install w_a w_t1 3 24.
Definition w_a2 : list Z := Eval vm_compute in after_cut w_install w_a1 w_t2 3 39.
Definition w_a3 : list Z := Eval vm_compute in after_cut w_install w_a2 w_t3 3 208.
Lemma texts : config_text w_install w_vars w_old = w_told /\ config_text w_install w_vars w_other = w_tother /\ config_text w_install w_vars w_1 = w_t1 /\
  config_text w_install w_vars w_2 = w_t2 /\ config_text w_install w_vars w_3 = w_t3.
Proof. repeat split; vm_compute; reflexivity. Qed.
Definition list_boot (la lb : list Z) : option (list dec * ram) :=
  if list_iteration w_install la <? list_iteration w_install lb
  then orelse (list_validator w_install w_vars CONFIG_TMP lb) (list_validator w_install w_vars CONFIG_INI la)
  else orelse (list_validator w_install w_vars CONFIG_INI la) (list_validator w_install w_vars CONFIG_TMP lb).
Definition fits (l : list Z) : Prop := (length l = 1300)%nat /\ (512 + Z.to_nat (s32 (g32 (of_list l) 12)) <= 1300)%nat.
Lemma boot_list maxsz a b la lb r : R a la -> R b lb -> fits la -> fits lb -> list_boot la lb = Some r ->
  boot maxsz w_install w_vars (fun _ => 0) (Disk a b) = r.
Proof.
  intros RA RB (LA & FA) (LB & FB) H. unfold boot. cbn [ini tmp]. rewrite (iteration_list _ _ _ RA), (iteration_list _ _ _ RB). unfold list_boot in H.
  destruct (list_iteration w_install la <? list_iteration w_install lb);
  rewrite (validator_list w_install w_vars (fun _ => 0) _ _ _ RA), (validator_list w_install w_vars (fun _ => 0) _ _ _ RB) by lia; rewrite H; reflexivity.
Qed.
Definition w_state (a b : disk_file) (x : ext) (it : Z) : disk * ram := (Disk a b, Ram x it).
Lemma save_list a b la lb x it v t missing : R a la -> R b lb -> (length la = 1300)%nat -> (length lb = 1300)%nat -> config_text w_install w_vars v = t -> (length t <= 788)%nat ->
  x <> CONFIG_UNKNOWN -> 0 <= it < 100 ->
  exists a' b', write 1300 w_install w_vars (w_state a b x it) v missing = w_state a' b' (flip x) (it + 1) /\
    match x with CONFIG_INI => a' = a /\ R b' (after_cut w_install lb t (it + 1) missing) | _ => b' = b /\ R a' (after_cut w_install la t (it + 1) missing) end.
Proof.
  intros RA RB LA LB <- LT X IT. unfold write, w_state. cbn [read_from_ext_ iteration_ ini tmp]. replace ((it + 1) mod 2 ^ 32) with (it + 1) by (symmetry; apply Z.mod_small; lia).
  destruct x; [congruence| |]; cbn [flip]; eexists; eexists; (split; [reflexivity|]); (split; [reflexivity|]).
  - apply (R_cut 1300 w_install b lb); [reflexivity|exact RB|destruct RB as (_ & -> & _); lia|lia].
  - apply (R_cut 1300 w_install a la); [reflexivity|exact RA|destruct RA as (_ & -> & _); lia|lia].
Qed.
Definition w_loaded : list dec := Eval vm_compute in match list_validator w_install w_vars CONFIG_INI w_a3 with Some (v, _) => v | None => [] end.
Lemma fits_all : fits w_blank /\ fits w_a /\ fits w_b /\ fits w_a1 /\ fits w_a2 /\ fits w_a3.
Proof. unfold fits. repeat split; try (apply Nat.leb_le; vm_compute; reflexivity); vm_compute; reflexivity. Qed.

Lemma w_run : let st := step 1300 w_install w_vars (fun _ => 0) in
  run_outs st (run_state st (Disk (of_list w_blank) (of_list w_blank), Ram CONFIG_UNKNOWN 0) [Save w_old]) [Save w_other; Cut w_1 24; Cut w_2 39; Cut w_3 208] =
  [None; Some (map two_decimals w_other); Some (map two_decimals w_other); Some w_loaded].
Proof.
  destruct texts as (E0 & EX & E1 & E2 & E3). destruct fits_all as (F0 & FA & FB & F1 & F2 & F3).
  pose proof (R_of_list w_blank) as RB. intros st. cbn [run_state run_outs].
  assert (S1 : exists a1, fst (st (Disk (of_list w_blank) (of_list w_blank), Ram CONFIG_UNKNOWN 0) (Save w_old)) = w_state a1 (of_list w_blank) CONFIG_INI 1 /\ R a1 w_a).
  { unfold st. cbn [step fst]. unfold write. cbn [read_from_ext_ iteration_ ini tmp]. change ((0 + 1) mod 2 ^ 32) with 1. eexists. split; [reflexivity|].
    assert (EA : w_a = after_cut w_install w_blank w_told 1 0) by (vm_compute; reflexivity). rewrite EA, E0.
    apply (R_cut 1300 w_install _ w_blank); [reflexivity|exact RB|vm_compute; discriminate|apply Nat.leb_le; vm_compute; reflexivity]. }
  destruct S1 as (a1 & -> & RA). clear E0.
  change (st (w_state a1 (of_list w_blank) CONFIG_INI 1) (Save w_other)) with (write 1300 w_install w_vars (w_state a1 (of_list w_blank) CONFIG_INI 1) w_other 0, @None (list dec)).
  assert (LT : (length w_tother <= 788 /\ length w_t1 <= 788 /\ length w_t2 <= 788 /\ length w_t3 <= 788)%nat) by (repeat split; apply Nat.leb_le; vm_compute; reflexivity).
  destruct LT as (LX & L1 & L2 & L3).
  destruct (save_list a1 (of_list w_blank) w_a w_blank CONFIG_INI 1 w_other w_tother 0 RA RB (proj1 FA) (proj1 F0) EX LX ltac:(discriminate) ltac:(lia)) as (a2 & b2 & -> & -> & RB2).
  assert (EB : after_cut w_install w_blank w_tother (1 + 1) 0 = w_b) by (vm_compute; reflexivity). rewrite EB in RB2. clear EB. cbn [flip]. change (1 + 1) with 2. clear RB EX.
  assert (CUT : forall a la v t m la' vals, R a la -> fits la -> config_text w_install w_vars v = t -> (length t <= 788)%nat -> after_cut w_install la t 3 m = la' -> fits la' ->
     forall r, list_boot la' w_b = Some (vals, r) ->
     exists a', st (w_state a b2 CONFIG_TMP 2) (Cut v m) = ((Disk a' b2, r), Some vals) /\ R a' la').
  { intros a la v t m la' vals Ra Fa Et Lt Ec Fc r Hb. destruct (save_list a b2 la w_b CONFIG_TMP 2 v t m Ra RB2 (proj1 Fa) (proj1 FB) Et Lt ltac:(discriminate) ltac:(lia)) as (a' & b' & W & -> & Ra').
    change (2 + 1) with 3 in Ra'. rewrite Ec in Ra'. exists a'. split; [|exact Ra']. unfold st. cbn [step]. rewrite W. unfold w_state. cbn [fst].
    rewrite (boot_list 1300 a' b2 la' w_b (vals, r) Ra' RB2 Fc FB Hb). reflexivity. }
  destruct (CUT a1 w_a w_1 w_t1 24%nat w_a1 (map two_decimals w_other) RA FA E1 L1 ltac:(vm_compute; reflexivity) F1 (Ram CONFIG_TMP 2) ltac:(vm_compute; reflexivity)) as (a3 & -> & R3).
  destruct (CUT a3 w_a1 w_2 w_t2 39%nat w_a2 (map two_decimals w_other) R3 F1 E2 L2 ltac:(vm_compute; reflexivity) F2 (Ram CONFIG_TMP 2) ltac:(vm_compute; reflexivity)) as (a4 & Q4 & R4).
  change (Disk a3 b2, Ram CONFIG_TMP 2) with (w_state a3 b2 CONFIG_TMP 2). rewrite Q4.
  destruct (CUT a4 w_a2 w_3 w_t3 208%nat w_a3 w_loaded R4 F2 E3 L3 ltac:(vm_compute; reflexivity) F3 (Ram CONFIG_INI 3) ltac:(vm_compute; reflexivity)) as (a5 & Q5 & _).
  change (Disk a4 b2, Ram CONFIG_TMP 2) with (w_state a4 b2 CONFIG_TMP 2). rewrite Q5. reflexivity.
Qed.

Lemma w_hyps : build_ok w_install /\ vars_ok w_vars /\ not_ours w_install (of_list w_blank) /\ size (of_list w_blank) = 1300.
Proof.
  split; [|split; [|split]].
  - unfold build_ok, install_ok, in_line, w_install, white. cbn [repeat].
    repeat match goal with |- Forall _ _ => constructor | |- _ /\ _ => split end; try lia; reflexivity.
  - split.
    + unfold w_vars. apply Forall_forall. intros x X. apply in_map_iff in X as (n & <- & X). cbn [fst].
      assert (B : forallb (fun n => match n with [a; c] => (97 <=? a) && (a <=? 102) && (97 <=? c) && (c <=? 104) | _ => false end) w_names = true) by (vm_compute; reflexivity).
      rewrite forallb_forall in B. specialize (B n X). destruct n as [|a [|c [|? ?]]]; try discriminate. assert (97 <= a <= 102 /\ 97 <= c <= 104) as (HA & HC) by lia.
      unfold var_name, same_nocase. split; [discriminate|]. split; [cbn [length]; lia|]. split; [constructor; [unfold name_letter; lia|constructor; [unfold name_letter; lia|constructor]]|].
      split; intros D; apply (f_equal (@length Z)) in D; vm_compute in D; discriminate.
    + unfold w_vars. rewrite map_map. cbn [fst]. assert (E : map (fun x => lower_str x) w_names = w_names) by (vm_compute; reflexivity). rewrite E.
      assert (D : forall l : list (list Z), (fix nd (l : list (list Z)) : bool := match l with [] => true | x :: l => forallb (fun y => negb (list_eqb x y)) l && nd l end) l = true -> NoDup l).
      { clear. induction l as [|x l IH]; intros H; [constructor|]. apply andb_true_iff in H as (H1 & H2). constructor; [|apply IH; exact H2]. intros I. rewrite forallb_forall in H1. specialize (H1 x I).
        unfold list_eqb in H1. destruct (list_eq_dec Z.eq_dec x x); [discriminate|congruence]. }
      apply D. vm_compute. reflexivity.
  - split.
    + intros i. destruct (Z_lt_le_dec i 0) as [A|A]; [cbn [of_list get]; replace (0 <=? i) with false by lia; cbn; lia|].
      rewrite (proj2 (proj2 (R_of_list w_blank)) i A). unfold w_blank. rewrite nth_repeat0. lia.
    + exists 0. split; [lia|]. rewrite (proj2 (proj2 (R_of_list w_blank)) (32 + 0)) by lia. unfold w_blank. rewrite nth_repeat0. cbn. lia.
  - reflexivity.
Qed.
Lemma w_events : forall e, In e ([] ++ Save w_old :: [Save w_other; Cut w_1 24; Cut w_2 39; Cut w_3 208]) -> event_ok w_vars e /\
  match saved e with Some w => Z.of_nat (length (config_text w_install w_vars w)) < 2 ^ 31 | None => True end.
Proof.
  destruct texts as (E0 & EX & E1 & E2 & E3).
  assert (P : forall l, forallb (fun n => 0 <=? n) l = true -> Forall (fun d => 0 <= mant d) (map (fun n => Dec n 0) l)).
  { intros l H. rewrite forallb_forall in H. apply Forall_forall. intros d D. apply in_map_iff in D as (n & <- & N). specialize (H n N). cbn [mant]. lia. }
  intros e [<-|[<-|[<-|[<-|[<-|[]]]]]]; cbn [event_ok saved]; rewrite ?E0, ?EX, ?E1, ?E2, ?E3; (split; [split; [reflexivity|apply P; vm_compute; reflexivity]|vm_compute; reflexivity]).
Qed.
Lemma w_not_atomic : ~ atomic (map two_decimals w_old) [Save w_other; Cut w_1 24; Cut w_2 39; Cut w_3 208] [None; Some (map two_decimals w_other); Some (map two_decimals w_other); Some w_loaded].
Proof.
  intros H. inversion H as [| |? ? ? ? H1|]; subst. clear H. inversion H1 as [| | |? ? ? ? ? ? _ H2]; subst. clear H1. inversion H2 as [| | |? ? ? ? ? ? _ H3]; subst. clear H2.
  inversion H3 as [| | |? ? ? ? ? ? C H4]; subst. clear H3 H4. destruct C as [C|C]; vm_compute in C; discriminate.
Qed.
