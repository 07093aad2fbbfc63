(** Proofs about picking lines. *)
From Coq Require Import ZArith List Bool Permutation Sorted Lia ZifyBool ZifyNat.
From Verif Require Import StrModel StrSpec StrProofs LineModel LineSpec.
Import ListNotations.
Open Scope Z_scope.

Lemma cmp_before a b : cmp a b < 0 <-> before a b.
Proof. apply cmp_lt. Qed.
Lemma cmp_gt a b : cmp a b > 0 <-> before b a.
Proof. rewrite <- cmp_before. pose proof (cmp_antisym a b). lia. Qed.
Lemma cmp_self a : cmp a a = 0.
Proof. apply cmp_eq. reflexivity. Qed.

Lemma filter_filter_and {A} (p q : A -> bool) l : filter p (filter q l) = filter (fun x => q x && p x) l.
Proof. induction l as [|x l IH]; [reflexivity|]. cbn. destruct (q x); cbn; [destruct (p x); rewrite IH; reflexivity|exact IH]. Qed.
Section Ranks.
Variables (lines s : list str).
Hypothesis HS : sorted_lines lines s.
Hypothesis HP : Forall plain lines.

Definition rk (x : str) : Z := Z.of_nat (length (filter (fun c => cmp c x <? 0) lines)).
Definition N : Z := Z.of_nat (length lines).
Lemma filter_perm {A} (p : A -> bool) a b : Permutation a b -> length (filter p a) = length (filter p b).
Proof. induction 1 as [|x a b _ IH|x y a|a b c _ I1 _ I2]; cbn; [reflexivity|destruct (p x); cbn; lia|destruct (p x), (p y); reflexivity|lia]. Qed.
Lemma slen : length s = length lines.
Proof. apply Permutation_length. apply HS. Qed.
Lemma sorted_rank t : StronglySorted before t -> forall k x, nth_error t k = Some x -> length (filter (fun c => cmp c x <? 0) t) = k.
Proof.
  induction 1 as [|a t Hs IH F]; intros k x E; [destruct k; discriminate|]. destruct k as [|k]; cbn in E.
  - injection E as <-. cbn. rewrite cmp_self. cbn. assert (G : forall c, In c t -> (cmp c a <? 0) = false). { intros c I. rewrite Forall_forall in F. specialize (F c I). apply cmp_gt in F. pose proof (cmp_antisym a c). lia. }
    clear - G. induction t as [|c t IH]; [reflexivity|]. cbn. rewrite G by (left; reflexivity). apply IH. intros d I. apply G. right. exact I.
  - cbn. replace (cmp a x <? 0) with true; [cbn; f_equal; apply IH; exact E|]. symmetry. apply Z.ltb_lt. apply cmp_before. rewrite Forall_forall in F. apply F. eapply nth_error_In. exact E.
Qed.
Lemma rk_nth k x : nth_error s k = Some x -> rk x = Z.of_nat k.
Proof. intros E. unfold rk. rewrite <- (filter_perm _ s lines) by apply HS. f_equal. apply sorted_rank; [apply HS|exact E]. Qed.
Lemma in_nth x : In x lines -> exists k, (k < length s)%nat /\ nth_error s k = Some x.
Proof. intros I. apply (Permutation_in x (Permutation_sym (proj1 HS))) in I. apply In_nth_error in I. destruct I as (k & E). exists k. split; [apply nth_error_Some; congruence|exact E]. Qed.
Lemma nth_in k x : nth_error s k = Some x -> In x lines.
Proof. intros E. apply (Permutation_in x (proj1 HS)). eapply nth_error_In. exact E. Qed.
Lemma sorted_nth t : StronglySorted before t -> forall i j x y, nth_error t i = Some x -> nth_error t j = Some y -> (i < j)%nat -> before x y.
Proof.
  induction 1 as [|a t Hs IH F]; intros i j x y Ei Ej L; [destruct i; discriminate|]. destruct j as [|j]; [lia|]. destruct i as [|i]; cbn in *.
  - injection Ei as <-. rewrite Forall_forall in F. apply F. eapply nth_error_In. exact Ej.
  - apply (IH i j); [assumption|assumption|lia].
Qed.
Lemma rk_range x : In x lines -> 0 <= rk x < N.
Proof. intros I. destruct (in_nth x I) as (k & L & E). rewrite (rk_nth k x E). unfold N. rewrite <- slen. lia. Qed.
Lemma rk_cmp x y : In x lines -> In y lines -> (rk x < rk y /\ cmp x y = -1) \/ (x = y /\ cmp x y = 0) \/ (rk x > rk y /\ cmp x y = 1).
Proof.
  intros X Y. destruct (in_nth x X) as (i & Li & Ei). destruct (in_nth y Y) as (j & Lj & Ej). rewrite (rk_nth i x Ei), (rk_nth j y Ej).
  pose proof (cmp_range x y) as R. destruct (Nat.lt_trichotomy i j) as [Q|[Q|Q]].
  - left. split; [lia|]. pose proof (sorted_nth s (proj2 HS) i j x y Ei Ej Q) as B. apply cmp_before in B. lia.
  - right. left. subst j. rewrite Ei in Ej. injection Ej as <-. split; [reflexivity|apply cmp_self].
  - right. right. split; [lia|]. pose proof (sorted_nth s (proj2 HS) j i y x Ej Ei Q) as B. apply cmp_gt in B. lia.
Qed.
Lemma rk_inj x y : In x lines -> In y lines -> rk x = rk y -> x = y.
Proof. intros X Y E. destruct (rk_cmp x y X Y) as [(?&_)|[(?&_)|(?&_)]]; [lia|assumption|lia]. Qed.
Lemma rk_at k : 0 <= k < N -> exists x, In x lines /\ rk x = k /\ nth_error s (Z.to_nat k) = Some x.
Proof.
  intros K. destruct (nth_error s (Z.to_nat k)) as [x|] eqn:E; [|apply nth_error_None in E; rewrite slen in E; unfold N in K; lia]. exists x. split; [eapply nth_in; exact E|]. split; [rewrite (rk_nth _ _ E); lia|reflexivity].
Qed.
Lemma lines_nodup : NoDup lines.
Proof.
  apply (Permutation_NoDup (proj1 HS)). generalize (proj2 HS). clear. intros H. induction H as [|a t Hs IH F]; [constructor|]. constructor; [|exact IH]. intros I. rewrite Forall_forall in F. specialize (F a I). apply cmp_before in F. rewrite cmp_self in F. lia.
Qed.
(** The number of lines between two places. *)
Lemma ranks_seq : map rk s = map Z.of_nat (seq 0 (length s)).
Proof.
  apply nth_ext with (d := 0) (d' := 0); [rewrite !map_length, seq_length; reflexivity|]. intros k K. rewrite map_length in K.
  destruct (nth_error s k) as [x|] eqn:E; [|apply nth_error_None in E; lia].
  rewrite (nth_error_nth (map rk s) k 0 (map_nth_error rk k s E)). rewrite (rk_nth k x E).
  rewrite (nth_indep _ 0 (Z.of_nat 0)) by (rewrite map_length, seq_length; exact K). rewrite map_nth, seq_nth by exact K. reflexivity.
Qed.
Lemma filter_map {A B} (f : A -> B) p l : filter p (map f l) = map f (filter (fun x => p (f x)) l).
Proof. induction l as [|x l IH]; [reflexivity|]. cbn. destruct (p (f x)); cbn; rewrite IH; reflexivity. Qed.
Lemma count_seq i k : -1 <= i < k -> forall M, Z.of_nat (length (filter (fun z => (i <? z) && (z <? k)) (map Z.of_nat (seq 0 M)))) = Z.max 0 (Z.min k (Z.of_nat M) - i - 1).
Proof.
  intros H. induction M as [|M IH]; [cbn; lia|]. rewrite seq_S, map_app, filter_app, app_length. cbn [map filter]. rewrite Nat2Z.inj_add, IH. cbn [plus].
  destruct (Z.ltb_spec i (Z.of_nat M)); destruct (Z.ltb_spec (Z.of_nat M) k); cbn; lia.
Qed.
Lemma count_between i k : -1 <= i < k -> k <= N -> Z.of_nat (length (filter (fun c => (i <? rk c) && (rk c <? k)) lines)) = k - i - 1.
Proof.
  intros H K. rewrite <- (filter_perm _ s lines) by apply HS. pose proof (count_seq i k H (length s)) as C. rewrite <- ranks_seq, filter_map, map_length in C. rewrite C. unfold N in K. rewrite slen. lia.
Qed.

(** Bounds. *)
Definition at_min (mn : str) (i : Z) : Prop := (mn = [] /\ i = -1) \/ (In mn lines /\ rk mn = i).
Definition at_max (mx : str) (j : Z) : Prop := (mx = [127] /\ j = N) \/ (In mx lines /\ rk mx = j).
Lemma at_min_cmp mn i c : at_min mn i -> In c lines -> (cmp c mn <=? 0) = (rk c <=? i).
Proof.
  intros [(-> & ->)|(I & <-)] C.
  - pose proof (rk_range c C). rewrite Forall_forall in HP. specialize (HP c C). destruct c as [|x c]; [contradiction|]. cbn. lia.
  - destruct (rk_cmp c mn C I) as [(?&E)|[(->&E)|(?&E)]]; rewrite E; lia.
Qed.
Lemma at_max_cmp mx j c : at_max mx j -> In c lines -> (cmp c mx >=? 0) = (rk c >=? j).
Proof.
  intros [(-> & ->)|(I & <-)] C.
  - pose proof (rk_range c C). rewrite Forall_forall in HP. specialize (HP c C). destruct c as [|x c]; [contradiction|]. cbn in HP. cbn. change (toLower 127) with 127.
    assert (T : toLower x < 127). { unfold toLower. destruct (65 <=? x) eqn:E1; destruct (x <=? 90) eqn:E2; cbn; lia. }
    destruct (Z.eqb_spec (toLower x) 127) as [|_]; [lia|]. destruct (Z.ltb_spec (toLower x) 127); [|lia]. lia.
  - destruct (rk_cmp c mx C I) as [(?&E)|[(->&E)|(?&E)]]; rewrite E; lia.
Qed.
(** One pass over the lines. *)
Definition cand (i j : Z) (c : str) : bool := (i <? rk c) && (rk c <? j).
Definition pass_inv (i j : Z) (first : bool) (wanted : Z) (P : list str) (t : scan) : Prop :=
  let C := filter (cand i j) P in
  (C = [] /\ t = Scan [] [] 0 0) \/
  (In (guess t) C /\ In (ret t) C /\ (forall c, In c C -> if first then rk (ret t) <= rk c else rk c <= rk (ret t)) /\
   num_lower t = Z.of_nat (length (filter (fun c => rk c <? rk (guess t)) C)) /\
   num_lower t + num_higher t + 1 = Z.of_nat (length C) /\ 0 <= num_higher t /\
   (num_higher t = 0 -> forall c, In c C -> rk c <= rk (guess t)) /\ (0 < num_higher t -> wanted <= num_lower t)).
Lemma all_filter {A} (p : A -> bool) l : (forall x, In x l -> p x = true) -> filter p l = l.
Proof. induction l as [|x l IH]; intros H; [reflexivity|]. cbn. rewrite H by (left; reflexivity). f_equal. apply IH. intros y I. apply H. right. exact I. Qed.
Lemma none_filter {A} (p : A -> bool) l : (forall x, In x l -> p x = false) -> filter p l = [].
Proof. induction l as [|x l IH]; intros H; [reflexivity|]. cbn. rewrite H by (left; reflexivity). apply IH. intros y I. apply H. right. exact I. Qed.
Lemma pass_step i j first wanted mn mx P l t : at_min mn i -> at_max mx j -> (forall c, In c P -> In c lines) -> In l lines -> ~ In l P ->
  pass_inv i j first wanted P t -> pass_inv i j first wanted (P ++ [l]) (got_line mn mx first wanted t l).
Proof.
  intros A B PL L NI V. unfold pass_inv in V. cbv zeta in V. unfold got_line. rewrite (at_min_cmp mn i l A L), (at_max_cmp mx j l B L). unfold pass_inv. cbv zeta. rewrite filter_app. cbn [filter].
  assert (CL : forall c, In c (filter (cand i j) P) -> In c lines /\ c <> l). { intros c I. apply filter_In in I. destruct I as (I & _). split; [apply PL; exact I|]. intros ->. contradiction. }
  assert (NE : forall c, In c (filter (cand i j) P) -> rk c <> rk l). { intros c I E. destruct (CL c I) as (I1 & I2). apply I2. apply rk_inj; assumption. }
  replace (cand i j l) with (negb (rk l <=? i) && negb (rk l >=? j)) by (unfold cand; lia). destruct (rk l <=? i); cbn [negb andb]; [rewrite app_nil_r; exact V|]. destruct (rk l >=? j); cbn [negb andb]; [rewrite app_nil_r; exact V|].
  pose proof (proj1 (Forall_forall _ _) HP) as PN. assert (ln : l <> []) by (specialize (PN l L); intros ->; exact PN). set (C := filter (cand i j) P) in *. right. destruct V as [(E & ->)|(G & R & RB & LO & TOT & HI & HZ & HW)].
  - rewrite E. cbn [app ret guess num_lower num_higher]. split; [left; reflexivity|]. split; [left; reflexivity|]. split; [intros c [<-|[]]; destruct first; lia|]. cbn [filter length]. rewrite Z.ltb_irrefl. cbn.
    repeat split; try lia. intros _ c [<-|[]]. lia.
  - assert (rn : ret t <> []). { destruct (CL _ R) as (I1 & _). specialize (PN _ I1). intros Q. rewrite Q in PN. exact PN. }
    assert (gn : guess t <> []). { destruct (CL _ G) as (I1 & _). specialize (PN _ I1). intros Q. rewrite Q in PN. exact PN. }
    set (r := match ret t with [] => l | _ :: _ => _ end).
    assert (RR : In r (C ++ [l]) /\ forall c, In c (C ++ [l]) -> if first then rk r <= rk c else rk c <= rk r).
    { subst r. destruct (ret t) as [|q0 q] eqn:Q; [contradiction|]. rewrite <- Q in *. destruct (CL _ R) as (I1 & _). destruct (rk_cmp l (ret t) L I1) as [(K&E)|[(K&E)|(K&E)]]; rewrite E; [|exfalso; apply (NE _ R); rewrite K; reflexivity|].
      - destruct first; cbn.
        + split; [apply in_or_app; right; left; reflexivity|]. intros c I. apply in_app_or in I. destruct I as [I|[<-|[]]]; [specialize (RB c I)|]; lia.
        + split; [apply in_or_app; left; exact R|]. intros c I. apply in_app_or in I. destruct I as [I|[<-|[]]]; [specialize (RB c I)|]; lia.
      - destruct first; cbn.
        + split; [apply in_or_app; left; exact R|]. intros c I. apply in_app_or in I. destruct I as [I|[<-|[]]]; [specialize (RB c I)|]; lia.
        + split; [apply in_or_app; right; left; reflexivity|]. intros c I. apply in_app_or in I. destruct I as [I|[<-|[]]]; [specialize (RB c I)|]; lia. }
    clearbody r. destruct (guess t) as [|q0 q] eqn:Q; [contradiction|]. rewrite <- Q in *. clear Q q0 q.
    destruct (CL _ G) as (G1 & _). destruct (rk_cmp l (guess t) L G1) as [(K&E)|[(K&E)|(K&E)]]; rewrite E; [|exfalso; apply (NE _ G); rewrite K; reflexivity|].
    + change (-1 >=? 0) with false. cbn [ret guess num_lower num_higher]. split; [apply in_or_app; left; exact G|]. split; [apply RR|]. split; [apply RR|].
      rewrite filter_app, app_length. cbn [filter]. destruct (Z.ltb_spec (rk l) (rk (guess t))); [|lia]. cbn [length]. rewrite app_length. cbn [length]. repeat split; try lia.
      intros Z0 c I. apply in_app_or in I. destruct I as [I|[<-|[]]]; [apply HZ; assumption|lia].
    + change (1 >=? 0) with true. cbn [andb]. destruct (Z.eqb_spec (num_higher t) 0) as [Z0|Z0]; cbn [andb].
      * destruct (Z.ltb_spec (num_lower t) wanted) as [W|W].
        { cbn [ret guess num_lower num_higher]. split; [apply in_or_app; right; left; reflexivity|]. split; [apply RR|]. split; [apply RR|].
          rewrite filter_app, app_length. cbn [filter]. rewrite Z.ltb_irrefl. cbn [length]. rewrite (all_filter _ C) by (intros c I; specialize (HZ Z0 c I); lia). rewrite app_length. cbn [length]. repeat split; try lia.
          intros _ c I. apply in_app_or in I. destruct I as [I|[<-|[]]]; [specialize (HZ Z0 c I); lia|lia]. }
        { cbn [ret guess num_lower num_higher]. split; [apply in_or_app; left; exact G|]. split; [apply RR|]. split; [apply RR|].
          rewrite filter_app, app_length. cbn [filter]. destruct (Z.ltb_spec (rk l) (rk (guess t))); [lia|]. cbn [length]. rewrite app_length. cbn [length]. repeat split; try lia. }
      * cbn [ret guess num_lower num_higher]. split; [apply in_or_app; left; exact G|]. split; [apply RR|]. split; [apply RR|].
        rewrite filter_app, app_length. cbn [filter]. destruct (Z.ltb_spec (rk l) (rk (guess t))); [lia|]. cbn [length]. rewrite app_length. cbn [length]. repeat split; try lia.
Qed.
Lemma pass_all i j first wanted mn mx : at_min mn i -> at_max mx j -> forall R P t, P ++ R = lines -> pass_inv i j first wanted P t -> pass_inv i j first wanted lines (fold_left (got_line mn mx first wanted) R t).
Proof.
  intros A B. induction R as [|l R IH]; intros P t E V; [rewrite app_nil_r in E; subst P; exact V|]. cbn [fold_left]. apply (IH (P ++ [l])); [rewrite <- app_assoc; exact E|].
  apply pass_step; try assumption.
  - intros c I. rewrite <- E. apply in_or_app. left. exact I.
  - rewrite <- E. apply in_or_app. right. left. reflexivity.
  - intros I. pose proof lines_nodup as ND. rewrite <- E in ND. apply NoDup_remove_2 in ND. apply ND. apply in_or_app. left. exact I.
Qed.
Lemma pass_result i j n first wanted mn mx : at_min mn i -> at_max mx j -> -1 <= i < n -> n < j <= N -> n - i <= wanted ->
  let t := fold_left (got_line mn mx first wanted) lines (Scan [] [] 0 0) in
  In (guess t) lines /\ In (ret t) lines /\ num_lower t = rk (guess t) - i - 1 /\ n <= rk (guess t) < j /\ (rk (guess t) = n -> j = n + 1) /\
  rk (ret t) = (if first then i + 1 else j - 1).
Proof.
  intros A B I J W t. assert (V : pass_inv i j first wanted lines t). { apply (pass_all i j first wanted mn mx A B lines []); [reflexivity|]. left. split; reflexivity. } clearbody t.
  unfold pass_inv in V. cbv zeta in V. set (C := filter (cand i j) lines) in *.
  assert (CI : forall k, i < k < j -> exists x, In x C /\ rk x = k /\ In x lines). { intros k K. destruct (rk_at k) as (x & X & R & _); [lia|]. exists x. split; [apply filter_In; split; [exact X|unfold cand; lia]|]. split; assumption. }
  assert (CR : forall c, In c C -> In c lines /\ i < rk c < j). { intros c Q. apply filter_In in Q. destruct Q as (Q & R). split; [exact Q|]. unfold cand in R. lia. }
  destruct V as [(E & _)|(G & R & RB & LO & TOT & HI & HZ & HW)].
  - exfalso. destruct (CI n) as (x & X & _); [lia|]. rewrite E in X. contradiction.
  - destruct (CR _ G) as (GL & GR). destruct (CR _ R) as (RL & RRn). split; [exact GL|]. split; [exact RL|].
    assert (LR : num_lower t = rk (guess t) - i - 1).
    { rewrite LO. rewrite <- (count_between i (rk (guess t))) by lia. f_equal. f_equal. subst C. rewrite filter_filter_and. apply filter_ext. intros c. unfold cand. lia. }
    split; [exact LR|].
    assert (GN : n <= rk (guess t) /\ (rk (guess t) = n -> j = n + 1)).
    { destruct (Z.eq_dec (num_higher t) 0) as [Z0|Z0].
      - destruct (CI (j - 1)) as (x & X & XR & _); [lia|]. specialize (HZ Z0 x X). lia.
      - specialize (HW ltac:(lia)). lia. }
    split; [lia|]. split; [apply GN|]. destruct first.
    + destruct (CI (i + 1)) as (x & X & XR & _); [lia|]. specialize (RB x X). cbn in RB. lia.
    + destruct (CI (j - 1)) as (x & X & XR & _); [lia|]. specialize (RB x X). cbn in RB. lia.
Qed.
Definition ok (n : Z) (f : finder) (i j : Z) : Prop :=
  at_min (f_min f) i /\ min_no f = i /\ at_max (f_max f) j /\ (max_no f = j \/ max_no f = j + 1) /\ -1 <= i < n /\ n < j <= N /\ 0 <= shift f.
Definition done (n : Z) (f : finder) : Prop := ret_no f = n /\ In (f_ret f) lines /\ rk (f_ret f) = n.
Definition used (f : finder) : Z := if shift f =? 0 then 0 else shift f - 1.
Lemma round_ok n f i j : ok n f i j ->
  if (n - i) * 2 ^ used f >=? 2147483648 then find_round lines n f = None
  else exists f', find_round lines n f = Some f' /\ shift f' <= used f + 2 /\
    (done n f' \/ (ret_no f' <> n /\ exists i' j', ok n f' i' j' /\ Z.min (n - i') (j' - n) + 1 <= Z.min (n - i) (j - n) /\ i <= i')).
Proof.
  intros (A & MI & B & MA & I & J & SH). unfold find_round. fold (used f). rewrite MI. destruct ((n - i) * 2 ^ used f >=? 2147483648); [reflexivity|].
  assert (U : 0 <= used f) by (unfold used; destruct (Z.eqb_spec (shift f) 0); lia). assert (W : n - i <= (n - i) * 2 ^ used f). { pose proof (Z.pow_pos_nonneg 2 (used f) ltac:(lia) U). nia. }
  set (wanted := (n - i) * 2 ^ used f) in *. clearbody wanted. cbv zeta. destruct (Z.ltb_spec (n - i) (max_no f - n)) as [F|F].
  - pose proof (pass_result i j n true wanted (f_min f) (f_max f) A B I J W) as R. cbv zeta in R. destruct (fold_left _ _ _) as [rt gs lo hi]. cbn [ret guess num_lower num_higher] in *. destruct R as (GI & RI & LO & GN & GJ & RR).
    set (sh := if _ >? _ then used f + 2 else used f). assert (S2 : 0 <= sh <= used f + 2) by (subst sh; destruct (_ >? _); lia). clearbody sh.
    destruct (Z.gtb_spec (i + 1 + 1 + lo) n) as [G|G]; [|lia]. eexists. split; [reflexivity|]. cbn [shift]. split; [lia|]. destruct (Z.eq_dec (i + 1) n) as [E|E].
    + left. unfold done. cbn [ret_no f_ret]. rewrite RR. auto.
    + right. cbn [ret_no]. split; [exact E|]. exists (i + 1), (rk gs). split; [|lia]. unfold ok. cbn [f_min min_no f_max max_no shift]. split; [right; auto|]. split; [reflexivity|]. split; [right; auto|]. split; [right; lia|]. lia.
  - pose proof (pass_result i j n false wanted (f_min f) (f_max f) A B I J W) as R. cbv zeta in R. destruct (fold_left _ _ _) as [rt gs lo hi]. cbn [ret guess num_lower num_higher] in *. destruct R as (GI & RI & LO & GN & GJ & RR).
    set (sh := if _ >? _ then used f + 2 else used f). assert (S2 : 0 <= sh <= used f + 2) by (subst sh; destruct (_ >? _); lia). clearbody sh.
    destruct (Z.gtb_spec (i + 1 + lo) n) as [G|G].
    + eexists. split; [reflexivity|]. cbn [shift]. split; [lia|]. right. cbn [ret_no]. split; [lia|]. exists i, (rk gs). split; [|lia]. unfold ok. cbn [f_min min_no f_max max_no shift]. split; [exact A|]. split; [reflexivity|]. split; [right; auto|]. split; [left; lia|]. lia.
    + destruct (Z.ltb_spec (i + 1 + lo) n) as [G2|G2]; [lia|]. eexists. split; [reflexivity|]. cbn [shift]. split; [lia|]. left. unfold done. cbn [ret_no f_ret]. split; [lia|]. split; [exact GI|lia].
Qed.
Lemma loop_ok n B : forall fuel f i j r, ok n f i j -> ret_no f <> n -> Z.min (n - i) (j - n) <= Z.of_nat fuel -> 0 <= r -> r + Z.min (n - i) (j - n) <= B -> shift f <= r + 1 ->
  (n - i) * 2 ^ (B - 1) < 2147483648 -> exists f', find_loop fuel lines n f = Some f' /\ done n f'.
Proof.
  induction fuel as [|fuel IH]; intros f i j r K NR M R0 RB SH W; pose proof K as (A & MI & Bm & MA & I & J & SH0); [lia|].
  cbn [find_loop]. destruct (Z.eqb_spec (ret_no f) n) as [|_]; [contradiction|]. pose proof (round_ok n f i j K) as R.
  assert (U : 0 <= used f <= B - 1) by (unfold used; destruct (Z.eqb_spec (shift f) 0); lia).
  assert (W2 : (n - i) * 2 ^ used f < 2147483648). { pose proof (Z.pow_le_mono_r 2 (used f) (B - 1) ltac:(lia) ltac:(lia)). pose proof (Z.mul_le_mono_nonneg_l _ _ (n - i) ltac:(lia) H). lia. }
  destruct (Z.geb_spec ((n - i) * 2 ^ used f) 2147483648) as [|_]; [lia|]. destruct R as (f' & E & S2 & [D|(NR' & i' & j' & K' & M' & I')]); rewrite E.
  - exists f'. split; [|exact D]. destruct fuel; cbn [find_loop]; rewrite (proj1 D), Z.eqb_refl; reflexivity.
  - apply (IH f' i' j' (r + 1) K' NR'); try lia.
    + unfold used in S2. destruct (Z.eqb_spec (shift f) 0); lia.
    + pose proof K' as (_ & _ & _ & _ & I2 & _). pose proof (Z.pow_nonneg 2 (B - 1) ltac:(lia)) as PP. pose proof (Z.mul_le_mono_nonneg_r (n - i') (n - i) _ PP ltac:(lia)). lia.
Qed.
Lemma loop_never_wrong n : forall fuel f i j f', ok n f i j -> ret_no f <> n -> find_loop fuel lines n f = Some f' -> done n f'.
Proof.
  induction fuel as [|fuel IH]; intros f i j f' K NR E; cbn [find_loop] in E; destruct (Z.eqb_spec (ret_no f) n) as [|_]; try contradiction; [discriminate|].
  pose proof (round_ok n f i j K) as R. destruct (_ >=? _); [rewrite R in E; discriminate|]. destruct R as (f1 & E1 & _ & [D|(NR' & i' & j' & K' & _)]); rewrite E1 in E.
  - destruct fuel; cbn [find_loop] in E; rewrite (proj1 D), Z.eqb_refl in E; injection E as <-; exact D.
  - apply (IH f1 i' j' f' K' NR' E).
Qed.
(** The helper between calls. *)
Definition cached (h : helper) : Prop := num_lines h = N /\ ((line_no h = -1) \/ (In (line h) lines /\ rk (line h) = line_no h)).
Lemma start_ok h n : cached h -> 0 <= n < N -> line_no h <> n -> exists i j, ok n (find_start h n) i j /\ (n - i) + (j - n) <= N + 1 /\ ret_no (find_start h n) = line_no h /\ shift (find_start h n) = 0.
Proof.
  intros (NL & C) R D. unfold find_start. destruct (Z.geb_spec (line_no h) 0) as [G|G].
  - destruct C as [C|(I & C)]; [lia|]. destruct (Z.gtb_spec (line_no h) n) as [G2|G2].
    + exists (-1), (line_no h). split; [|cbn; pose proof (rk_range _ I); lia]. unfold ok. cbn. split; [left; auto|]. split; [reflexivity|]. split; [right; auto|]. split; [left; reflexivity|]. pose proof (rk_range _ I). lia.
    + exists (line_no h), N. split; [|cbn; lia]. unfold ok. cbn. split; [right; auto|]. split; [reflexivity|]. split; [left; auto|]. split; [right; lia|]. lia.
  - exists (-1), N. split; [|cbn; lia]. unfold ok. cbn. split; [left; auto|]. split; [reflexivity|]. split; [left; auto|]. split; [right; lia|]. lia.
Qed.
Lemma small a u : 1 <= a -> 1 <= u -> a + u <= 55 -> a * 2 ^ (Z.min a u - 1) < 2147483648.
Proof.
  intros A U S. destruct (Z_le_gt_dec (Z.min a u) 26) as [M|M].
  - pose proof (Z.pow_le_mono_r 2 (Z.min a u - 1) 25 ltac:(lia) ltac:(lia)) as P. change (2 ^ 25) with 33554432 in P. nia.
  - assert (E : Z.min a u = 27) by lia. rewrite E. change (2 ^ (27 - 1)) with 67108864. lia.
Qed.
Definition fetch (h : helper) (n : Z) : option finder := if n =? line_no h then Some (Finder [] 0 [] 0 (line h) (line_no h) 0) else find_loop (S (length lines)) lines n (find_start h n).
Lemma fetch_ok h n : cached h -> N <= 54 -> 0 <= n < N -> exists f, fetch h n = Some f /\ done n f.
Proof.
  intros C S R. unfold fetch. destruct (Z.eqb_spec n (line_no h)) as [E|E].
  - eexists. split; [reflexivity|]. destruct C as (_ & [C|(I & C)]); [lia|]. unfold done. cbn. split; [lia|]. split; [exact I|lia].
  - destruct (start_ok h n C R ltac:(lia)) as (i & j & K & B & RN & SH). pose proof K as (_ & _ & _ & _ & I & J & _).
    apply (loop_ok n (Z.min (n - i) (j - n)) _ _ i j 0 K); try lia. + unfold N in *. lia. + apply small; lia.
Qed.
Lemma fetch_never_wrong h n f : cached h -> 0 <= n < N -> fetch h n = Some f -> done n f.
Proof.
  intros C R. unfold fetch. destruct (Z.eqb_spec n (line_no h)) as [E|E].
  - intros Q. injection Q as <-. destruct C as (_ & [C|(I & C)]); [lia|]. unfold done. cbn. split; [lia|]. split; [exact I|lia].
  - destruct (start_ok h n C R ltac:(lia)) as (i & j & K & B & RN & SH). apply (loop_never_wrong n _ _ i j f K). lia.
Qed.
Lemma done_nth n f : 0 <= n < N -> done n f -> nth_error s (Z.to_nat n) = Some (f_ret f).
Proof. intros R (_ & I & E). destruct (rk_at n R) as (x & X & XR & XE). rewrite XE. f_equal. apply rk_inj; [assumption|assumption|lia]. Qed.
End Ranks.

(** Menus of lines. *)
Lemma position_fold cur lines : forall t h l, fold_left (position1 cur) lines (t, h, l) =
  (t + Z.of_nat (length lines), h + Z.of_nat (length (filter (fun c => cmp c cur >? 0) lines)), l + Z.of_nat (length (filter (fun c => cmp c cur <? 0) lines))).
Proof.
  induction lines as [|x lines IH]; intros t h l; cbn [fold_left]; [cbn; rewrite !Z.add_0_r; reflexivity|]. cbn [position1 filter length]. destruct (cmp x cur >? 0) eqn:G; destruct (cmp x cur <? 0) eqn:L; try lia; rewrite IH; cbn [length]; (apply f_equal2; [apply f_equal2|]); lia.
Qed.
Lemma sorted_app a b : StronglySorted before (a ++ b) -> StronglySorted before b /\ StronglySorted before a /\ forall x y, In x a -> In y b -> before x y.
Proof.
  induction a as [|z a IH]; cbn; intros H; [split; [exact H|]; split; [constructor|contradiction]|]. inversion H as [|? ? Ha F]; subst. destruct (IH Ha) as (I1 & I2 & I3). rewrite Forall_forall in F. split; [exact I1|]. split; [constructor; [exact I2|]; apply Forall_forall; intros y Y; apply F; apply in_or_app; left; exact Y|].
  intros x y [<-|X] Y; [apply F; apply in_or_app; right; exact Y|apply I3; assumption].
Qed.
Lemma count_app a b cur : (forall x, In x a -> before x cur) -> (forall y, In y b -> ~ before y cur) -> length (filter (fun c => cmp c cur <? 0) (a ++ b)) = length a.
Proof.
  intros A B. rewrite filter_app, (all_filter _ a), (none_filter _ b), app_nil_r; [reflexivity| |].
  - intros y Y. specialize (B y Y). rewrite <- cmp_before in B. lia.
  - intros x X. specialize (A x X). apply cmp_before in A. lia.
Qed.
Lemma before_trans a b c : before a b -> before b c -> before a c.
Proof. apply lex_trans. Qed.
Lemma before_irrefl a : ~ before a a.
Proof. intros H. apply cmp_before in H. rewrite cmp_self in H. lia. Qed.
Lemma filter_total lines cur : Z.of_nat (length (filter (fun c => cmp c cur <? 0) lines)) + Z.of_nat (length (filter (fun c => cmp c cur >? 0) lines)) + Z.of_nat (length (filter (fun c => cmp c cur =? 0) lines)) = Z.of_nat (length lines).
Proof. induction lines as [|x lines IH]; [reflexivity|]. cbn. destruct (cmp x cur <? 0) eqn:A; destruct (cmp x cur >? 0) eqn:B; destruct (cmp x cur =? 0) eqn:C; cbn [length]; lia. Qed.
Section Menu.
Variables (lines : list str) (s1 s2 : list str) (cur : str).
Variable x : option str.   (* the line that is the current value *)
Definition ms : list str := s1 ++ match x with Some x => x :: s2 | None => s2 end.
Hypothesis HS : sorted_lines lines ms.
Hypothesis HP : Forall plain lines.
Hypothesis HX : match x with Some x => same_nocase x cur | None => True end.
Hypothesis H1 : forall a, In a s1 -> before a cur.
Hypothesis H2 : forall a, In a s2 -> before cur a.
Definition shown : list str := s1 ++ cur :: s2.
Lemma init_ok : init lines cur = Helper (N lines) (Z.of_nat (length s1)) (match x with Some _ => true | None => false end) [] (-1).
Proof.
  unfold init. rewrite position_fold. rewrite !Z.add_0_l.
  assert (L : length (filter (fun c => cmp c cur <? 0) lines) = length s1).
  { rewrite <- (filter_perm _ ms lines) by apply HS. apply count_app; [exact H1|]. intros y Y. assert (Q : In y s2 \/ (match x with Some z => y = z | None => False end)) by (destruct x; cbn in Y; intuition). destruct Q as [Q|Q].
    - intros B. apply (before_irrefl y). eapply before_trans; [exact B|]. apply H2. exact Q.
    - destruct x as [z|]; [|contradiction]. subst z. intros B. apply cmp_before in B. apply cmp_eq in HX. lia. }
  assert (E : length (filter (fun c => cmp c cur =? 0) lines) = match x with Some _ => 1 | None => 0 end%nat).
  { rewrite <- (filter_perm _ ms lines) by apply HS. unfold ms. rewrite filter_app, (none_filter _ s1) by (intros y Y; specialize (H1 y Y); apply cmp_before in H1; lia). cbn [app].
    assert (S2 : filter (fun c => cmp c cur =? 0) s2 = []). { apply none_filter. intros y Y. specialize (H2 y Y). apply cmp_gt in H2. lia. }
    destruct x as [z|]; [|rewrite S2; reflexivity]. cbn [filter]. apply cmp_eq in HX. rewrite HX. cbn. rewrite S2. reflexivity. }
  pose proof (filter_total lines cur) as T. rewrite L. unfold N. f_equal. rewrite L, E in T. destruct x; lia.
Qed.
Definition good (h : helper) : Prop := cached lines h /\ cur_pos h = Z.of_nat (length s1) /\ cur_exists h = match x with Some _ => true | None => false end.
Lemma good_init : good (init lines cur).
Proof. rewrite init_ok. split; [|split; reflexivity]. split; [reflexivity|]. left. reflexivity. Qed.
Lemma len_ms : Z.of_nat (length ms) = N lines.
Proof. unfold N. rewrite <- (Permutation_length (proj1 HS)). reflexivity. Qed.
Lemma fetch_get h n f : good h -> 0 <= n < N lines -> fetch lines h n = Some f -> done lines n f ->
  exists h', (if n =? line_no h then Some (h, line h) else match find_loop (S (length lines)) lines n (find_start h n) with
         | None => None
         | Some f => Some (Helper (num_lines h) (cur_pos h) (cur_exists h) (f_ret f) (ret_no f), f_ret f)
         end) = Some (h', f_ret f) /\ good h'.
Proof.
  intros (C & P & X) R F D. unfold fetch in F. destruct (n =? line_no h).
  - injection F as <-. exists h. split; [reflexivity|]. split; [exact C|]. split; assumption.
  - rewrite F. eexists. split; [reflexivity|]. split; [|split; assumption]. split; [apply C|]. right. cbn. split; [apply D|]. destruct D as (D1 & _ & D2). lia.
Qed.
(** The line get() must fetch for position n. *)
Definition which (n : Z) : Z := if (n >? Z.of_nat (length s1)) && match x with Some _ => false | None => true end then n - 1 else n.
Lemma which_nth n : 0 <= n < Z.of_nat (length shown) -> n <> Z.of_nat (length s1) -> 0 <= which n < N lines /\ nth_error ms (Z.to_nat (which n)) = nth_error shown (Z.to_nat n).
Proof.
  intros R D. rewrite <- len_ms. unfold shown, ms, which in *. rewrite app_length in *. cbn [length] in R. destruct (Z.gtb_spec n (Z.of_nat (length s1))) as [G|G]; cbn [andb].
  - destruct x as [z|]; cbn [length].
    + split; [lia|]. rewrite !nth_error_app2 by lia. replace (Z.to_nat n - length s1)%nat with (S (Z.to_nat n - length s1 - 1)) by lia. reflexivity.
    + split; [lia|]. rewrite !nth_error_app2 by lia. replace (Z.to_nat n - length s1)%nat with (S (Z.to_nat (n - 1) - length s1)) by lia. reflexivity.
  - split; [destruct x; cbn [length]; lia|]. rewrite !nth_error_app1 by lia. reflexivity.
Qed.
Lemma get_unfold h n : good h -> get lines cur h n = if n =? Z.of_nat (length s1) then Some (h, cur) else
  if which n =? line_no h then Some (h, line h) else match find_loop (S (length lines)) lines (which n) (find_start h (which n)) with
         | None => None
         | Some f => Some (Helper (num_lines h) (cur_pos h) (cur_exists h) (f_ret f) (ret_no f), f_ret f)
         end.
Proof.
  intros (_ & P & X). unfold get, which. rewrite P, X. destruct (Z.eqb_spec n (Z.of_nat (length s1))) as [->|E]; [rewrite Z.geb_leb, Z.leb_refl; reflexivity|]. rewrite andb_false_r.
  replace (n >=? Z.of_nat (length s1)) with (n >? Z.of_nat (length s1)) by lia. destruct x; cbn [negb]; reflexivity.
Qed.
Lemma get_ok h n : good h -> N lines <= 54 -> 0 <= n < Z.of_nat (length shown) -> exists h' l, get lines cur h n = Some (h', l) /\ nth_error shown (Z.to_nat n) = Some l /\ good h'.
Proof.
  intros G S R. rewrite get_unfold by exact G. destruct (Z.eqb_spec n (Z.of_nat (length s1))) as [->|E].
  - exists h, cur. split; [reflexivity|]. split; [|exact G]. unfold shown. rewrite nth_error_app2 by lia. replace (_ - _)%nat with O by lia. reflexivity.
  - destruct (which_nth n R E) as (W & NE). destruct (fetch_ok lines ms HS HP h (which n) (proj1 G) S W) as (f & F & D). destruct (fetch_get h _ f G W F D) as (h' & GE & G'). exists h', (f_ret f). split; [exact GE|]. split; [|exact G']. rewrite <- NE. apply (done_nth lines ms HS _ _ W D).
Qed.
Lemma get_never_wrong h n h' l : good h -> 0 <= n < Z.of_nat (length shown) -> get lines cur h n = Some (h', l) -> nth_error shown (Z.to_nat n) = Some l /\ good h'.
Proof.
  intros G R. rewrite get_unfold by exact G. destruct (Z.eqb_spec n (Z.of_nat (length s1))) as [->|E].
  - intros Q. injection Q as <- <-. split; [|exact G]. unfold shown. rewrite nth_error_app2 by lia. replace (_ - _)%nat with O by lia. reflexivity.
  - destruct (which_nth n R E) as (W & NE). intros Q. destruct (fetch lines h (which n)) as [f|] eqn:F.
    + pose proof (fetch_never_wrong lines ms HS HP h _ f (proj1 G) W F) as D. destruct (fetch_get h _ f G W F D) as (h2 & GE & G'). rewrite GE in Q. injection Q as <- <-. split; [|exact G']. rewrite <- NE. apply (done_nth lines ms HS _ _ W D).
    + exfalso. unfold fetch in F. destruct (which n =? line_no h); [discriminate|]. rewrite F in Q. discriminate.
Qed.
Lemma gets_ok ns : forall h, good h -> N lines <= 54 -> Forall (fun n => 0 <= n < Z.of_nat (length shown)) ns -> exists ls, gets lines cur h ns = Some ls /\ map (fun n => nth_error shown (Z.to_nat n)) ns = map Some ls.
Proof.
  induction ns as [|n ns IH]; intros h G S F; [exists []; split; reflexivity|]. inversion F as [|? ? F1 F2]; subst. destruct (get_ok h n G S F1) as (h' & l & E & NE & G'). destruct (IH h' G' S F2) as (ls & E2 & M).
  exists (l :: ls). cbn [gets map]. rewrite E, E2, NE, M. split; reflexivity.
Qed.
Lemma gets_never_wrong ns : forall h ls, good h -> Forall (fun n => 0 <= n < Z.of_nat (length shown)) ns -> gets lines cur h ns = Some ls -> map (fun n => nth_error shown (Z.to_nat n)) ns = map Some ls.
Proof.
  induction ns as [|n ns IH]; intros h ls G F E; cbn [gets] in E; [injection E as <-; reflexivity|]. inversion F as [|? ? F1 F2]; subst. destruct (get lines cur h n) as [(h', l)|] eqn:GE; [|discriminate]. destruct (gets lines cur h' ns) as [ls'|] eqn:GS; [|discriminate]. injection E as <-.
  destruct (get_never_wrong h n h' l G F1 GE) as (NE & G'). cbn [map]. rewrite NE, (IH h' ls' G' F2 GS). reflexivity.
Qed.
End Menu.

(** Splitting output into lines. *)
Lemma capture_chars maxline l : 2 <= maxline -> printable l -> forall s ls, Z.of_nat (length s) <= maxline - 1 ->
  fold_left (capture1 maxline) l (s, ls) = (firstn (Z.to_nat (maxline - 1)) (s ++ l), ls).
Proof.
  intros M. induction l as [|b l IH]; intros (P1 & P2) s ls S; cbn [fold_left].
  - rewrite app_nil_r, firstn_all2 by lia. reflexivity.
  - unfold capture1 at 2. cbn [fst snd]. destruct (Z.eqb_spec b 10) as [->|_]; [exfalso; apply P1; left; reflexivity|]. destruct (Z.eqb_spec b 13) as [->|_]; [exfalso; apply P2; left; reflexivity|].
    assert (PL : printable l) by (split; intros I; [apply P1|apply P2]; right; exact I). destruct (Z.ltb_spec (Z.of_nat (length s)) (maxline - 1)) as [L|L].
    + rewrite IH; [|exact PL|rewrite app_length; cbn; lia]. rewrite <- app_assoc. reflexivity.
    + rewrite IH by (try exact PL; lia). rewrite !firstn_app. replace (_ - length s)%nat with O by lia. reflexivity.
Qed.
Definition nonempty (l : str) : bool := match l with [] => false | _ => true end.
Lemma capture_eol maxline cr s ls : fold_left (capture1 maxline) (if cr : bool then [13; 10] else [10]) (s, ls) = ([], ls ++ if nonempty s then [s] else []).
Proof. destruct cr; cbn; destruct s; cbn; rewrite ?app_nil_r; reflexivity. Qed.
Lemma capture_printed maxline : 2 <= maxline -> forall ls out, Forall (fun l => printable (fst l)) ls ->
  fold_left (capture1 maxline) (printed ls) ([], out) = ([], out ++ map (firstn (Z.to_nat (maxline - 1))) (filter nonempty (map fst ls))).
Proof.
  intros M. induction ls as [|(l, cr) ls IH]; intros out F; cbn [printed map filter fold_left]; [rewrite app_nil_r; reflexivity|]. inversion F as [|? ? F1 F2]; subst. cbn [fst] in F1.
  rewrite !fold_left_app. rewrite capture_chars by (try exact F1; cbn; lia). rewrite capture_eol, IH by exact F2. cbn [app fst]. f_equal. destruct l as [|c l]; cbn [nonempty]; [rewrite firstn_nil; cbn; rewrite app_nil_r; reflexivity|].
  replace (Z.to_nat (maxline - 1)) with (S (Z.to_nat (maxline - 2))) by lia. cbn. rewrite <- app_assoc. reflexivity.
Qed.
Lemma catch_chars target bufsize l : printable l -> forall k s, 0 <= bufsize -> Z.of_nat (length s) <= Z.max 0 (bufsize - 1) ->
  fold_left (catch1 target bufsize) l (k, s) = (k, if k =? target then firstn (Z.to_nat (bufsize - 1)) (s ++ l) else s).
Proof.
  induction l as [|b l IH]; intros (P1 & P2) k s B L; cbn [fold_left].
  - rewrite app_nil_r, firstn_all2 by lia. destruct (k =? target); reflexivity.
  - unfold catch1 at 2. cbn [fst snd]. destruct (Z.eqb_spec b 10) as [->|_]; [exfalso; apply P1; left; reflexivity|]. destruct (Z.eqb_spec b 13) as [->|_]; [exfalso; apply P2; left; reflexivity|].
    assert (PL : printable l) by (split; intros I; [apply P1|apply P2]; right; exact I). destruct (Z.eqb_spec k target) as [->|K]; cbn [andb].
    + destruct (Z.gtb_spec (bufsize - Z.of_nat (length s)) 1) as [G|G].
      * rewrite IH; [|exact PL|lia|rewrite app_length; cbn; lia]. rewrite Z.eqb_refl, <- app_assoc. reflexivity.
      * rewrite IH by (try exact PL; lia). rewrite Z.eqb_refl. f_equal. rewrite !firstn_app. replace (_ - length s)%nat with O by lia. reflexivity.
    + rewrite IH by (try exact PL; lia). destruct (Z.eqb_spec k target); [contradiction|reflexivity].
Qed.
Lemma catch_printed target bufsize : 0 <= bufsize -> forall ls k s, Forall (fun l => printable (fst l)) ls -> (k <= target -> s = []) -> Z.of_nat (length s) <= Z.max 0 (bufsize - 1) ->
  fold_left (catch1 target bufsize) (printed ls) (k, s) =
  (k + Z.of_nat (length ls), if k <=? target then match nth_error (map fst ls) (Z.to_nat (target - k)) with Some l => firstn (Z.to_nat (bufsize - 1)) l | None => [] end else s).
Proof.
  intros B. induction ls as [|(l, cr) ls IH]; intros k s F E L; cbn [printed map length].
  - cbn [fold_left]. rewrite Z.add_0_r. f_equal. destruct (Z.leb_spec k target); [|reflexivity]. rewrite E by assumption. destruct (Z.to_nat _); reflexivity.
  - inversion F as [|? ? F1 F2]; subst. cbn [fst] in *. rewrite !fold_left_app. rewrite catch_chars by assumption.
    assert (EOL : forall s', fold_left (catch1 target bufsize) (if cr then [13; 10] else [10]) (k, s') = (k + 1, s')) by (intros; destruct cr; reflexivity). rewrite EOL. clear EOL.
    destruct (Z.eqb_spec k target) as [->|K].
    + rewrite E by lia. cbn [app]. rewrite IH; [|exact F2|lia|rewrite firstn_length; lia]. f_equal; [lia|]. destruct (Z.leb_spec (target + 1) target); [lia|]. rewrite Z.leb_refl, Z.sub_diag. reflexivity.
    + rewrite IH; [|exact F2|intros; apply E; lia|exact L]. f_equal; [lia|]. destruct (Z.leb_spec (k + 1) target); destruct (Z.leb_spec k target); try lia; [|reflexivity]. replace (Z.to_nat (target - k)) with (S (Z.to_nat (target - (k + 1)))) by lia. reflexivity.
Qed.
(** The next line in byte order. *)
Lemma strcmp_lt a b : (strcmp a b < 0 <-> lex a b) /\ (strcmp a b > 0 <-> lex b a).
Proof.
  revert b. induction a as [|x a IH]; intros [|y b]; cbn [strcmp].
  - split; split; intros H; try lia; inversion H.
  - split; split; intros H; try lia; try constructor. inversion H.
  - split; split; intros H; try lia; try constructor. inversion H.
  - destruct (Z.eqb_spec x y) as [->|N].
    + destruct (IH b) as (I1 & I2). split; [rewrite I1|rewrite I2]; (split; intros H; [constructor; exact H|inversion H; subst; [lia|assumption]]).
    + split; split; intros H; try (apply lex_head; lia); inversion H; subst; lia.
Qed.
Lemma next_compare_ok r a b : next_compare r a b = true <-> comes_next r a b.
Proof. unfold next_compare, comes_next. destruct (strcmp_lt a b) as (L & G). destruct r; [rewrite <- G|rewrite <- L]; lia. Qed.
Lemma lex_irrefl a : ~ lex a a.
Proof. intros H. apply (proj1 (strcmp_lt a a)) in H. assert (E : strcmp a a = 0) by (clear; induction a; cbn; [reflexivity|rewrite Z.eqb_refl; exact IHa]). lia. Qed.
Lemma comes_trans r a b c : comes_next r a b -> comes_next r b c -> comes_next r a c.
Proof. destruct r; cbn; intros; eapply lex_trans; eassumption. Qed.
Lemma next_got_ok r p P f l : is_next r p P f -> is_next r p (P ++ [l]) (next_got r p f l).
Proof.
  intros V. unfold next_got. assert (A : (match p with None => true | Some p => next_compare r p l end) = true <-> after r p l).
  { unfold after. destruct p as [q|]; [apply next_compare_ok|]. split; [intros _; exact Logic.I|reflexivity]. }
  destruct (match p with None => true | Some p => next_compare r p l end).
  - assert (AL : after r p l) by (apply A; reflexivity). destruct f as [f|]; cbn [is_next] in V.
    + destruct V as (I & AF & ST). destruct (next_compare r l f) eqn:C.
      * apply next_compare_ok in C. cbn. split; [apply in_or_app; right; left; reflexivity|]. split; [exact AL|]. intros z Z0 AZ Q. apply in_app_or in Z0. destruct Z0 as [Z0|[<-|[]]]; [apply (ST z Z0 AZ); eapply comes_trans; eassumption|]. destruct r; apply (lex_irrefl l); exact Q.
      * cbn. split; [apply in_or_app; left; exact I|]. split; [exact AF|]. intros z Z0 AZ Q. apply in_app_or in Z0. destruct Z0 as [Z0|[<-|[]]]; [apply (ST z Z0 AZ Q)|]. apply next_compare_ok in Q. congruence.
    + cbn. split; [apply in_or_app; right; left; reflexivity|]. split; [exact AL|]. intros z Z0 AZ Q. apply in_app_or in Z0. destruct Z0 as [Z0|[<-|[]]]; [apply (V z Z0 AZ)|]. destruct r; apply (lex_irrefl l); exact Q.
  - assert (AL : ~ after r p l) by (intros Q; apply A in Q; discriminate). destruct f as [f|]; cbn [is_next] in *.
    + destruct V as (I & AF & ST). split; [apply in_or_app; left; exact I|]. split; [exact AF|]. intros z Z0 AZ Q. apply in_app_or in Z0. destruct Z0 as [Z0|[<-|[]]]; [apply (ST z Z0 AZ Q)|]. contradiction.
    + intros z Z0. apply in_app_or in Z0. destruct Z0 as [Z0|[<-|[]]]; [apply V; exact Z0|exact AL].
Qed.
Lemma next_line_ok r p lines : is_next r p lines (next_line r p lines).
Proof.
  unfold next_line. assert (G : forall R P f, is_next r p P f -> is_next r p (P ++ R) (fold_left (next_got r p) R f)).
  { induction R as [|l R IH]; intros P f V; cbn [fold_left]; [rewrite app_nil_r; exact V|]. change (l :: R) with ([l] ++ R). rewrite app_assoc. apply IH. apply next_got_ok. exact V. }
  apply (G lines [] None). intros l [].
Qed.
