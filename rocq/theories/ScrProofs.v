From Coq Require Import ZArith List Bool Lia ZifyBool ZifyNat.
From Verif Require Import SoundModel ScrModel ScrSpec.
Import ListNotations.
Local Open Scope Z_scope.

Lemma str_eqb_dec : forall a b (A : Type) (x y : A),
  (if str_eqb a b then x else y) = if list_eq_dec Z.eq_dec a b then x else y.
Proof. intros a b A x y. unfold str_eqb. destruct (list_eq_dec Z.eq_dec a b); reflexivity. Qed.

Lemma cut_app : forall c a b, ~ In c a -> cut c (a ++ c :: b) = (a, Some b).
Proof.
  intros c a b. induction a as [|x a IH]; intros H; cbn [app cut].
  - rewrite Z.eqb_refl. reflexivity.
  - replace (x =? c) with false by (symmetry; apply Z.eqb_neq; intros E; apply H; left; congruence).
    rewrite IH; auto. intros I. apply H. right. exact I.
Qed.
Lemma cut_none : forall c a, ~ In c a -> cut c a = (a, None).
Proof.
  intros c a. induction a as [|x a IH]; intros H; cbn [cut]; auto.
  replace (x =? c) with false by (symmetry; apply Z.eqb_neq; intros E; apply H; left; congruence).
  rewrite IH; auto. intros I. apply H. right. exact I.
Qed.
Lemma cut_fst : forall c a, ~ In c (fst (cut c a)).
Proof.
  intros c a. induction a as [|x a IH]; cbn [cut]; [intros []|].
  destruct (x =? c) eqn:E; [intros []|]. destruct (cut c a) as [p r]. cbn [fst] in *.
  intros [X|X]; [apply Z.eqb_neq in E; congruence|auto].
Qed.
Lemma trim_all : forall b, Forall (fun c => is_space c = true) b -> trim_end b = [].
Proof. intros b. induction b as [|x b IH]; intros H; auto. inversion H; subst. cbn [trim_end]. rewrite IH, H2 by auto. reflexivity. Qed.
Lemma trim_blanks : forall a b, Forall (fun c => is_space c = true) b -> trim_end (a ++ b) = trim_end a.
Proof.
  intros a b H. induction a as [|x a IH]; cbn [app]; [apply trim_all; auto|]. cbn [trim_end]. rewrite IH. reflexivity.
Qed.
Lemma trim_keep : forall a x, is_space x = false -> trim_end (a ++ [x]) = a ++ [x].
Proof.
  intros a x H. induction a as [|y a IH]; cbn [app trim_end]; [rewrite H; reflexivity|].
  rewrite IH. destruct (a ++ [x]) eqn:E; [destruct a; discriminate|]. reflexivity.
Qed.

(** A line without 0 and '#' *)
Lemma split_plain : forall l, ~ In 0 l -> ~ In 35 l -> split_line l = cut 61 l.
Proof.
  intros l H0 H1. unfold split_line. rewrite (cut_none 0 l H0). cbn [fst]. rewrite (cut_none 35 l H1). reflexivity.
Qed.
Lemma split_comment : forall l x b r, ~ In 0 (l ++ [x]) -> ~ In 35 (l ++ [x]) -> is_space x = false ->
  Forall (fun c => is_space c = true) b ->
  split_line ((l ++ [x]) ++ b ++ 35 :: r) = split_line (l ++ [x]).
Proof.
  intros l x b r H0 H1 HX HB. rewrite (split_plain (l ++ [x])) by auto. unfold split_line.
  assert (B0 : ~ In 0 b). { intros I. rewrite Forall_forall in HB. specialize (HB 0 I). discriminate. }
  assert (B1 : ~ In 35 b). { intros I. rewrite Forall_forall in HB. specialize (HB 35 I). discriminate. }
  assert (E : exists r', fst (cut 0 ((l ++ [x]) ++ b ++ 35 :: r)) = (l ++ [x]) ++ b ++ 35 :: r').
  { exists (fst (cut 0 r)).
    assert (G : forall a c, ~ In 0 a -> fst (cut 0 (a ++ c)) = a ++ fst (cut 0 c)).
    { intros a c. induction a as [|y a IH]; intros N; cbn [app cut]; auto.
      replace (y =? 0) with false by (symmetry; apply Z.eqb_neq; intros Q; apply N; left; congruence).
      destruct (cut 0 (a ++ c)) eqn:K. cbn [fst] in *. rewrite IH; auto. intros I. apply N. right. exact I. }
    rewrite G by auto. rewrite G by auto. cbn [cut]. change (35 =? 0) with false. cbn iota.
    destruct (cut 0 r). reflexivity. }
  destruct E as [r' ->]. rewrite app_assoc, cut_app.
  - rewrite trim_blanks by auto. rewrite trim_keep by auto. reflexivity.
  - rewrite in_app_iff. tauto.
Qed.

Lemma exec_same : forall path sound s a b, split_line a = split_line b -> exec path sound s a = exec path sound s b.
Proof. intros path sound s a b H. unfold exec. rewrite H. reflexivity. Qed.

(** What one directive does, as a step *)
Definition ok (s : st) : Prop := (layer s < length (names s))%nat.

Lemma clean_no : forall v, clean v -> ~ In 0 v /\ ~ In 35 v /\ (forall c, In c v -> is_nl c = false).
Proof.
  intros v [_ H]. rewrite Forall_forall in H. repeat split; try (intros I; specialize (H _ I); lia).
  intros c I. specialize (H c I). unfold is_nl. lia.
Qed.
Ltac notin := cbn [In app]; let I := fresh in intros I; repeat destruct I as [I|I]; try lia; try tauto.

Lemma split_written : forall d, writable d -> split_line (written d) =
  match d with
  | DLayer => (k_layer, None) | DRestart => (k_restart, None)
  | DFile v => (k_file, Some v) | DTime v => (k_time, Some v)
  | DVariable k v => ([65 + Z.of_nat k], Some v)
  end.
Proof.
  intros d H. destruct d as [|v| |v|k v]; cbn [writable] in H.
  - reflexivity.
  - destruct (clean_no v H) as (A & B & _). rewrite split_plain; cbn [written].
    + change ([102; 105; 108; 101; 61] ++ v) with ([102; 105; 108; 101] ++ 61 :: v). apply cut_app. notin.
    + notin.
    + notin.
  - reflexivity.
  - destruct (clean_no v H) as (A & B & _). rewrite split_plain; cbn [written].
    + change ([116; 105; 109; 101; 61] ++ v) with ([116; 105; 109; 101] ++ 61 :: v). apply cut_app. notin.
    + notin.
    + notin.
  - destruct H as [K H]. destruct (clean_no v H) as (A & B & _). rewrite split_plain; cbn [written].
    + change ([65 + Z.of_nat k; 61] ++ v) with ([65 + Z.of_nat k] ++ 61 :: v). apply cut_app. notin.
    + notin.
    + notin.
Qed.

(** Reading a line that fits. *)
Lemma read_line : forall path sound s l acc rest e, is_nl e = true ->
  (forall c, In c l -> is_nl c = false) -> (length acc + length l < 165)%nat ->
  reader path sound s acc (l ++ e :: rest) =
  match exec path sound s (acc ++ l) with
  | None => None
  | Some (s, calls, true) =>
    match reader path sound s [] rest with Some (s, more) => Some (s, calls ++ more) | None => None end
  | Some (s, calls, false) => Some (s, calls)
  end.
Proof.
  intros path sound s l. induction l as [|c l IH]; intros acc rest e HE HL HN; cbn [app reader].
  - rewrite HE, app_nil_r. reflexivity.
  - rewrite (HL c) by (left; reflexivity). cbn [length] in HN.
    replace (length (acc ++ [c]) =? 165)%nat with false
      by (symmetry; apply Nat.eqb_neq; rewrite app_length; cbn [length]; lia).
    rewrite IH; auto.
    + rewrite <- app_assoc. reflexivity.
    + intros x I. apply HL. right. exact I.
    + rewrite app_length. cbn [length]. lia.
Qed.

Lemma set_name_length : forall i p l, (i < length l)%nat -> length (set_name i p l) = length l.
Proof.
  intros i p l H. unfold set_name. rewrite !app_length, firstn_length, skipn_length. cbn [length]. lia.
Qed.
Lemma set_name_nth : forall i p l j, (i < length l)%nat ->
  nth_name (set_name i p l) j = if (j =? i)%nat then p else nth_name l j.
Proof.
  intros i p l j H. unfold nth_name, set_name. destruct (j =? i)%nat eqn:E.
  - apply Nat.eqb_eq in E. subst j. rewrite app_nth2; rewrite firstn_length; [|lia].
    replace (i - Nat.min i (length l))%nat with 0%nat by lia. reflexivity.
  - apply Nat.eqb_neq in E. destruct (lt_dec j i).
    + rewrite app_nth1 by (rewrite firstn_length; lia).
      rewrite <- (firstn_skipn i l) at 2. rewrite app_nth1 by (rewrite firstn_length; lia). reflexivity.
    + rewrite app_nth2; rewrite firstn_length; [|lia]. replace (Nat.min i (length l)) with i by lia.
      destruct (j - i)%nat as [|k] eqn:K; [lia|]. cbn [app nth].
      rewrite <- (firstn_skipn (S i) l) at 2. rewrite app_nth2; rewrite firstn_length; [|lia].
      f_equal. lia.
Qed.

Lemma play_ext : forall n path sound ds cur same ahead f g, (forall i, f i = g i) ->
  play n path sound cur same ahead f ds = play n path sound cur same ahead g ds.
Proof.
  intros n path sound ds. induction ds as [|d ds IH]; intros cur same ahead f g H; auto.
  destruct d as [|v| |v|k v]; cbn [play].
  - destruct (S cur <? n)%nat; auto.
  - rewrite (H cur). destruct (list_eq_dec Z.eq_dec (g cur) (path v)).
    + destruct ahead; [f_equal|]; auto.
    + f_equal. apply IH. intros i. unfold show. destruct (i =? cur)%nat; auto.
  - destruct same; [f_equal|]; auto.
  - f_equal. auto.
  - f_equal. auto.
Qed.

Lemma written_fits : forall d, writable d -> (length (written d) < 165)%nat /\ forall c, In c (written d) -> is_nl c = false.
Proof.
  intros d H. destruct d as [|v| |v|k v]; cbn [writable written] in *.
  - split; [cbn; lia|]. intros c I. cbn [In] in I. unfold is_nl. repeat destruct I as [I|I]; lia.
  - destruct (clean_no v H) as (_ & _ & N). destruct H as [L _]. split; [rewrite app_length; cbn [length]; lia|].
    intros c I. rewrite in_app_iff in I. destruct I as [I|I]; auto. cbn [In] in I. unfold is_nl. repeat destruct I as [I|I]; lia.
  - split; [cbn; lia|]. intros c I. cbn [In] in I. unfold is_nl. repeat destruct I as [I|I]; lia.
  - destruct (clean_no v H) as (_ & _ & N). destruct H as [L _]. split; [rewrite app_length; cbn [length]; lia|].
    intros c I. rewrite in_app_iff in I. destruct I as [I|I]; auto. cbn [In] in I. unfold is_nl. repeat destruct I as [I|I]; lia.
  - destruct H as [K H]. destruct (clean_no v H) as (_ & _ & N). destruct H as [L _]. split; [rewrite app_length; cbn [length]; lia|].
    intros c I. rewrite in_app_iff in I. destruct I as [I|I]; auto. cbn [In] in I. unfold is_nl. repeat destruct I as [I|I]; lia.
Qed.

Lemma text_play : forall path sound ds s, ok s -> Forall (fun d => writable (fst d)) ds ->
  exists s', reader path sound s [] (text_of ds) = Some (s', play (length (names s)) path sound (layer s)
     (may_need_restart s) (do_restart s) (nth_name (names s)) (map fst ds)).
Proof.
  intros path sound ds. induction ds as [|[d e] ds IH]; intros s K W.
  - exists s. reflexivity.
  - inversion W as [|? ? W1 W2]; subst. cbn [fst] in W1. unfold text_of. cbn [map concat fst snd].
    fold (text_of ds). rewrite <- app_assoc. cbn [app].
    destruct (written_fits d W1) as [F N].
    rewrite read_line by (auto; destruct e; reflexivity). cbn [app].
    unfold exec. rewrite (split_written d W1). unfold ok in K.
    destruct (nth_error (names s) (layer s)) as [name|] eqn:E.
    2:{ apply nth_error_None in E. lia. }
    assert (EN : nth_name (names s) (layer s) = name) by (apply nth_error_nth; exact E).
    destruct d as [|v| |v|k v]; cbn [play].
    + change (str_eqb k_layer k_layer) with true. cbn iota. cbn [names].
      destruct (S (layer s) <? length (names s))%nat eqn:L.
      * destruct (IH (St (S (layer s)) false (do_restart s) (names s))) as [s' R]; auto.
        { unfold ok. cbn [layer names]. lia. }
        rewrite R. exists s'. reflexivity.
      * eexists. reflexivity.
    + change (str_eqb k_file k_layer) with false. change (str_eqb k_file k_file) with true. cbn iota.
      rewrite EN, str_eqb_dec. destruct (list_eq_dec Z.eq_dec name (path v)) as [D|D].
      * destruct (do_restart s) eqn:DR.
        { destruct (IH s K W2) as [s' R]. rewrite R, DR. exists s'. reflexivity. }
        { destruct (IH (St (layer s) true false (names s))) as [s' R]; auto. rewrite R. exists s'. reflexivity. }
      * destruct (IH (St (layer s) (may_need_restart s) (do_restart s) (set_name (layer s) (path v) (names s)))) as [s' R]; auto.
        { unfold ok. cbn [layer names]. rewrite set_name_length; auto. }
        rewrite R. exists s'. cbn [layer names may_need_restart do_restart app].
        rewrite set_name_length by auto. do 3 f_equal. apply play_ext. intros i.
        rewrite set_name_nth by auto. reflexivity.
    + change (str_eqb k_restart k_layer) with false. change (str_eqb k_restart k_file) with false.
      change (str_eqb k_restart k_restart) with true. cbn iota.
      destruct (may_need_restart s) eqn:MR.
      * replace (layer s <? length (names s))%nat with true by (symmetry; apply Nat.ltb_lt; exact K).
        destruct (IH (St (layer s) false (do_restart s) (names s))) as [s' R]; auto. rewrite R. exists s'. reflexivity.
      * destruct (IH (St (layer s) false true (names s))) as [s' R]; auto. rewrite R. exists s'. reflexivity.
    + change (str_eqb k_time k_layer) with false. change (str_eqb k_time k_file) with false.
      change (str_eqb k_time k_restart) with false. change (str_eqb k_time k_time) with true. cbn iota.
      destruct (IH s K W2) as [s' R]. rewrite R. exists s'. rewrite str_eqb_dec. reflexivity.
    + cbn [writable] in W1. destruct W1 as [W1 _].
      assert (NE : forall a b c k, str_eqb [65 + Z.of_nat k] (a :: b :: c) = false)
        by (intros; unfold str_eqb; destruct (list_eq_dec Z.eq_dec _ _); congruence).
      unfold k_layer, k_file, k_restart, k_time. rewrite !NE.
      replace ((65 <=? 65 + Z.of_nat k) && (65 + Z.of_nat k <=? 69)) with true by lia.
      destruct (IH s K W2) as [s' R]. rewrite R. exists s'.
      replace (Z.to_nat (65 + Z.of_nat k - 65)) with k by lia.
      unfold parse_source. rewrite !str_eqb_dec. reflexivity.
Qed.

Lemma play_inside : forall n path sound ds cur same ahead f, (cur < n)%nat ->
  Forall (fun c => (layer_of c < n)%nat) (play n path sound cur same ahead f ds).
Proof.
  intros n path sound ds. induction ds as [|d ds IH]; intros cur same ahead f H; [constructor|].
  destruct d as [|v| |v|k v]; cbn [play].
  - destruct (S cur <? n)%nat eqn:L; [apply IH; lia|constructor].
  - destruct (list_eq_dec Z.eq_dec (f cur) (path v)); [destruct ahead|]; try apply Forall_cons; cbn [layer_of]; auto.
  - destruct same; auto using Forall_cons.
  - constructor; auto.
  - constructor; auto.
Qed.

(** No line, whatever it is, tells a layer that is not there anything. *)
Lemma exec_inside : forall path sound s line s' calls b, exec path sound s line = Some (s', calls, b) ->
  length (names s') = length (names s) /\ Forall (fun c => (layer_of c < length (names s))%nat) calls.
Proof.
  intros path sound s line s' calls b. unfold exec. destruct (split_line line) as [key value].
  assert (L : forall x, nth_error (names s) (layer s) = Some x -> (layer s < length (names s))%nat)
    by (intros x X; apply nth_error_Some; congruence).
  destruct (str_eqb key k_layer). { intros X. injection X as <- <- <-. split; auto. }
  destruct (str_eqb key k_file).
  { destruct value as [v|]; [|discriminate]. destruct (nth_error (names s) (layer s)) as [x|] eqn:E; [|discriminate].
    specialize (L x eq_refl). destruct (str_eqb x (path v)); [destruct (do_restart s)|]; intros X; injection X as <- <- <-; split; auto.
    cbn [names]. rewrite set_name_length; auto. }
  destruct (str_eqb key k_restart).
  { destruct (may_need_restart s); [destruct (layer s <? length (names s))%nat eqn:E; [|discriminate]|];
      intros X; injection X as <- <- <-; split; auto. constructor; auto. cbn. lia. }
  destruct (str_eqb key k_time).
  { destruct value as [v|]; [|discriminate]. destruct (nth_error (names s) (layer s)) as [x|] eqn:E; [|discriminate].
    specialize (L x eq_refl). intros X; injection X as <- <- <-; split; auto. }
  destruct key as [|c [|c2 key]]; try (intros X; injection X as <- <- <-; split; auto; fail).
  destruct ((65 <=? c) && (c <=? 69)); [|intros X; injection X as <- <- <-; split; auto].
  destruct value as [v|]; [|discriminate]. destruct (nth_error (names s) (layer s)) as [x|] eqn:E; [|discriminate].
  specialize (L x eq_refl). intros X; injection X as <- <- <-; split; auto.
Qed.
Lemma reader_inside : forall path sound text s line s' calls, reader path sound s line text = Some (s', calls) ->
  length (names s') = length (names s) /\ Forall (fun c => (layer_of c < length (names s))%nat) calls.
Proof.
  intros path sound text. induction text as [|c text IH]; intros s line s' calls; cbn [reader].
  - intros X. injection X as <- <-. auto.
  - assert (G : forall l, match exec path sound s l with
       | None => None
       | Some (s, calls, true) =>
         match reader path sound s [] text with Some (s, more) => Some (s, calls ++ more) | None => None end
       | Some (s, calls, false) => Some (s, calls)
       end = Some (s', calls) ->
       length (names s') = length (names s) /\ Forall (fun c => (layer_of c < length (names s))%nat) calls).
    { intros l. destruct (exec path sound s l) as [[[s1 c1] b]|] eqn:E; [|discriminate].
      destruct (exec_inside _ _ _ _ _ _ _ E) as [L1 F1]. destruct b.
      - destruct (reader path sound s1 [] text) as [[s2 c2]|] eqn:R; [|discriminate].
        destruct (IH _ _ _ _ R) as [L2 F2]. intros X. injection X as <- <-. split; [congruence|].
        apply Forall_app. split; auto. rewrite <- L1. exact F2.
      - intros X. injection X as <- <-. auto. }
    destruct (is_nl c); [apply G|].
    destruct (length (line ++ [c]) =? 165)%nat; [|apply IH].
    destruct (existsb _ _); [apply G|discriminate].
Qed.

(** The tail after too many layers *)
Lemma over_tail : forall path sound ds s tail, ok s -> Forall (fun d => writable (fst d)) ds ->
  (length (names s) <= layer s + length (filter (fun d : directive * bool => match fst d with DLayer => true | _ => false end) ds))%nat ->
  reader path sound s [] (text_of ds ++ tail) = reader path sound s [] (text_of ds).
Proof.
  intros path sound ds. induction ds as [|[d e] ds IH]; intros s tail K W C.
  - cbn in C. unfold ok in K. lia.
  - inversion W as [|? ? W1 W2]; subst. cbn [fst] in W1. unfold text_of. cbn [map concat fst snd].
    fold (text_of ds). rewrite <- !app_assoc. cbn [app].
    destruct (written_fits d W1) as [F N].
    rewrite !read_line by (auto; destruct e; reflexivity). cbn [app].
    unfold exec. rewrite (split_written d W1). unfold ok in K. cbn [filter fst] in C.
    destruct (nth_error (names s) (layer s)) as [name|] eqn:E.
    2:{ apply nth_error_None in E. lia. }
    destruct d as [|v| |v|k v]; cbn [length] in C.
    + change (str_eqb k_layer k_layer) with true. cbn iota. cbn [names].
      destruct (S (layer s) <? length (names s))%nat eqn:L; [|reflexivity].
      rewrite IH; auto; unfold ok; cbn [layer names]; lia.
    + change (str_eqb k_file k_layer) with false. change (str_eqb k_file k_file) with true. cbn iota.
      destruct (str_eqb name (path v)).
      * destruct (do_restart s); rewrite IH; auto.
      * rewrite IH; auto; unfold ok; cbn [layer names]; rewrite set_name_length; auto.
    + change (str_eqb k_restart k_layer) with false. change (str_eqb k_restart k_file) with false.
      change (str_eqb k_restart k_restart) with true. cbn iota.
      destruct (may_need_restart s).
      * replace (layer s <? length (names s))%nat with true by (symmetry; apply Nat.ltb_lt; exact K). rewrite IH; auto.
      * rewrite IH; auto.
    + change (str_eqb k_time k_layer) with false. change (str_eqb k_time k_file) with false.
      change (str_eqb k_time k_restart) with false. change (str_eqb k_time k_time) with true. cbn iota.
      rewrite IH; auto.
    + cbn [writable] in W1. destruct W1 as [W1 _].
      assert (NE : forall a b c k, str_eqb [65 + Z.of_nat k] (a :: b :: c) = false)
        by (intros; unfold str_eqb; destruct (list_eq_dec Z.eq_dec _ _); congruence).
      unfold k_layer, k_file, k_restart, k_time. rewrite !NE.
      replace ((65 <=? 65 + Z.of_nat k) && (65 + Z.of_nat k <=? 69)) with true by lia.
      rewrite IH; auto.
Qed.

Lemma play_quiet : forall n path sound ds cur f, (forall d, In d ds -> d <> DRestart) ->
  forall same l, ~ In (Restarted l) (play n path sound cur same false f ds).
Proof.
  intros n path sound ds. induction ds as [|d ds IH]; intros cur f H same l; [intros []|].
  assert (H' : forall d, In d ds -> d <> DRestart) by (intros x I; apply H; right; exact I).
  destruct d as [|v| |v|k v]; cbn [play].
  - destruct (S cur <? n)%nat; [apply IH; auto|intros []].
  - destruct (list_eq_dec Z.eq_dec (f cur) (path v)); [apply IH; auto|]. intros [X|X]; [discriminate|revert X; apply IH; auto].
  - exfalso. apply (H DRestart); [left|]; reflexivity.
  - intros [X|X]; [discriminate|revert X; apply IH; auto].
  - intros [X|X]; [discriminate|revert X; apply IH; auto].
Qed.

Lemma comment_line : forall path sound s l x b r e rest, is_nl e = true ->
  (forall c, In c (l ++ [x]) -> c <> 0 /\ c <> 35 /\ is_nl c = false) -> is_space x = false ->
  (forall c, In c b -> c = 32 \/ c = 9) -> (forall c, In c r -> is_nl c = false) ->
  (length ((l ++ [x]) ++ b ++ 35%Z :: r) < 165)%nat ->
  reader path sound s [] (((l ++ [x]) ++ b ++ 35 :: r) ++ e :: rest) = reader path sound s [] ((l ++ [x]) ++ e :: rest).
Proof.
  intros path sound s l x b r e rest HE HL HX HB HR HN.
  rewrite !read_line; auto.
  - cbn [app]. rewrite (exec_same path sound s ((l ++ [x]) ++ b ++ 35 :: r) (l ++ [x])); auto.
    apply split_comment; auto.
    + intros I. destruct (HL 0 I). tauto.
    + intros I. destruct (HL 35 I). tauto.
    + apply Forall_forall. intros c I. destruct (HB c I); subst; reflexivity.
  - intros c I. apply HL. exact I.
  - cbn [length]. rewrite (app_length (l ++ [x])) in HN. lia.
  - intros c I. rewrite !in_app_iff in I. destruct I as [I|[I|[I|I]]].
    + apply HL. rewrite in_app_iff. exact I.
    + destruct (HB c I); subst; reflexivity.
    + subst. reflexivity.
    + auto.
Qed.
Lemma comment_only : forall path sound s b r e rest, is_nl e = true ->
  (forall c, In c b -> c = 32 \/ c = 9) -> (forall c, In c r -> is_nl c = false) ->
  (length (b ++ 35%Z :: r) < 165)%nat ->
  reader path sound s [] ((b ++ 35 :: r) ++ e :: rest) = reader path sound s [] rest.
Proof.
  intros path sound s b r e rest HE HB HR HN.
  rewrite read_line; auto.
  - cbn [app]. replace (exec path sound s (b ++ 35 :: r)) with (Some (s, @nil call, true)).
    + destruct (reader path sound s [] rest) as [[? ?]|]; reflexivity.
    + unfold exec. replace (split_line (b ++ 35 :: r)) with (@nil Z, @None str); [reflexivity|].
      unfold split_line.
      assert (E : exists r', fst (cut 0 (b ++ 35 :: r)) = b ++ 35 :: r').
      { exists (fst (cut 0 r)). clear - HB. induction b as [|y b IH]; cbn [app cut].
        - change (35 =? 0) with false. cbn iota. destruct (cut 0 r). reflexivity.
        - replace (y =? 0) with false by (symmetry; apply Z.eqb_neq; destruct (HB y (or_introl eq_refl)); lia).
          destruct (cut 0 (b ++ 35 :: r)) eqn:K. cbn [fst] in *. rewrite IH; auto. intros c I. apply HB. right. exact I. }
      destruct E as [r' ->]. rewrite cut_app.
      * rewrite trim_all; auto. apply Forall_forall. intros c I. destruct (HB c I); subst; reflexivity.
      * intros I. destruct (HB 35 I); lia.
  - intros c I. rewrite in_app_iff in I. destruct I as [I|[I|I]].
    + destruct (HB c I); subst; reflexivity.
    + subst. reflexivity.
    + auto.
Qed.
