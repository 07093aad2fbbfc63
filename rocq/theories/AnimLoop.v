(** Frame order: lemmas for looped animations and for files played once. *)
From Coq Require Import ZArith List Bool Lia ZifyBool ZifyNat.
From Verif Require Import Machine ArithModel FileModel FileSpec FileProofs AnimModel AnimSpec AnimProofs.
Import ListNotations.
Open Scope Z_scope.

Section Loop.
  Variables (W H B fe : Z) (file : list Z) (frames : list (list Z)) (i : info) (iv : bool).
  Let fb := W * H / 8.
  Let n := length frames.
  Hypothesis FB : 0 <= fb.
  Hypothesis N2 : (2 <= n)%nat.
  Hypothesis HD : header fb file 0 = Some i.
  Hypothesis FO : frames_of W H i = Some (Z.of_nat n).
  Hypothesis DP : data_pos i = off B fb iv n 0.
  Hypothesis IV : bottom_up i = iv.
  Hypothesis B0 : 0 <= B.
  Hypothesis BN : B + Z.of_nat n * fb <= len file.
  Hypothesis L : len file < 2147483648.
  Hypothesis SL : forall k, (k < n)%nat -> firstn (Z.to_nat fb) (from file (off B fb iv n k)) = nth k frames [].

  Definition next_pos (k : nat) : Z := if (k <? n)%nat then off B fb iv n k else len file.

  Lemma read_frame_loop k p y lp ly e fe' : (k < n)%nat -> p = off B fb iv n k -> y = Z.of_nat k ->
    read_frame fb file (Reader p y (Z.of_nat n) iv lp ly e) fe' = (Reader (next_pos (S k)) (Z.of_nat (S k)) (Z.of_nat n) iv lp ly e, Some (nth k frames [])).
  Proof.
    intros K -> ->. unfold read_frame. cbn [pos ypos looped inverted last_pos last_ypos eof]. fold (len file).
    assert (O1 : 0 <= off B fb iv n k /\ off B fb iv n k + fb <= len file) by (unfold off; destruct iv; nia).
    replace (len file - off B fb iv n k <? fb) with false by lia. rewrite (SL k K). f_equal. f_equal; [|lia].
    replace (1 <? Z.of_nat n) with true by lia. unfold next_pos. destruct (Nat.ltb_spec (S k) n).
    - replace (Z.of_nat n <=? Z.of_nat k + 1) with false by lia. destruct iv.
      + unfold u32. assert (off B fb true n k + fb - 2 * fb = off B fb true n (S k)) as -> by (unfold off; nia). apply Z.mod_small. unfold off in *. nia.
      + unfold off. nia.
    - replace (Z.of_nat n <=? Z.of_nat k + 1) with true by lia. reflexivity.
  Qed.

  Lemma read_image_first p y lo iv' lp ly e : lo <= y \/ y = 0 -> 1 < lo \/ p = 0 ->
    read_image W H file (Reader p y lo iv' lp ly e) = (Reader (next_pos 1) 1 (Z.of_nat n) iv lp ly e, Some (nth 0 frames [])).
  Proof.
    intros Y P. unfold read_image. cbn [pos ypos looped inverted last_pos last_ypos eof]. cbv zeta.
    replace ((lo <=? y) || (y =? 0)) with true by lia. assert ((if 1 <? lo then 0 else p) = 0) as -> by (destruct (Z.ltb_spec 1 lo); lia).
    fold fb. rewrite HD, FO. rewrite IV. rewrite (read_frame_loop 0); [reflexivity|lia|exact DP|reflexivity].
  Qed.
  Lemma read_image_next k p y iv' lp ly e : (0 < k < n)%nat -> p = off B fb iv n k -> y = Z.of_nat k -> iv' = iv ->
    read_image W H file (Reader p y (Z.of_nat n) iv' lp ly e) = (Reader (next_pos (S k)) (Z.of_nat (S k)) (Z.of_nat n) iv lp ly e, Some (nth k frames [])).
  Proof.
    intros K P Y ->. unfold read_image. cbn [pos ypos looped]. cbv zeta. replace ((Z.of_nat n <=? y) || (y =? 0)) with false by lia. fold fb. apply read_frame_loop; [lia|assumption|assumption].
  Qed.

  Definition ready (c : nat) (s : reader) : Prop :=
    (c < n)%nat /\ looped s = Z.of_nat n /\ ypos s = Z.of_nat (S c) /\ pos s = next_pos (S c) /\ inverted s = iv /\ eof s = false.
  Definition good (c : nat) (s : reader) : Prop :=
    (c = O /\ (Z.of_nat n <= last_ypos s \/ last_ypos s = 0)) \/ ((0 < c)%nat /\ last_ypos s = Z.of_nat c /\ last_pos s = off B fb iv n c).

  Lemma show_next c s : ready c s -> exists s', show W H file s true = (s', (Some (nth (Nat.modulo (S c) n) frames []), false)) /\
    ready (Nat.modulo (S c) n) s' /\ good (Nat.modulo (S c) n) s'.
  Proof.
    intros (C & LO & Y & P & I1 & E). unfold show. rewrite E. cbn [negb andb]. unfold fill. cbv iota zeta.
    destruct s as [p y lo iv' lp ly e]. cbn [pos ypos looped inverted last_pos last_ypos eof] in *. subst lo y p iv' e.
    destruct (Nat.eq_dec (S c) n) as [N|N].
    - rewrite N, Nat.mod_same by lia. rewrite read_image_first by lia. cbn [pos ypos looped inverted last_pos last_ypos eof].
      eexists. split; [reflexivity|]. split; [unfold ready; cbn; repeat split; try lia|]. left. cbn. lia.
    - rewrite Nat.mod_small by lia. rewrite (read_image_next (S c)); [|lia|unfold next_pos; replace (S c <? n)%nat with true by lia; reflexivity|reflexivity|reflexivity].
      cbn [pos ypos looped inverted last_pos last_ypos eof].
      eexists. split; [reflexivity|]. split; [unfold ready; cbn [pos ypos looped inverted last_pos last_ypos eof]; repeat split; lia|].
      right. cbn [last_ypos last_pos]. split; [lia|]. split; [lia|]. unfold next_pos. replace (S c <? n)%nat with true by lia. reflexivity.
  Qed.
  Lemma show_same c s : ready c s -> good c s -> exists s', show W H file s false = (s', (Some (nth c frames []), false)) /\ ready c s' /\ good c s'.
  Proof.
    intros (C & LO & Y & P & I1 & E) G. unfold show. rewrite E. cbn [negb andb]. unfold fill. cbv iota zeta.
    destruct s as [p y lo iv' lp ly e]. unfold good in G. cbn [pos ypos looped inverted last_pos last_ypos eof] in *. subst lo y p iv' e.
    destruct G as [[-> G]|(C0 & -> & ->)].
    - rewrite read_image_first by lia. cbn [pos ypos looped inverted last_pos last_ypos eof]. eexists. split; [reflexivity|]. split; [unfold ready; cbn; repeat split; lia|]. left. cbn. split; [reflexivity|exact G].
    - rewrite (read_image_next c); [|lia|reflexivity|reflexivity|reflexivity]. cbn [pos ypos looped inverted last_pos last_ypos eof].
      eexists. split; [reflexivity|]. split; [unfold ready; cbn [pos ypos looped inverted last_pos last_ypos eof]; repeat split; lia|]. right. cbn. repeat split; lia.
  Qed.

  Lemma run_loop history : forall c s, ready c s -> good c s \/ hd true history = true ->
    run_outs (show W H file) s history = map (fun k => (Some (nth k frames []), false)) (looping n c history).
  Proof.
    induction history as [|a history IH]; intros c s R G; [reflexivity|]. cbn [run_outs looping]. cbv zeta. destruct a.
    - destruct (show_next c s R) as (s' & E & R' & G'). rewrite E. cbn [map]. f_equal. apply IH; [exact R'|left; exact G'].
    - destruct G as [G|G]; [|discriminate]. destruct (show_same c s R G) as (s' & E & R' & G'). rewrite E. cbn [map]. f_equal. apply IH; [exact R'|left; exact G'].
  Qed.

  Lemma loop_shown s history : looped s = 0 \/ Z.of_nat n <= looped s \/ hd true history = true ->
    run_outs (show W H file) (open s) (true :: history) = map (fun k => (Some (nth k frames []), false)) (O :: looping n 0 history).
  Proof.
    intros LO. unfold open. cbn [run_outs]. unfold show at 1. cbn [eof negb andb]. unfold fill. cbn [pos ypos looped inverted last_pos last_ypos eof]. rewrite read_image_first by lia.
    cbn [pos ypos looped inverted last_pos last_ypos eof map]. f_equal. apply run_loop.
    - unfold ready. cbn. repeat split; lia.
    - unfold good. cbn. lia.
  Qed.

  (** Drawing the first frame again when the previous file had fewer frames. *)
  Lemma refill_garbage s : looped s <> 0 -> looped s < Z.of_nat n -> fb <= len file ->
    exists s2, show W H file (run_state (show W H file) (open s) [true]) false = (s2, (Some (firstn (Z.to_nat fb) file), false)).
  Proof.
    intros L0 LN FL. unfold open. cbn [run_state]. unfold show at 2. cbn [eof negb andb]. unfold fill. cbn [pos ypos looped inverted last_pos last_ypos eof]. rewrite read_image_first by lia.
    cbn [pos ypos looped inverted last_pos last_ypos eof fst]. unfold show, fill, read_image. cbn [pos ypos looped inverted last_pos last_ypos eof negb andb]. cbv zeta.
    replace ((Z.of_nat n <=? looped s) || (looped s =? 0)) with false by lia. fold fb. unfold read_frame. cbn [pos ypos looped inverted last_pos last_ypos eof]. fold (len file). replace (len file - 0 <? fb) with false by lia.
    cbn [pos ypos looped inverted last_pos last_ypos eof]. eexists. reflexivity.
  Qed.
End Loop.

Lemma loop_ok W H frames f s history : 0 < W -> 0 < H -> (W * H) mod 8 = 0 -> image_file W H frames f -> (2 <= length frames)%nat -> len f < 2147483648 ->
  looped s = 0 \/ Z.of_nat (length frames) <= looped s \/ hd true history = true ->
  run_outs (show W H f) (open s) (true :: history) = map (fun k => (Some (nth k frames []), false)) (O :: looping (length frames) 0 history).
Proof.
  intros W0 H0 M8 IF N2 L LO.
  destruct (image_header W H frames f [] [] W0 H0 M8 IF) as (w & h & iv & B & fe & HD & FO & B0 & BN & _ & SL).
  { intros ->. cbn in N2. lia. } { cbn [app]. rewrite app_nil_r. exact L. }
  cbn [app] in *. rewrite app_nil_r in *. change (len []) with 0 in *.
  assert (0 <= W * H / 8) by (apply Z.div_pos; nia).
  exact (loop_shown W H B f frames _ iv H1 N2 HD FO eq_refl eq_refl B0 ltac:(lia) L SL s history LO).
Qed.
Lemma refill_ok W H frames f s : 0 < W -> 0 < H -> (W * H) mod 8 = 0 -> image_file W H frames f -> (2 <= length frames)%nat -> len f < 2147483648 ->
  looped s <> 0 -> looped s < Z.of_nat (length frames) ->
  run_outs (show W H f) (open s) [true; false] = [(Some (nth 0 frames []), false); (Some (firstn (Z.to_nat (W * H / 8)) f), false)].
Proof.
  intros W0 H0 M8 IF N2 L L0 LN.
  destruct (image_header W H frames f [] [] W0 H0 M8 IF) as (w & h & iv & B & fe & HD & FO & B0 & BN & _ & SL).
  { intros ->. cbn in N2. lia. } { cbn [app]. rewrite app_nil_r. exact L. }
  cbn [app] in *. rewrite app_nil_r in *. change (len []) with 0 in *.
  assert (0 <= W * H / 8) by (apply Z.div_pos; nia).
  destruct (refill_garbage W H B f frames _ iv H1 N2 HD FO eq_refl eq_refl B0 ltac:(lia) L SL s L0 LN ltac:(nia)) as (s2 & E).
  cbn [run_state] in E. assert (F1 := loop_ok W H frames f s [] W0 H0 M8 IF N2 L ltac:(right; right; reflexivity)).
  cbn [run_outs map] in F1 |- *. destruct (show W H f (open s) true) as [s1 o1]. cbn [fst] in E. injection F1 as ->. rewrite E. reflexivity.
Qed.

Lemma Forall2_len {A B} (P : A -> B -> Prop) a b : Forall2 P a b -> length a = length b.
Proof. intros F. induction F; cbn; congruence. Qed.

Section Once.
  Variables (W H : Z) (frames fs : list (list Z)).
  Let fb := W * H / 8.
  Let file := concat fs.
  Let n := length frames.
  Hypothesis W0 : 0 < W.
  Hypothesis H0 : 0 < H.
  Hypothesis M8 : (W * H) mod 8 = 0.
  Hypothesis FF : Forall2 (fun b f => image_file W H [b] f) frames fs.
  Hypothesis L : len file < 2147483648.

  Definition upto (k : nat) : Z := len (concat (firstn k fs)).
  Lemma split_at k : (k < n)%nat -> exists f, file = concat (firstn k fs) ++ f ++ concat (skipn (S k) fs) /\ image_file W H [nth k frames []] f /\ upto (S k) = upto k + len f.
  Proof.
    unfold file, n, upto. clear L file n. revert k. induction FF as [|b f frames' fs' BF F IH]; intros k K; [cbn in K; lia|]. destruct k.
    - exists f. cbn. split; [reflexivity|]. split; [exact BF|]. rewrite app_nil_r. reflexivity.
    - cbn [length] in K. destruct (IH F k ltac:(lia)) as (g & E & I1 & U). exists g. cbn [firstn skipn concat nth]. rewrite E at 1. split; [rewrite <- app_assoc; reflexivity|]. split; [exact I1|].
      cbn [firstn concat] in U |- *. rewrite !len_app. destruct fs'; [cbn in *; lia|]. cbn [firstn concat] in *. lia.
  Qed.
  Lemma read_still k p y lo iv lp ly e : (k < n)%nat -> lo <= y \/ y = 0 -> p = upto k -> lo <= 1 \/ k = O ->
    exists iv', read_image W H file (Reader p y lo iv lp ly e) = (Reader (upto (S k)) 1 1 iv' lp ly e, Some (nth k frames [])).
  Proof.
    intros K Y P LK. destruct (split_at k K) as (f & E & IF & U).
    destruct (image_header W H [nth k frames []] f (concat (firstn k fs)) (concat (skipn (S k) fs)) W0 H0 M8 IF) as (w & h & iv' & B & fe & HD & FO & B0 & BN & FE & SL).
    { discriminate. } { rewrite <- E. exact L. }
    rewrite <- E in HD, SL. fold (upto k) in HD, B0, BN, FE. rewrite <- U in BN, FE. fold fb in HD, FO, BN, FE, SL. cbn [length] in HD, FO, BN, FE, SL.
    unfold read_image. cbn [pos ypos looped inverted last_pos last_ypos eof]. cbv zeta. replace ((lo <=? y) || (y =? 0)) with true by lia.
    assert ((if 1 <? lo then 0 else p) = upto k) as ->.
    { subst p. destruct (Z.ltb_spec 1 lo); [|reflexivity]. assert (k = O) as -> by lia. reflexivity. }
    fold fb. rewrite HD, FO. exists iv'. unfold read_frame. cbn [pos ypos looped inverted last_pos last_ypos eof data_pos bottom_up file_end].
    assert (LU : upto (S k) <= len file) by (rewrite E, !len_app, U; fold (upto k); pose proof (len_pos (concat (skipn (S k) fs))); lia).
    assert (OB : off B fb iv' 1 0 = B) by (unfold off; destruct iv'; cbn; lia). fold (len file). rewrite OB. replace (len file - B <? fb) with false by lia.
    specialize (SL O ltac:(lia)). rewrite OB in SL. rewrite SL. cbn [nth]. change (1 <? Z.of_nat 1) with false. cbv iota. f_equal. f_equal.
    destruct FE as [(-> & _ & FE)|(-> & FN)]; [change (0 =? 0) with true; cbv iota; lia|]. replace (upto (S k) =? 0) with false by lia. reflexivity.
  Qed.
  Lemma read_end y lo iv lp ly e : lo <= y \/ y = 0 -> lo <= 1 -> exists s', read_image W H file (Reader (upto n) y lo iv lp ly e) = (s', None) /\ looped s' = lo /\ last_pos s' = lp /\ last_ypos s' = ly.
  Proof.
    intros Y LO. unfold read_image. cbn [pos ypos looped inverted last_pos last_ypos eof]. cbv zeta. replace ((lo <=? y) || (y =? 0)) with true by lia. replace (1 <? lo) with false by lia.
    replace (header (W * H / 8) file (upto n)) with (@None info).
    2:{ unfold header, upto, n. rewrite (Forall2_len _ _ _ FF), firstn_all. fold file. unfold from, len. rewrite Nat2Z.id, skipn_all. reflexivity. }
    eexists. split; [reflexivity|]. repeat split.
  Qed.

  Definition still (c : nat) (e : bool) (s : reader) : Prop :=
    (c < n)%nat /\ looped s = 1 /\ eof s = e /\ (1 <= last_ypos s \/ last_ypos s = 0) /\ last_pos s = upto c /\ (e = false -> ypos s = 1 /\ pos s = upto (S c)).
  Lemma fill_same c e s : (c < n)%nat -> looped s = 1 -> eof s = e -> (1 <= last_ypos s \/ last_ypos s = 0) -> last_pos s = upto c ->
    exists s', fill W H file s false = (s', Some (nth c frames [])) /\ still c e s'.
  Proof.
    intros C LO E Y P. unfold fill. cbv zeta iota. destruct s as [p y lo iv lp ly e']. cbn [pos ypos looped inverted last_pos last_ypos eof] in *.
    destruct (read_still c lp ly lo iv lp ly e' C ltac:(lia) P ltac:(lia)) as (iv' & R). rewrite R. eexists. split; [reflexivity|]. unfold still. cbn. repeat split; auto; lia.
  Qed.
  Lemma run_once history : forall c e s, still c e s ->
    run_outs (show W H file) s history = map (fun p => (Some (nth (fst p) frames []), snd p)) (once n c e history).
  Proof.
    induction history as [|a history IH]; intros c e s ST; [reflexivity|]. cbn [run_outs once]. cbv zeta.
    pose proof ST as (C & LO & E & Y & P & Q). unfold show. rewrite E. destruct (a && negb e) eqn:AE.
    - assert (a = true /\ e = false) as [-> ->] by (destruct a, e; cbn in AE; auto; discriminate). cbn [negb andb orb] in *. destruct (Q eq_refl) as (Y1 & P1). unfold fill at 1. cbv zeta iota.
      destruct s as [p y lo iv lp ly e']. cbn [pos ypos looped inverted last_pos last_ypos eof] in *. subst lo y p e'. destruct (Nat.eqb_spec (S c) n) as [N|N].
      + rewrite N. destruct (read_end 1 1 iv lp ly false ltac:(lia) ltac:(lia)) as (s' & R & L1 & L2 & L3). rewrite R. 
        destruct (fill_same c true (Reader (pos s') (ypos s') (looped s') (inverted s') (last_pos s') (last_ypos s') true) C ltac:(cbn; lia) eq_refl ltac:(cbn; lia) ltac:(cbn; lia)) as (s2 & F & S2).
        rewrite F. cbn [negb map fst snd]. f_equal; [f_equal; apply S2|]. apply IH. exact S2.
      + destruct (read_still (S c) (upto (S c)) 1 1 iv lp ly false ltac:(lia) ltac:(lia) eq_refl ltac:(lia)) as (iv' & R). rewrite R. cbn [negb map fst snd pos ypos looped inverted last_pos last_ypos eof]. f_equal.
        apply IH. unfold still. cbn. repeat split; auto; lia.
    - destruct (fill_same c e s C LO E Y P) as (s' & F & S2). rewrite F.
      assert ((e || (a && (S c =? n)%nat)) = e) as -> by (destruct a, e; cbn in AE |- *; auto; discriminate). rewrite AE. cbn [map fst snd]. f_equal; [f_equal; apply S2|]. apply IH. exact S2.
  Qed.
  Lemma once_shown s history : (0 < n)%nat -> 0 <= looped s ->
    run_outs (show W H file) (open s) (true :: history) = map (fun p => (Some (nth (fst p) frames []), snd p)) ((O, false) :: once n 0 false history).
  Proof.
    intros N LO. unfold open. cbn [run_outs]. unfold show at 1. cbn [eof negb andb]. unfold fill. cbn [pos ypos looped inverted last_pos last_ypos eof].
    destruct (read_still 0 0 (looped s) (looped s) (inverted s) (last_pos s) (last_ypos s) false N ltac:(lia) eq_refl ltac:(lia)) as (iv' & R). rewrite R. cbn [pos ypos looped inverted last_pos last_ypos eof map fst snd]. f_equal.
    apply run_once. unfold still. cbn. repeat split; try lia.
  Qed.
End Once.
