(** Lemmas about reading frames. *)
From Coq Require Import ZArith List Bool Lia ZifyBool ZifyNat.
From Verif Require Import Machine ArithModel FileModel FileSpec FileProofs AnimModel AnimSpec.
Import ListNotations.
Open Scope Z_scope.

Lemma from_app a b : from (a ++ b) (len a) = b.
Proof. unfold from, len. rewrite Nat2Z.id, skipn_app, Nat.sub_diag, skipn_all. reflexivity. Qed.
Lemma len_app a b : len (a ++ b) = len a + len b.
Proof. unfold len. rewrite app_length. lia. Qed.
Lemma len_pos a : 0 <= len a.
Proof. unfold len. lia. Qed.

Lemma skipwhite_blanks b r : blanks b -> skipwhite (b ++ r) = skipwhite r.
Proof.
  intros B. induction B as [|c b C B IH]; [reflexivity|]. cbn [app skipwhite]. unfold SP, TAB, LF, CR.
  replace ((c =? 32) || (c =? 9) || (c =? 10) || (c =? 13)) with true by (cbn in C; lia). exact IH.
Qed.
Lemma skipwhite_digits ds r : digit_string ds -> skipwhite (ds ++ r) = ds ++ r.
Proof.
  intros [N D]. destruct D as [|c ds C D]; [congruence|]. cbn [app skipwhite]. unfold SP, TAB, LF, CR.
  replace ((c =? 32) || (c =? 9) || (c =? 10) || (c =? 13)) with false by lia. reflexivity.
Qed.
Lemma read_number ds v r : number ds v -> no_digit r -> readIntValue (ds ++ r) = (v, r).
Proof.
  intros [[N D] V] R. unfold readIntValue. destruct (peek (ds ++ r) =? 45) eqn:P.
  - destruct D as [|c ds C D]; [congruence|]. cbn in P. lia.
  - rewrite (read_digits_spec _ _ D R). fold (digits_value ds). rewrite V. f_equal. lia.
Qed.

Lemma header_pbm fb w h body f pre post : pbm_file w h body f ->
  header fb (pre ++ f ++ post) (len pre) = Some (Info w h false (len pre + len f - len body) 0).
Proof.
  intros (a & ds & b & es & c & -> & A & D & B & BN & E & C). unfold header. rewrite from_app.
  change (([80; 52] ++ a ++ ds ++ b ++ es ++ [c] ++ body) ++ post) with (80 :: 52 :: (a ++ ds ++ b ++ es ++ [c] ++ body) ++ post).
  cbv iota. change ((80 =? 80) && (52 =? 52)) with true. cbv iota zeta.
  rewrite <- !app_assoc. rewrite skipwhite_blanks by exact A. rewrite skipwhite_digits by apply D.
  rewrite (read_number _ _ _ D).
  2:{ destruct B as [|x b X B]; [congruence|]. cbn in X |- *. lia. }
  cbv iota. rewrite skipwhite_blanks by exact B. rewrite skipwhite_digits by apply E.
  rewrite (read_number _ _ _ E).
  2:{ cbn in C |- *. lia. }
  cbv iota. cbn [app tl]. f_equal. f_equal. fold (len (pre ++ 80 :: 52 :: a ++ ds ++ b ++ es ++ c :: body ++ post)). fold (len (body ++ post)).
  rewrite !len_app. change (80 :: 52 :: a ++ ds ++ b ++ es ++ c :: body ++ post) with ([80; 52] ++ a ++ ds ++ b ++ es ++ [c] ++ body ++ post).
  change (80 :: 52 :: a ++ ds ++ b ++ es ++ c :: body) with ([80; 52] ++ a ++ ds ++ b ++ es ++ [c] ++ body). rewrite !len_app. lia.
Qed.

Lemma byte_at_app a b i : 0 <= i -> byte_at (a ++ b) (len a + i) = byte_at b i.
Proof. intros I0. unfold byte_at, len. rewrite app_nth2 by lia. f_equal. lia. Qed.
Lemma le32_app a v l r : le4 v l -> le32_at (a ++ l ++ r) (len a) = v.
Proof.
  intros (x & y & z & t & -> & -> & _). unfold le32_at. replace (len a) with (len a + 0) by lia. rewrite <- !Z.add_assoc.
  rewrite !byte_at_app by lia. reflexivity.
Qed.

Lemma header_bmp fb w h body f pre post : bmp_file w h body f -> len (pre ++ f ++ post) < 2147483648 -> len body = w * h / 8 -> 0 <= fb <= len body ->
  exists B, header fb (pre ++ f ++ post) (len pre) = Some (Info w h true (B + len body - fb) (len pre + len f)) /\
    exists P Q, pre ++ f ++ post = P ++ body ++ Q /\ len P = B /\ len pre <= len P /\ len P + len body <= len pre + len f.
Proof.
  intros (t1 & t2 & size & r & offset & r' & wb & hb & more & trail & E & T & S1 & R & O & R' & WB & HB) L BL FB.
  assert (S4 : len size = 4) by (destruct S1 as (? & ? & ? & ? & -> & _); reflexivity).
  assert (O4 : len offset = 4) by (destruct O as (? & ? & ? & ? & -> & _); reflexivity).
  assert (W4 : len wb = 4) by (destruct WB as (? & ? & ? & ? & -> & _); reflexivity).
  assert (H4 : len hb = 4) by (destruct HB as (? & ? & ? & ? & -> & _); reflexivity).
  assert (R4 : len r = 4) by (unfold len; lia). assert (R4' : len r' = 4) by (unfold len; lia).
  pose (P := pre ++ [t1; t2] ++ size ++ r ++ offset ++ r' ++ wb ++ hb ++ more).
  assert (LP : len P = len pre + 26 + len more) by (unfold P; rewrite !len_app; change (len [t1; t2]) with 2; lia).
  assert (LF : len f = 26 + len more + len body + len trail) by (rewrite E, !len_app; change (len [t1; t2]) with 2; lia).
  rewrite !len_app in L. pose proof (len_pos pre). pose proof (len_pos f). pose proof (len_pos post). pose proof (len_pos more). pose proof (len_pos trail).
  exists (len P). split.
  2:{ exists P, (trail ++ post). split; [unfold P; rewrite E, <- !app_assoc; reflexivity|]. split; [reflexivity|]. split; lia. }
  unfold header. rewrite from_app. rewrite E at 1. rewrite <- app_assoc. cbn [app]. cbv iota.
  assert (T4 : (t1 =? 80) && (t2 =? 52) = false /\ bmp_tag t1 t2 = true).
  { cbn in T. repeat (destruct T as [T|T]; [injection T as <- <-; split; reflexivity|]). destruct T. }
  destruct T4 as [-> ->]. cbv iota zeta. unfold u32.
  replace (le32_at (pre ++ f ++ post) (len pre + 2)) with (len f).
  2:{ symmetry. rewrite E, <- !app_assoc. rewrite (app_assoc pre [t1; t2]). replace (len pre + 2) with (len (pre ++ [t1; t2])) by (rewrite len_app; reflexivity). rewrite (le32_app _ _ _ _ S1). rewrite E. reflexivity. }
  replace (le32_at (pre ++ f ++ post) (len pre + 10)) with (26 + len more).
  2:{ symmetry. rewrite E, <- !app_assoc. rewrite (app_assoc pre [t1; t2]), (app_assoc (pre ++ _) size), (app_assoc ((pre ++ _) ++ size) r).
      replace (len pre + 10) with (len (((pre ++ [t1; t2]) ++ size) ++ r)) by (rewrite !len_app; change (len [t1; t2]) with 2; lia). apply (le32_app _ _ _ _ O). }
  replace (le32_at (pre ++ f ++ post) (len pre + 18)) with w.
  2:{ symmetry. rewrite E, <- !app_assoc. rewrite (app_assoc pre [t1; t2]), (app_assoc (pre ++ _) size), (app_assoc ((pre ++ _) ++ size) r), (app_assoc (((pre ++ _) ++ size) ++ r) offset), (app_assoc ((((pre ++ _) ++ size) ++ r) ++ offset) r').
      replace (len pre + 18) with (len (((((pre ++ [t1; t2]) ++ size) ++ r) ++ offset) ++ r')) by (rewrite !len_app; change (len [t1; t2]) with 2; lia). apply (le32_app _ _ _ _ WB). }
  replace (le32_at (pre ++ f ++ post) (len pre + 22)) with h.
  2:{ symmetry. rewrite E, <- !app_assoc. rewrite (app_assoc pre [t1; t2]), (app_assoc (pre ++ _) size), (app_assoc ((pre ++ _) ++ size) r), (app_assoc (((pre ++ _) ++ size) ++ r) offset), (app_assoc ((((pre ++ _) ++ size) ++ r) ++ offset) r'), (app_assoc (((((pre ++ _) ++ size) ++ r) ++ offset) ++ r') wb).
      replace (len pre + 22) with (len ((((((pre ++ [t1; t2]) ++ size) ++ r) ++ offset) ++ r') ++ wb)) by (rewrite !len_app; change (len [t1; t2]) with 2; lia). apply (le32_app _ _ _ _ HB). }
  rewrite <- BL. rewrite (Z.mod_small (len pre + len f)) by lia. rewrite (Z.mod_small (len pre + (26 + len more) + len body - fb)) by lia. rewrite LP. f_equal. f_equal. lia.
Qed.

Lemma slice (fb : nat) fs : Forall (fun b : list Z => length b = fb) fs -> forall k Q, (k < length fs)%nat ->
  firstn fb (skipn (k * fb) (concat fs ++ Q)) = nth k fs [].
Proof.
  intros F. induction F as [|b fs B F IH]; intros k Q K; [cbn in K; lia|]. cbn [concat]. rewrite <- app_assoc. destruct k.
  - cbn [Nat.mul skipn nth]. rewrite firstn_app, <- B, Nat.sub_diag, firstn_all. cbn. apply app_nil_r.
  - cbn [Nat.mul nth]. rewrite skipn_app. replace (skipn (fb + k * fb) b) with (@nil Z) by (symmetry; apply skipn_all2; lia). rewrite B. replace (fb + k * fb - fb)%nat with (k * fb)%nat by lia. cbn [app]. apply IH. cbn in K. lia.
Qed.
Lemma concat_len fb fs : Forall (fun b => len b = fb) fs -> len (concat fs) = Z.of_nat (length fs) * fb.
Proof. intros F. induction F as [|b fs B F IH]; [reflexivity|]. cbn [concat]. rewrite len_app, IH, B. cbn [length]. lia. Qed.

(** Where frame [k] of an image is in the file. *)
Definition off (B fb : Z) (iv : bool) (n k : nat) : Z := B + Z.of_nat (if iv then n - 1 - k else k) * fb.

Lemma body_slice (P body Q : list Z) fb (fs : list (list Z)) (iv : bool) k : 0 <= fb -> Forall (fun b => len b = fb) fs -> body = concat (if iv then rev fs else fs) -> (k < length fs)%nat ->
  firstn (Z.to_nat fb) (from (P ++ body ++ Q) (off (len P) fb iv (length fs) k)) = nth k fs [].
Proof.
  intros FB F -> K. unfold off, from, len. set (j := if iv then (length fs - 1 - k)%nat else k). 
  replace (Z.to_nat (Z.of_nat (length P) + Z.of_nat j * fb)) with (length P + j * Z.to_nat fb)%nat by nia.
  rewrite skipn_app. replace (skipn (length P + j * Z.to_nat fb) P) with (@nil Z) by (symmetry; apply skipn_all2; lia).
  replace (length P + j * Z.to_nat fb - length P)%nat with (j * Z.to_nat fb)%nat by lia. cbn [app].
  assert (G : Forall (fun b : list Z => length b = Z.to_nat fb) fs) by (eapply Forall_impl; [|exact F]; intros b X; cbv beta in X; unfold len in X; lia).
  destruct iv; unfold j.
  - rewrite slice; [|apply Forall_rev; exact G|rewrite rev_length; lia]. rewrite rev_nth by lia. f_equal. lia.
  - apply slice; assumption.
Qed.

Lemma image_header W H frames f pre post : 0 < W -> 0 < H -> (W * H) mod 8 = 0 -> image_file W H frames f -> frames <> [] -> len (pre ++ f ++ post) < 2147483648 ->
  let fb := W * H / 8 in let file := pre ++ f ++ post in let n := length frames in
  exists w h iv B fe, header fb file (len pre) = Some (Info w h iv (off B fb iv n 0) fe) /\
    frames_of W H (Info w h iv (off B fb iv n 0) fe) = Some (Z.of_nat n) /\
    len pre <= B /\ B + Z.of_nat n * fb <= len pre + len f /\
    (fe = 0 /\ iv = false /\ B + Z.of_nat n * fb = len pre + len f \/ fe = len pre + len f /\ fe <> 0) /\
    forall k, (k < n)%nat -> firstn (Z.to_nat fb) (from file (off B fb iv n k)) = nth k frames [].
Proof.
  intros W0 H0 M8 (F & w & h & WH & G) NE L fb file n. fold fb in F.
  assert (N0 : (0 < n)%nat) by (unfold n; destruct frames; [congruence|cbn; lia]).
  assert (FBW : W * H = 8 * fb) by (unfold fb; pose proof (Z.div_mod (W * H) 8); lia).
  assert (FB0 : 0 <= fb) by lia.
  assert (WH8 : w * h / 8 = Z.of_nat n * fb).
  { fold n in WH. destruct WH as [[-> ->]|[-> ->]]; [replace (W * (Z.of_nat n * H)) with (Z.of_nat n * fb * 8) by lia|replace (H * (Z.of_nat n * W)) with (Z.of_nat n * fb * 8) by lia]; apply Z.div_mul; lia. }
  assert (FO : forall iv p fe, frames_of W H (Info w h iv p fe) = Some (Z.of_nat n)).
  { intros iv p fe. unfold frames_of. cbn [width height]. fold n in WH. destruct (Z.eqb_spec w W) as [EW|EW].
    - destruct (negb (w =? H)); cbn [negb andb]; f_equal; (destruct WH as [[_ ->]|[-> ->]]; [|rewrite EW]; apply Z.div_mul; lia).
    - destruct WH as [[? _]|[-> ->]]; [lia|]. rewrite Z.eqb_refl. cbn [negb andb]. f_equal. apply Z.div_mul. lia. }
  assert (CL : len (concat frames) = Z.of_nat n * fb) by (apply concat_len; exact F).
  assert (CR : len (concat (rev frames)) = Z.of_nat n * fb) by (unfold n; rewrite <- rev_length; apply concat_len, Forall_rev, F).
  destruct G as [G|G].
  - pose proof (header_pbm fb _ _ _ _ pre post G) as HD. pose proof G as (a & ds & b & es & c & E & _).
    pose (P := pre ++ [80; 52] ++ a ++ ds ++ b ++ es ++ [c]).
    assert (FE : file = P ++ concat frames ++ post) by (unfold file, P; rewrite E, <- !app_assoc; reflexivity).
    assert (LP : len P = len pre + len f - len (concat frames)) by (unfold P; rewrite E, !len_app; lia).
    exists w, h, false, (len P), 0. split; [unfold file; rewrite HD; f_equal; f_equal; unfold off; lia|]. split; [apply FO|].
    split; [unfold P; rewrite !len_app; pose proof (len_pos a); pose proof (len_pos ds); pose proof (len_pos b); pose proof (len_pos es); change (len [80;52]) with 2; change (len [c]) with 1; lia|].
    split; [lia|]. split; [left; repeat split; lia|]. intros k K. rewrite FE. apply (body_slice P (concat frames) post fb frames false k); auto.
  - destruct (header_bmp fb _ _ _ _ pre post G L) as (B & HD & P & Q & FE & LP & LPP & LB); [lia|nia|].
    exists w, h, true, B, (len pre + len f). split; [unfold file; rewrite HD; f_equal; f_equal; unfold off; rewrite CR; nia|]. split; [apply FO|].
    split; [lia|]. split; [lia|]. split; [right; split; [reflexivity|]|].
    { pose proof (len_pos pre). destruct G as (t1 & t2 & size & r & offset & r' & wb & hb & more & trail & E & _). rewrite E. rewrite len_app. change (len [t1; t2]) with 2. pose proof (len_pos (size ++ r ++ offset ++ r' ++ wb ++ hb ++ more ++ concat (rev frames) ++ trail)). lia. }
    intros k K. unfold file. rewrite FE. subst B. apply (body_slice P (concat (rev frames)) Q fb frames true k); auto.
Qed.
