(** Proofs about sub-blades. *)
From Coq Require Import ZArith List Bool PeanoNat Permutation Lia ZifyBool ZifyNat.
From Verif Require Import Machine ArithModel ColorModel ColorSpec SubModel SubSpec.
Import ListNotations.
Open Scope Z_scope.

(** ** Geometry *)
Lemma land1_odd n : (Z.land n 1 =? 1) = Z.odd n.
Proof.
  change 1 with (Z.ones 1) at 1. rewrite Z.land_ones by lia. change (2 ^ 1) with 2. rewrite Zmod_odd. destruct (Z.odd n); reflexivity.
Qed.
Lemma rows s c first last : 0 < s -> 0 <= c < s -> first <= last -> (last + 1 - first) mod s = 0 -> (Z.quot (last - first) s + 1) * s = last + 1 - first.
Proof.
  intros S C L M. rewrite Z.quot_div_nonneg by lia. apply Z.mod_divide in M as (m & M); [|lia].
  replace (last - first) with ((m - 1) * s + (s - 1)) by lia. rewrite Z.div_add_l by lia. rewrite Z.div_small by lia. lia.
Qed.
Lemma not_bar k : (match k with KBar _ => False | _ => True end) -> forall o, k <> KBar o.
Proof. destruct k; intros; congruence. Qed.

Lemma pixels_owned k first last n : sensible k first last n -> (forall o, k <> KBar o) -> forall p,
  owns k first last p <-> exists led, 0 <= led < nleds (setup k first last) /\ pixel (setup k first last) led = p.
Proof.
  intros (R & L & K) NB p. unfold owns, pixel, setup. destruct k as [| |s|s c|o]; cbn [sk offset nleds] in *.
  - split.
    + intros ((A & B) & _). exists (p - first). split; lia.
    + intros (led & A & B). lia.
  - split.
    + intros ((A & B) & _). exists (last - p). split; lia.
    + intros (led & A & B). lia.
  - rewrite Z.quot_div_nonneg by lia. split.
    + intros ((A & B) & C). exists ((p - first) / s). pose proof (Z.div_mod (p - first) s ltac:(lia)) as D. rewrite C in D.
      split; [|lia]. split; [apply Z.div_pos; lia|]. pose proof (Z.div_le_mono (p - first) (last - first) s ltac:(lia) ltac:(lia)). lia.
    + intros (led & A & B). pose proof (Z.mul_div_le (last - first) s ltac:(lia)) as D.
      assert (led * s <= s * ((last - first) / s)) by nia. split; [nia|]. replace (p - first) with (led * s) by lia. apply Z_mod_mult.
  - destruct K as (S & C & M). pose proof (rows s c first last S C ltac:(lia) M) as E. set (m := Z.quot (last - first) s + 1) in *. unfold zz_column. split.
    + intros ((A & B) & Q). exists ((p - first) / s). rewrite land1_odd. rewrite <- Z.negb_even.
      pose proof (Z.div_mod (p - first) s ltac:(lia)) as D. pose proof (Z.mod_pos_bound (p - first) s S) as MB.
      split.
      * split; [apply Z.div_pos; lia|]. apply Z.div_lt_upper_bound; lia.
      * destruct (Z.even ((p - first) / s)); cbn [negb]; lia.
    + intros (led & A & B). rewrite land1_odd in B. rewrite <- Z.negb_even in B.
      set (x := if negb (Z.even led) then c else s - 1 - c) in *. assert (X : 0 <= x < s) by (unfold x; destruct (negb (Z.even led)); lia).
      replace (p - first) with (led * s + x) by lia. rewrite Z.div_add_l by lia. rewrite (Z.div_small x) by lia.
      rewrite Z.add_comm with (n := led * s). rewrite Z.mod_add by lia. rewrite (Z.mod_small x) by lia. rewrite Z.add_0_r.
      split; [|unfold x; destruct (Z.even led); cbn [negb]; lia]. nia.
  - exfalso. apply (NB o). reflexivity.
Qed.

Definition reversed (k : kind) : bool := match k with KRev => true | _ => false end.
Lemma pixels_ordered k first last n : sensible k first last n -> (forall o, k <> KBar o) -> forall i j,
  0 <= i -> i < j -> j < nleds (setup k first last) ->
  if reversed k then pixel (setup k first last) j < pixel (setup k first last) i else pixel (setup k first last) i < pixel (setup k first last) j.
Proof.
  intros (R & L & K) NB i j I J N. unfold pixel, setup. destruct k as [| |s|s c|o]; cbn [sk offset nleds reversed] in *; try lia.
  - nia.
  - rewrite !land1_odd. assert (i * s + s <= j * s) by nia. destruct (Z.odd i) eqn:EI, (Z.odd j) eqn:EJ; destruct K as (S & C & M); lia.
  - exfalso. apply (NB o). reflexivity.
Qed.

(** ** BarBack *)
Definition straight : list Z := [BGR; GRB; RBG; RGB].
Lemma quot10 u k : 0 <= u -> 0 <= k < 10 -> Z.quot (10 * u + k) 10 = u /\ Z.rem (10 * u + k) 10 = k.
Proof.
  intros U K. rewrite Z.quot_div_nonneg, Z.rem_mod_nonneg by lia. replace (10 * u + k) with (u * 10 + k) by lia.
  rewrite Z.div_add_l by lia. rewrite Z.add_comm with (n := u * 10). rewrite Z.mod_add by lia. rewrite Z.div_small, Z.mod_small by lia. lia.
Qed.
(** The pixel and the three bytes sent. *)
Definition on_wire (o : Z) (w : Z * color) : Z * list Z := (fst w, sent (snd w) o).
Definition unit_wires (off u : Z) (w : list Z) : list (Z * list Z) :=
  [(off + 4 * u, [nth 0 w 0; nth 1 w 0; nth 2 w 0]);
   (off + 4 * u + 1, [nth 3 w 0; nth 4 w 0; nth 5 w 0]);
   (off + 4 * u + 2, [nth 6 w 0; nth 7 w 0; nth 8 w 0]);
   (off + 4 * u + 3, [nth 9 w 0; 65535; 65535])].
Lemma bar_unit o inv off t u cs rest : In o straight -> invert_byteorder o = Some inv -> 0 <= u -> length cs = 10%nat ->
  exists t', fst (bar_frame inv off (Bar t 0) (10 * u) (cs ++ rest)) = fst (bar_frame inv off (Bar t' 0) (10 * (u + 1)) rest) /\
  map (on_wire o) (snd (bar_frame inv off (Bar t 0) (10 * u) (cs ++ rest))) =
  unit_wires off u (map brightness cs) ++ map (on_wire o) (snd (bar_frame inv off (Bar t' 0) (10 * (u + 1)) rest)).
Proof.
  intros O IV U LN. exists (Color 65535 65535 65535).
  do 10 (destruct cs as [|? cs]; [discriminate|]). destruct cs; [|discriminate].
  assert (A : forall cc t c u0 k0 chip channel, 0 <= k0 < 10 -> u0 = 10 * u + k0 -> chip = Z.quot k0 3 -> channel = Z.rem k0 3 ->
     bar_set inv off (Bar t c) u0 cc =
     let t1 := put t (Z.land (Z.shiftr inv (8 - channel * 4)) 15) (brightness cc) in
     if u16 ((if c =? 0 then (if chip =? 3 then 1 else 3) else c) - 1) =? 0
     then (Bar (Color 65535 65535 65535) (u16 ((if c =? 0 then (if chip =? 3 then 1 else 3) else c) - 1)), Some (u * 4 + chip + off, t1))
     else (Bar t1 (u16 ((if c =? 0 then (if chip =? 3 then 1 else 3) else c) - 1)), None)).
  { intros cc t0 k u0 k0 chip channel K0 -> -> ->. unfold bar_set. destruct (quot10 u k0 U K0) as (-> & ->). reflexivity. }
  pose (sh := fun channel => Z.land (Z.shiftr inv (8 - channel * 4)) 15).
  assert (A0 : forall cc t u0 k0 chip, 0 <= k0 < 10 -> u0 = 10 * u + k0 -> chip = Z.quot k0 3 -> 0 = Z.rem k0 3 -> chip <> 3 -> bar_set inv off (Bar t 0) u0 cc = (Bar (put t (sh 0) (brightness cc)) 2, None)).
  { intros cc t0 u0 k0 chip P1 P2 P3 P4 P5. rewrite (A cc t0 0 u0 k0 chip 0 P1 P2 P3 P4). replace (chip =? 3) with false by lia. reflexivity. }
  assert (A1 : forall cc t u0 k0 chip, 0 <= k0 < 10 -> u0 = 10 * u + k0 -> chip = Z.quot k0 3 -> 1 = Z.rem k0 3 -> bar_set inv off (Bar t 2) u0 cc = (Bar (put t (sh 1) (brightness cc)) 1, None)).
  { intros cc t0 u0 k0 chip P1 P2 P3 P4. rewrite (A cc t0 2 u0 k0 chip 1 P1 P2 P3 P4). reflexivity. }
  assert (A2 : forall cc t u0 k0 chip, 0 <= k0 < 10 -> u0 = 10 * u + k0 -> chip = Z.quot k0 3 -> 2 = Z.rem k0 3 -> bar_set inv off (Bar t 1) u0 cc = (Bar (Color 65535 65535 65535) 0, Some (u * 4 + chip + off, put t (sh 2) (brightness cc)))).
  { intros cc t0 u0 k0 chip P1 P2 P3 P4. rewrite (A cc t0 1 u0 k0 chip 2 P1 P2 P3 P4). reflexivity. }
  assert (A3 : forall cc t u0, u0 = 10 * u + 9 -> bar_set inv off (Bar t 0) u0 cc = (Bar (Color 65535 65535 65535) 0, Some (u * 4 + 3 + off, put t (sh 0) (brightness cc)))).
  { intros cc t0 u0 P2. rewrite (A cc t0 0 u0 9 3 0) by (try lia; reflexivity). reflexivity. }
  cbn [app bar_frame].
  rewrite (A0 c _ _ 0 0) by (try lia; reflexivity). cbv beta iota zeta.
  rewrite (A1 c0 _ _ 1 0) by (try lia; reflexivity). cbv beta iota zeta.
  rewrite (A2 c1 _ _ 2 0) by (try lia; reflexivity). cbv beta iota zeta.
  rewrite (A0 c2 _ _ 3 1) by (try lia; reflexivity). cbv beta iota zeta.
  rewrite (A1 c3 _ _ 4 1) by (try lia; reflexivity). cbv beta iota zeta.
  rewrite (A2 c4 _ _ 5 1) by (try lia; reflexivity). cbv beta iota zeta.
  rewrite (A0 c5 _ _ 6 2) by (try lia; reflexivity). cbv beta iota zeta.
  rewrite (A1 c6 _ _ 7 2) by (try lia; reflexivity). cbv beta iota zeta.
  rewrite (A2 c7 _ _ 8 2) by (try lia; reflexivity). cbv beta iota zeta.
  rewrite (A3 c8) by lia. cbv beta iota zeta.
  replace (10 * u + 1 + 1 + 1 + 1 + 1 + 1 + 1 + 1 + 1 + 1) with (10 * (u + 1)) by lia.
  destruct (bar_frame inv off (Bar (Color 65535 65535 65535) 0) (10 * (u + 1)) rest) as (sf, ws).
  cbn [fst snd map]. split; [reflexivity|].
  cbn [unit_wires map nth app]. unfold on_wire. cbn [fst snd].
  unfold straight in O. cbn [In] in O.
  repeat (destruct O as [<- | O]; [vm_compute in IV; injection IV as <-; repeat (apply f_equal2; [apply f_equal2; [lia|reflexivity]|]); reflexivity|]).
  contradiction.
Qed.
Fixpoint wires (off u : Z) (n : nat) (w : list Z) : list (Z * list Z) :=
  match n with O => [] | S n => unit_wires off u (firstn 10 w) ++ wires off (u + 1) n (skipn 10 w) end.
Lemma bar_all o inv off : In o straight -> invert_byteorder o = Some inv -> forall n cs t u, 0 <= u -> length cs = (10 * n)%nat ->
  map (on_wire o) (snd (bar_frame inv off (Bar t 0) (10 * u) cs)) = wires off u n (map brightness cs) /\
  cnt (fst (bar_frame inv off (Bar t 0) (10 * u) cs)) = 0.
Proof.
  intros O IV. induction n as [|n IH]; intros cs t u U L.
  - destruct cs; [split; reflexivity|cbn in L; lia].
  - rewrite <- (firstn_skipn 10 cs). assert (L1 : length (firstn 10 cs) = 10%nat) by (rewrite firstn_length; lia).
    assert (L2 : length (skipn 10 cs) = (10 * n)%nat) by (rewrite skipn_length; lia).
    destruct (bar_unit o inv off t u (firstn 10 cs) (skipn 10 cs) O IV U L1) as (t' & A & B). rewrite A, B.
    destruct (IH (skipn 10 cs) t' (u + 1) ltac:(lia) L2) as (C & D). rewrite C, D. split; [|reflexivity].
    cbn [wires]. rewrite map_app. set (x := map brightness (firstn 10 cs)). set (y := map brightness (skipn 10 cs)).
    assert (LX : length x = 10%nat) by (unfold x; rewrite map_length; exact L1).
    rewrite firstn_app, skipn_app, LX, Nat.sub_diag, firstn_O, skipn_O, app_nil_r. rewrite firstn_all2, skipn_all2 by lia. reflexivity.
Qed.
Lemma nth_firstn {A} (l : list A) n i d : (i < n)%nat -> nth i (firstn n l) d = nth i l d.
Proof.
  revert l i. induction n as [|n IH]; intros l i H; [lia|]. destruct l as [|x l]; [destruct i; reflexivity|]. destruct i; [reflexivity|]. cbn. apply IH. lia.
Qed.
Lemma nth_skipn {A} (l : list A) n i d : nth i (skipn n l) d = nth (n + i) l d.
Proof. revert l. induction n as [|n IH]; intros l; [reflexivity|]. destruct l; [destruct i; reflexivity|]. cbn. apply IH. Qed.
Lemma wires_length off n : forall u w, length (wires off u n w) = (4 * n)%nat.
Proof. induction n as [|n IH]; intros u w; [reflexivity|]. cbn [wires]. rewrite app_length, IH. cbn. lia. Qed.
Lemma wires_nth off n : forall u w v d, (v < n)%nat ->
  (forall c, (c < 3)%nat -> nth (4 * v + c) (wires off u n w) d =
    (off + 4 * (u + Z.of_nat v) + Z.of_nat c, [nth (10 * v + 3 * c) w 0; nth (10 * v + 3 * c + 1) w 0; nth (10 * v + 3 * c + 2) w 0])) /\
  nth (4 * v + 3) (wires off u n w) d = (off + 4 * (u + Z.of_nat v) + 3, [nth (10 * v + 9) w 0; 65535; 65535]).
Proof.
  induction n as [|n IH]; intros u w v d V; [lia|]. cbn [wires]. destruct v as [|v].
  - split; [intros c C|]; rewrite app_nth1 by (cbn; lia).
    + destruct c as [|[|[|c]]]; [| | |lia]; cbn [Nat.mul Nat.add unit_wires nth]; rewrite !nth_firstn by lia; apply f_equal2; try reflexivity; lia.
    + cbn [Nat.mul Nat.add unit_wires nth]. rewrite !nth_firstn by lia. apply f_equal2; [lia|reflexivity].
  - destruct (IH (u + 1) (skipn 10 w) v d ltac:(lia)) as (A & B).
    split; [intros c C|]; rewrite app_nth2 by (cbn [unit_wires length]; lia); cbn [unit_wires length].
    + replace (4 * S v + c - 4)%nat with (4 * v + c)%nat by lia. rewrite A by assumption. rewrite !nth_skipn.
      apply f_equal2; [lia|]. replace (10 + (10 * v + 3 * c))%nat with (10 * S v + 3 * c)%nat by lia.
      replace (10 + (10 * v + 3 * c + 1))%nat with (10 * S v + 3 * c + 1)%nat by lia. replace (10 + (10 * v + 3 * c + 2))%nat with (10 * S v + 3 * c + 2)%nat by lia. reflexivity.
    + replace (4 * S v + 3 - 4)%nat with (4 * v + 3)%nat by lia. rewrite B. rewrite !nth_skipn. apply f_equal2; [lia|].
      replace (10 + (10 * v + 9))%nat with (10 * S v + 9)%nat by lia. reflexivity.
Qed.

(** ** The ring *)
Lemma update_length {A} (l : list A) n f : length (update l n f) = length l.
Proof. revert n. induction l; intros [|n]; cbn; auto. Qed.
Lemma nth_update {A} (l : list A) n f m : nth_error (update l n f) m = if Nat.eqb m n then option_map f (nth_error l m) else nth_error l m.
Proof.
  revert n m. induction l as [|x l IH]; intros [|n] [|m]; cbn; try reflexivity.
  - destruct (Nat.eqb m n); reflexivity.
  - apply IH.
Qed.
(** The objects a, a+1, ..., a+k are one ring under blade b. *)
Definition linked (os : list wrapper) (b a k : nat) : Prop :=
  (a + k < length os)%nat /\
  (forall i, (i <= k)%nat -> exists g, nth_error os (a + i) = Some (Wrapper g b (match i with O => a + k | S j => a + j end))).
Lemma walk_down os b a k j : linked os b a k -> forall i fuel, (j < i)%nat -> (i <= k)%nat -> (i - j <= fuel)%nat ->
  walk os fuel (a + j) (a + i) = Some (rev (seq (a + S j) (i - j))).
Proof.
  intros (B & N). induction i as [|i IH]; intros fuel J K F; [lia|].
  destruct fuel as [|fuel]; [lia|]. cbn [walk]. destruct (N (S i) K) as (g & ->). cbn [next].
  destruct (Nat.eqb_spec (a + i) (a + j)) as [E|E].
  - replace (S i - j)%nat with 1%nat by lia. cbn. repeat f_equal. lia.
  - rewrite IH by lia. cbn [option_map]. replace (S i - j)%nat with (S (i - j)) by lia. rewrite seq_S, rev_app_distr. cbn [rev app]. replace (a + S j + (i - j))%nat with (a + S i)%nat by lia. reflexivity.
Qed.
Lemma walk_from os b a k j : linked os b a k -> forall i fuel, (i <= j)%nat -> (j <= k)%nat -> (i + 1 + (k - j) <= fuel)%nat ->
  walk os fuel (a + j) (a + i) = Some (rev (seq a (i + 1)) ++ rev (seq (a + S j) (k - j))).
Proof.
  intros L. pose proof L as (B & N). induction i as [|i IH]; intros fuel J K F; (destruct fuel as [|fuel]; [lia|]); cbn [walk].
  - destruct (N 0%nat ltac:(lia)) as (g & ->). cbn [next]. destruct (Nat.eqb_spec (a + k) (a + j)) as [E|E].
    + replace (k - j)%nat with 0%nat by lia. cbn. repeat f_equal. lia.
    + rewrite (walk_down os b a k j L k) by lia. cbn [option_map]. cbn. repeat f_equal. lia.
  - destruct (N (S i) ltac:(lia)) as (g & ->). cbn [next]. destruct (Nat.eqb_spec (a + i) (a + j)) as [E|E]; [lia|].
    rewrite IH by lia. cbn [option_map]. replace (S i + 1)%nat with (S (i + 1)) by lia. rewrite (seq_S (i + 1)), rev_app_distr. cbn [rev app]. repeat f_equal. lia.
Qed.
Lemma ring_linked os b a k j : linked os b a k -> (j <= k)%nat -> exists l, ring os (a + j) = Some l /\ Permutation l (rev (seq a (S k))).
Proof.
  intros L J. unfold ring. rewrite (walk_from os b a k j L j) by (destruct L; lia). eexists. split; [reflexivity|].
  rewrite <- !Permutation_rev. replace (S k) with ((j + 1) + (k - j))%nat by lia. rewrite (seq_app (j + 1) (k - j)).
  replace (a + (j + 1))%nat with (a + S j)%nat by lia. reflexivity.
Qed.

Definition fam_ok (os : list wrapper) (bg : nat * list nat) : Prop :=
  match snd bg with
  | [] => True
  | _ :: ms => exists a, snd bg = rev (seq a (S (length ms))) /\ linked os (fst bg) a (length ms)
  end.
Definition world_ok (w : world) (f : families) : Prop :=
  made f = length (objs w) /\
  Forall (fam_ok (objs w)) (fams f) /\
  (forall x, (x < made f)%nat -> exists b g, In (b, g) (fams f) /\ In x g) /\
  match fams f with
  | (b, m :: ms) :: fs => exists a, first_w w = Some a /\ last_w w = Some m /\ m :: ms = rev (seq a (S (length ms))) /\ made f = (a + S (length ms))%nat /\
                          forall b g x, In (b, g) fs -> In x g -> (x < a)%nat
  | _ => first_w w = None /\ last_w w = None
  end.
Lemma linked_app os b a k x : linked os b a k -> linked (os ++ [x]) b a k.
Proof.
  intros (B & N). split; [rewrite app_length; lia|]. intros i I. destruct (N i I) as (g & E). exists g. rewrite nth_error_app1; [exact E|]. lia.
Qed.
Lemma fam_app os bg x : fam_ok os bg -> fam_ok (os ++ [x]) bg.
Proof. unfold fam_ok. destruct (snd bg); [auto|]. intros (a & E & L). exists a. split; [exact E|apply linked_app; exact L]. Qed.
Lemma linked_other os b a k n v : linked os b a k -> ~ In n (seq a (S k)) -> linked (set_next os n v) b a k.
Proof.
  intros (B & N) NI. split; [unfold set_next; rewrite update_length; exact B|]. intros i I. destruct (N i I) as (g & E). exists g. unfold set_next. rewrite nth_update.
  destruct (Nat.eqb_spec (a + i) n) as [<-|_]; [|exact E]. exfalso. apply NI. apply in_seq. lia.
Qed.
Lemma rev_seq_head a k m ms : m :: ms = rev (seq a (S k)) -> m = (a + k)%nat.
Proof. rewrite seq_S, rev_app_distr. cbn. intros H. injection H as -> _. reflexivity. Qed.
Lemma rev_seq_fn a a' k m ms : m :: ms = rev (seq a (S k)) -> m :: ms = rev (seq a' (S k)) -> a = a'.
Proof. intros A B. apply rev_seq_head in A, B. lia. Qed.
Lemma make_ok leds w f c : world_ok w f -> world_ok (fst (make leds w c)) (join leds f c).
Proof.
  intros (M & F & C & H). unfold make, join. destruct (cblade c) as [b|].
  - cbn [objs first_w last_w]. destruct (Z.leb_spec (leds b) (clast c)) as [E|E].
    + replace (clast c <? leds b) with false by lia. cbn [fst]. split; [exact M|]. cbn [made fams objs first_w last_w].
      split; [constructor; [exact Logic.I|exact F]|]. split.
      * intros x X. destruct (C x X) as (b' & g & A & B). exists b', g. split; [right; exact A|exact B].
      * split; reflexivity.
    + replace (clast c <? leds b) with true by lia. cbn [fst]. unfold world_ok. cbn [made fams objs first_w last_w]. split; [rewrite app_length; cbn; lia|].
      split; [constructor|].
      * cbn [fam_ok snd fst length]. exists (length (objs w)). rewrite M. split; [reflexivity|]. split; [rewrite app_length; cbn; lia|].
        intros i I. replace i with 0%nat by lia. rewrite Nat.add_0_r. rewrite nth_error_app2 by lia. rewrite Nat.sub_diag. cbn. eexists. repeat f_equal.
      * eapply Forall_impl; [|exact F]. intros bg. apply fam_app.
      * split.
        -- intros x X. destruct (Nat.eq_dec x (made f)) as [->|NE]; [exists b, [made f]; split; left; reflexivity|].
           destruct (C x ltac:(lia)) as (b' & g & A & B). exists b', g. split; [right; exact A|exact B].
        -- exists (made f). rewrite M. repeat split; [cbn; lia|]. intros b' g' x IN IA.
           rewrite Forall_forall in F. specialize (F _ IN). unfold fam_ok in F. cbn [snd fst] in F. destruct g' as [|m' ms']; [contradiction|].
           destruct F as (a' & E1 & (B1 & _)). rewrite E1 in IA. apply in_rev in IA. apply in_seq in IA. lia.
  - destruct (fams f) as [|(b, [|m ms]) fs] eqn:EF.
    + destruct H as (H1 & H2). rewrite H1. cbn [fst]. unfold world_ok. rewrite EF. auto 10.
    + destruct H as (H1 & H2). rewrite H1. cbn [fst]. unfold world_ok. rewrite EF. auto 10.
    + destruct H as (a & H1 & H2 & H3 & H4 & H5). rewrite H1. pose proof (Forall_inv F) as F0. unfold fam_ok in F0. cbn [snd fst] in F0. destruct F0 as (a' & E1 & L).
      assert (a' = a) by (apply (rev_seq_fn a' a (length ms) m ms); assumption). subst a'.
      destruct L as (LB & LN). destruct (LN 0%nat ltac:(lia)) as (g0 & E0). rewrite Nat.add_0_r in E0. rewrite E0. cbn [option_map parent].
      destruct (Z.leb_spec (leds b) (clast c)) as [E|E].
      * replace (clast c <? leds b) with false by lia. cbn [fst]. unfold world_ok. rewrite EF. split; [exact M|]. split; [exact F|]. split; [exact C|]. exists a. auto 10.
      * replace (clast c <? leds b) with true by lia. rewrite H2. cbn [fst]. unfold world_ok. cbn [made fams objs first_w last_w].
        pose proof (rev_seq_head _ _ _ _ H3) as HM. set (ob := Wrapper (setup (ck c) (cfirst c) (clast c)) b m).
        assert (NA : nth_error (objs w ++ [ob]) (length (objs w)) = Some ob) by (rewrite nth_error_app2 by lia; rewrite Nat.sub_diag; reflexivity).
        assert (RS : made f :: m :: ms = rev (seq a (S (S (length ms))))).
        { rewrite seq_S, rev_app_distr, <- H3. cbn [rev app]. f_equal. lia. }
        split; [unfold set_next; rewrite update_length, app_length; cbn; lia|]. split; [constructor|].
        -- unfold fam_ok. cbn [snd fst length]. exists a. split; [exact RS|]. split; [unfold set_next; rewrite update_length, app_length; cbn [length]; lia|].
           intros i I. unfold set_next. rewrite nth_update. destruct (Nat.eqb_spec (a + i) a) as [EA|NA2].
           ++ replace i with 0%nat by lia. rewrite Nat.add_0_r. rewrite nth_error_app1 by lia. rewrite E0. cbn [option_map geo parent]. exists g0. repeat f_equal. lia.
           ++ destruct (Nat.eq_dec i (S (length ms))) as [->|NI].
              ** replace (a + S (length ms))%nat with (length (objs w)) by lia. rewrite NA. unfold ob. eexists. repeat f_equal. exact HM.
              ** destruct (LN i ltac:(lia)) as (g1 & E2). rewrite nth_error_app1 by lia. rewrite E2. exists g1. destruct i; [lia|]. reflexivity.
        -- apply Forall_inv_tail in F. rewrite Forall_forall in *. intros (b', g') IN. specialize (F _ IN). unfold fam_ok in *. cbn [snd fst] in *. destruct g' as [|m' ms']; [exact Logic.I|].
           destruct F as (a' & E2 & L2). exists a'. split; [exact E2|]. apply linked_other; [apply linked_app; exact L2|].
           intros IS. apply (H5 b' (m' :: ms') a) in IN; [lia|]. rewrite E2. apply in_rev. rewrite rev_involutive. exact IS.
        -- split.
           ++ intros x X. destruct (Nat.eq_dec x (made f)) as [->|NE]; [exists b, (made f :: m :: ms); split; left; reflexivity|].
              destruct (C x ltac:(lia)) as (b' & g & [A|A] & B).
              ** injection A as <- <-. exists b, (made f :: m :: ms). split; [left; reflexivity|right; exact B].
              ** exists b', g. split; [right; exact A|exact B].
           ++ exists a. cbn [length]. split; [reflexivity|]. split; [rewrite M; reflexivity|]. split; [exact RS|]. split; [lia|exact H5].
Qed.
Lemma build_ok leds cs : world_ok (build leds cs) (all_families leds cs).
Proof.
  assert (G : forall cs w f, world_ok w f -> world_ok (fold_left (fun w c => fst (make leds w c)) cs w) (fold_left (join leds) cs f)).
  { clear cs. induction cs as [|c cs IH]; intros w f W; [exact W|]. cbn [fold_left]. apply IH. apply make_ok. exact W. }
  apply G. unfold world_ok. cbn. repeat split; auto. intros; lia.
Qed.
Lemma family_ring leds cs b g w : In (b, g) (fams (all_families leds cs)) -> In w g ->
  exists l, ring (objs (build leds cs)) w = Some l /\ Permutation l g.
Proof.
  intros IN IW. destruct (build_ok leds cs) as (M & F & _). rewrite Forall_forall in F. specialize (F _ IN). unfold fam_ok in F. cbn [snd fst] in F.
  destruct g as [|m ms]; [contradiction|]. destruct F as (a & E & L). rewrite E in IW. apply in_rev in IW. apply in_seq in IW.
  destruct (ring_linked _ _ _ _ (w - a) L ltac:(lia)) as (l & R & P). replace (a + (w - a))%nat with w in R by lia. exists l. split; [exact R|]. rewrite E. exact P.
Qed.
Lemma family_parent leds cs b g w : In (b, g) (fams (all_families leds cs)) -> In w g ->
  option_map parent (nth_error (objs (build leds cs)) w) = Some b.
Proof.
  intros IN IW. destruct (build_ok leds cs) as (M & F & _). rewrite Forall_forall in F. specialize (F _ IN). unfold fam_ok in F. cbn [snd fst] in F.
  destruct g as [|m ms]; [contradiction|]. destruct F as (a & E & (_ & L)). rewrite E in IW. apply in_rev in IW. apply in_seq in IW.
  destruct (L (w - a)%nat ltac:(lia)) as (g & N). replace (a + (w - a))%nat with w in N by lia. rewrite N. reflexivity.
Qed.

(** ** Activation *)
Lemma existsb_perm {A} (f : A -> bool) l l' : Permutation l l' -> existsb f l = existsb f l'.
Proof. induction 1; cbn; try congruence; destruct (f x), (f y); reflexivity. Qed.
Lemma forallb_perm {A} (f : A -> bool) l l' : Permutation l l' -> forallb f l = forallb f l'.
Proof. induction 1; cbn; try congruence; destruct (f x), (f y); reflexivity. Qed.
Lemma filter_perm {A} (f : A -> bool) l l' : Permutation l l' -> Permutation (filter f l) (filter f l').
Proof. induction 1; cbn; auto; [destruct (f x); auto|destruct (f x), (f y); auto; constructor|etransitivity; eauto]. Qed.
Lemma existsb_ext_in {A} (f f' : A -> bool) l : (forall x, In x l -> f x = f' x) -> existsb f l = existsb f' l.
Proof. induction l; intros H; [reflexivity|]. cbn. rewrite H by (left; reflexivity). rewrite IHl; [reflexivity|]. intros; apply H; right; assumption. Qed.
(** The calls that reach blade b. *)
Definition calls_to (b : nat) (outs : list (option (nat * bool))) : list bool :=
  flat_map (fun o => match o with Some (p, v) => if Nat.eqb p b then [v] else [] | None => [] end) outs.
Definition only_family (leds : nat -> Z) (cs : list call) (b : nat) (g : list nat) : Prop :=
  In (b, g) (fams (all_families leds cs)) /\ forall g', In (b, g') (fams (all_families leds cs)) -> g' <> [] -> g' = g.
Lemma set_active_same a w v : set_active a w v w = v.
Proof. unfold set_active. rewrite Nat.eqb_refl. reflexivity. Qed.
Lemma set_active_other a w v x : x <> w -> set_active a w v x = a x.
Proof. unfold set_active. destruct (Nat.eqb_spec x w); [contradiction|reflexivity]. Qed.
Lemma act_family leds cs b g active o : only_family leds cs b g ->
  let os := objs (build leds cs) in
  let r := act os active o in
  let v := existsb active g in let v' := existsb (fst r) g in
  calls_to b [snd r] = (if Bool.eqb v v' then [] else [v']).
Proof.
  intros (IN & U) os r v v'. unfold r in *. clear r.
  assert (OUT : forall w, ~ In w g -> forall (x : bool), (match option_map (fun o => (parent o, x)) (nth_error os w) with Some (p, _) => p <> b | None => True end)).
  { intros w NW x. destruct (nth_error os w) as [o'|] eqn:E; cbn [option_map]; [|exact Logic.I]. destruct (build_ok leds cs) as (M & _ & C & _).
    destruct (C w) as (b' & g' & A & B); [rewrite M; apply nth_error_Some; fold os; congruence|].
    pose proof (family_parent leds cs b' g' w A B) as P. fold os in P. rewrite E in P. cbn in P. injection P as ->.
    intros ->. assert (g' = g) by (apply U; [exact A|intros ->; contradiction]). subst. contradiction. }
  destruct o as [w|w]; cbn [act] in *; destruct (in_dec Nat.eq_dec w g) as [IW|NW].
  - destruct (active w) eqn:EA; [unfold v'; cbn [fst]; fold v; rewrite Bool.eqb_reflx; reflexivity|].
    assert (V' : v' = true) by (unfold v'; cbn [fst]; apply existsb_exists; exists w; split; [exact IW|apply set_active_same]).
    unfold some_active. destruct (family_ring leds cs b g w IN IW) as (l & R & P). fold os in R. rewrite R. rewrite (existsb_perm _ _ _ P). fold v. rewrite V'.
    pose proof (family_parent leds cs b g w IN IW) as FP. fold os in FP. destruct (nth_error os w) as [o'|]; [|discriminate]. cbn in FP. injection FP as FP.
    destruct v; cbn; [reflexivity|]. rewrite FP, Nat.eqb_refl. reflexivity.
  - destruct (active w) eqn:EA; [unfold v'; cbn [fst]; fold v; rewrite Bool.eqb_reflx; reflexivity|].
    assert (V' : v' = v) by (unfold v', v; cbn [fst]; apply existsb_ext_in; intros x X; apply set_active_other; intros ->; contradiction).
    rewrite V', Bool.eqb_reflx. cbn [snd]. destruct (some_active os active w); [reflexivity|]. specialize (OUT w NW true).
    destruct (option_map _ _) as [(p, q)|]; cbn; [|reflexivity]. destruct (Nat.eqb_spec p b); [contradiction|reflexivity].
  - destruct (active w) eqn:EA; [|unfold v'; cbn [fst]; fold v; rewrite Bool.eqb_reflx; reflexivity].
    assert (V : v = true) by (unfold v; apply existsb_exists; exists w; split; [exact IW|exact EA]).
    unfold some_active. destruct (family_ring leds cs b g w IN IW) as (l & R & P). fold os in R. rewrite R. rewrite (existsb_perm _ _ _ P).
    unfold v'. cbn [fst snd]. rewrite V.
    pose proof (family_parent leds cs b g w IN IW) as FP. fold os in FP. destruct (nth_error os w) as [o'|]; [|discriminate]. cbn in FP. injection FP as FP.
    destruct (existsb (set_active active w false) g); cbn; [reflexivity|]. rewrite FP, Nat.eqb_refl. reflexivity.
  - destruct (active w) eqn:EA; [|unfold v'; cbn [fst]; fold v; rewrite Bool.eqb_reflx; reflexivity].
    assert (V' : v' = v) by (unfold v', v; cbn [fst]; apply existsb_ext_in; intros x X; apply set_active_other; intros ->; contradiction).
    rewrite V', Bool.eqb_reflx. cbn [snd]. destruct (some_active os _ w); [reflexivity|]. specialize (OUT w NW false).
    destruct (option_map _ _) as [(p, q)|]; cbn; [|reflexivity]. destruct (Nat.eqb_spec p b); [contradiction|reflexivity].
Qed.
Lemma last_cons_default {A} (x d : A) l : List.last (x :: l) d = List.last l x.
Proof. revert x d. induction l as [|y l IH]; intros x d; [reflexivity|]. change (List.last (x :: y :: l) d) with (List.last (y :: l) d). rewrite !IH. reflexivity. Qed.
Lemma acts_family leds cs b g : only_family leds cs b g -> forall ops active,
  let os := objs (build leds cs) in
  alternates (negb (existsb active g)) (calls_to b (run_outs (act os) active ops)) /\
  List.last (calls_to b (run_outs (act os) active ops)) (existsb active g) = existsb (run_state (act os) active ops) g.
Proof.
  intros OF ops. induction ops as [|o ops IH]; intros active os; [split; [exact Logic.I|reflexivity]|]. cbn [run_outs run_state].
  pose proof (act_family leds cs b g active o OF) as S1. cbv zeta in S1. fold os in S1. destruct (act os active o) as (a', out). cbn [fst snd] in *.
  destruct (IH a') as (A & B). fold os in A, B.
  assert (E : forall l, calls_to b (out :: l) = calls_to b [out] ++ calls_to b l) by (intros l; unfold calls_to; cbn [flat_map]; rewrite app_nil_r; reflexivity).
  rewrite E, S1. destruct (existsb active g), (existsb a' g); cbn [Bool.eqb app negb alternates] in *; auto.
  - split; [auto|]. rewrite <- B. apply last_cons_default.
  - split; [auto|]. rewrite <- B. apply last_cons_default.
Qed.
Lemma active_spec os ops w : run_state (act os) (fun _ => false) ops w = is_active (rev ops) w.
Proof.
  assert (G : forall ops active, run_state (act os) active ops w = (fix f l := match l with [] => active w | Activate x :: l => if Nat.eqb x w then true else f l | Deactivate x :: l => if Nat.eqb x w then false else f l end) (rev ops)).
  { clear ops. intros ops. induction ops as [|o ops IH] using rev_ind; intros active; [reflexivity|]. rewrite rev_app_distr. cbn [rev app].
    assert (E : forall s l o, run_state (act os) s (l ++ [o]) = fst (act os (run_state (act os) s l) o)) by (intros s l; revert s; induction l; intros; cbn; auto).
    rewrite E. specialize (IH active). destruct o as [x|x]; cbn [act].
    - destruct (run_state (act os) active ops x) eqn:EX; cbn [fst]; (destruct (Nat.eqb_spec x w) as [->|N]; [|]).
      + exact EX.
      + exact IH.
      + apply set_active_same.
      + rewrite set_active_other by congruence. exact IH.
    - destruct (run_state (act os) active ops x) eqn:EX; cbn [fst]; (destruct (Nat.eqb_spec x w) as [->|N]; [|]).
      + apply set_active_same.
      + rewrite set_active_other by congruence. exact IH.
      + exact EX.
      + exact IH. }
  rewrite G. generalize (rev ops). intros l. induction l as [|[x|x] l IH]; cbn; [reflexivity| |]; rewrite IH; reflexivity.
Qed.

(** ** Dimming *)
Lemma dim1_ok f c : 0 <= f <= 16384 -> 0 <= c <= 65535 -> dim1 f c = c * f / 16384 /\ 0 <= dim1 f c <= c.
Proof.
  intros F C. unfold dim1. rewrite Z.shiftr_div_pow2 by lia. change (2 ^ 14) with 16384.
  assert (0 <= c * f / 16384) by (apply Z.div_pos; nia). assert (c * f / 16384 <= c) by (apply Z.div_le_upper_bound; nia).
  unfold clampi32. destruct (Z.ltb_spec (c * f / 16384) 0); [lia|]. destruct (Z.gtb_spec (c * f / 16384) 65535); lia.
Qed.
