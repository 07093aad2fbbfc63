From Coq Require Import List ZArith Bool QArith Qround Lia ZifyBool ZifyNat Lqa.
From Verif Require Import PovModel PovSpec.
Import ListNotations.
Local Open Scope Z_scope.

(** ** Lists *)

Lemma nth_skip : forall (l : list Z) n k, nth k (skipn n l) 0 = nth (n + k) l 0.
Proof.
  induction l; intros [|n] k; cbn; auto.
  - destruct k; reflexivity.
Qed.

Lemma list_ext : forall (a b : list Z), length a = length b ->
  (forall k, (k < length a)%nat -> nth k a 0 = nth k b 0) -> a = b.
Proof. intros a b L H. apply (nth_ext a b 0 0); auto. Qed.

Lemma firstn_S : forall (l : list Z) n, (n < length l)%nat ->
  firstn (S n) l = firstn n l ++ [nth n l 0].
Proof.
  induction l; intros [|n] H; cbn in *; try lia; auto.
  rewrite <- IHl by lia. reflexivity.
Qed.

Lemma nth_first : forall (l : list Z) n k, (k < n)%nat ->
  nth k (firstn n l) 0 = nth k l 0.
Proof.
  induction l; intros [|n] [|k] H; cbn; auto; try lia.
  apply IHl; lia.
Qed.

Lemma firstn_more : forall (l : list Z) a b,
  firstn (a + b) l = firstn a l ++ firstn b (skipn a l).
Proof.
  induction l; intros [|x] b; cbn; auto.
  - now rewrite firstn_nil.
  - now rewrite IHl.
Qed.

(** ** The decoder *)

Lemma back_spec : forall len d data before,
  (d <= length before)%nat -> (1 <= d)%nat ->
  firstn (length before) data = before ->
  (length before + len <= length data)%nat ->
  (forall j, (j < len)%nat ->
     nth (length before + j) data 0 = nth (length before + j - d) data 0) ->
  back len d before = Some (firstn (length before + len) data).
Proof.
  induction len; intros d data before D D1 F L E; cbn [back].
  - rewrite Nat.add_0_r, F. reflexivity.
  - destruct (Nat.leb_spec d (length before)); [|lia].
    assert (A : before ++ [nth (length before - d) before 0]
                = firstn (length before + 1) data).
    { rewrite Nat.add_1_r, firstn_S by lia. rewrite F. do 2 f_equal.
      pose proof (E 0%nat ltac:(lia)) as E0. rewrite !Nat.add_0_r in E0.
      rewrite E0. rewrite <- F at 2. rewrite nth_first by lia. reflexivity. }
    rewrite A.
    assert (LA : length (firstn (length before + 1) data) = (length before + 1)%nat)
      by (rewrite firstn_length; lia).
    rewrite (IHlen d data).
    + rewrite LA. do 2 f_equal. lia.
    + lia.
    + lia.
    + rewrite LA. reflexivity.
    + lia.
    + rewrite LA. intros j J. specialize (E (S j) ltac:(lia)).
      replace (length before + 1 + j)%nat with (length before + S j)%nat by lia.
      exact E.
Qed.

Lemma round_piece : forall p a b tail, piece_ok p -> adds a p b ->
  round (written p ++ tail) a = Some (tail, b).
Proof.
  intros [l|n v|d len] a b tail OK A; cbn in OK, A.
  - subst b. cbn [written app round].
    destruct (Z.eqb_spec (Z.of_nat (length l) - 1) 255); [lia|].
    destruct (Z.ltb_spec (Z.of_nat (length l) - 1) 128); [|lia].
    replace (Z.to_nat (Z.of_nat (length l) - 1) + 1)%nat with (length l) by lia.
    rewrite app_length.
    destruct (Nat.leb_spec (length l) (length l + length tail)); [|lia].
    rewrite skipn_app, skipn_all, Nat.sub_diag, firstn_app, firstn_all, Nat.sub_diag.
    cbn. now rewrite app_nil_r.
  - subst b. cbn [written app round].
    destruct (Z.eqb_spec (126 + Z.of_nat n) 255); [lia|].
    destruct (Z.ltb_spec (126 + Z.of_nat n) 128); [lia|].
    replace (Z.to_nat (126 + Z.of_nat n - 128 + 2)) with n by lia.
    reflexivity.
  - destruct OK as [[D1 D2] [L1 L2]]. destruct A as (D & L & F & E).
    cbn [written app round]. change (255 =? 255) with true. cbv iota.
    rewrite Nat2Z.id.
    replace (Z.to_nat (Z.of_nat d - 1) + 1)%nat with d by lia.
    rewrite (back_spec len d b a) by (auto; lia).
    rewrite <- L, firstn_all. reflexivity.
Qed.

Lemma adds_longer : forall a p b, piece_ok p -> adds a p b ->
  (length a < length b)%nat.
Proof.
  intros a [l|n v|d len] b OK A; cbn in OK, A.
  - subst. rewrite app_length. lia.
  - subst. rewrite app_length, repeat_length. lia.
  - lia.
Qed.

Lemma means_longer : forall a ps b, means a ps b -> (length a <= length b)%nat.
Proof.
  induction 1; auto.
  pose proof (adds_longer _ _ _ H H0). lia.
Qed.

Lemma written_long : forall p, (2 <= length (written p) \/ p = Bytes [])%nat.
Proof. intros [[|]| |]; cbn; auto; left; lia. Qed.

Lemma rounds_pieces : forall a ps b, means a ps b -> forall tail fuel,
  (length (flat_map written ps) <= fuel)%nat ->
  rounds fuel (length b) (flat_map written ps ++ tail) a = Some b.
Proof.
  induction 1 as [l | a p b ps c OK A M IH]; intros tail fuel F.
  - destruct fuel; cbn [rounds]; destruct (Nat.ltb_spec (length l) (length l));
      try lia; reflexivity.
  - pose proof (adds_longer _ _ _ OK A). pose proof (means_longer _ _ _ M).
    cbn [flat_map] in F |- *. rewrite app_length in F.
    destruct fuel as [|fuel].
    { destruct (written_long p) as [W | ->]; [lia | cbn in OK; lia]. }
    cbn [rounds]. destruct (Nat.ltb_spec (length a) (length c)); [|lia].
    rewrite <- app_assoc, (round_piece p a b) by auto.
    destruct (Nat.leb_spec (length b) (length c)); [|lia].
    apply IH. destruct (written_long p) as [W | ->]; [lia | cbn in OK; lia].
Qed.

Lemma decode_pieces : forall ps data tail, means [] ps data ->
  rle_decode (flat_map written ps ++ tail) (length data) = Some data.
Proof.
  intros ps data tail M. unfold rle_decode. apply rounds_pieces; auto.
  rewrite app_length. lia.
Qed.

(** *** More input than needed changes nothing *)

Lemma round_tail : forall input out rest out' tail,
  round input out = Some (rest, out') ->
  round (input ++ tail) out = Some (rest ++ tail, out').
Proof.
  intros [|b input] out rest out' tail H; [discriminate|].
  cbn [round app] in H |- *.
  destruct (b =? 255).
  - destruct input as [|x [|y input]]; try discriminate. cbn [app].
    destruct (back _ _ _); [|discriminate]. congruence.
  - destruct (b <? 128).
    + destruct (Nat.leb_spec (Z.to_nat b + 1) (length input)); [|discriminate].
      rewrite app_length.
      destruct (Nat.leb_spec (Z.to_nat b + 1) (length input + length tail)); [|lia].
      rewrite skipn_app, firstn_app.
      replace (Z.to_nat b + 1 - length input)%nat with 0%nat by lia.
      cbn [skipn firstn]. rewrite app_nil_r. congruence.
    + destruct input; [discriminate|]. cbn [app]. congruence.
Qed.

Lemma rounds_tail : forall fuel n input out x more' tail,
  rounds fuel n input out = Some x ->
  rounds (fuel + more') n (input ++ tail) out = Some x.
Proof.
  induction fuel; intros n input out x more' tail H; cbn [rounds Nat.add] in H |- *.
  - destruct (Nat.ltb_spec (length out) n); [discriminate|].
    destruct more'; cbn [rounds]; destruct (Nat.ltb_spec (length out) n); try lia; auto.
  - destruct (Nat.ltb (length out) n); auto.
    destruct (round input out) as [[i' o']|] eqn:R; [|discriminate].
    rewrite (round_tail _ _ _ _ tail R).
    destruct (Nat.leb (length o') n); [|discriminate]. auto.
Qed.

Lemma decode_tail : forall input n x tail,
  rle_decode input n = Some x -> rle_decode (input ++ tail) n = Some x.
Proof.
  intros input n x tail H. unfold rle_decode in *. rewrite app_length.
  now apply rounds_tail.
Qed.

(** ** The encoder *)

Lemma common_spec : forall limit a b,
  (common limit a b <= limit)%nat /\
  (common limit a b <= length a)%nat /\
  forall j, (j < common limit a b)%nat -> nth j a 0 = nth j b 0.
Proof.
  induction limit; intros a b; cbn [common].
  - repeat split; try lia.
  - destruct a as [|x a]; [repeat split; lia|].
    destruct b as [|y b]; [cbn; repeat split; lia|].
    destruct (Z.eqb_spec x y); [|cbn; repeat split; lia].
    destruct (IHlimit a b) as (A & B & C). cbn [length]. repeat split; try lia.
    intros [|j] J; cbn [nth]; auto. apply C. lia.
Qed.

Definition match_at (data : list Z) (i : nat) (best off : Z) : Prop :=
  (1 <= i)%nat /\ 0 <= off < 256 /\ off + 1 <= Z.of_nat i /\
  0 <= best <= 256 /\ Z.of_nat i + best <= Z.of_nat (length data) /\
  forall j, Z.of_nat j < best ->
    nth (i + j) data 0 = nth (i + j - (Z.to_nat off + 1)) data 0.

Lemma search_spec : forall ps p data i best off,
  (i <= length data)%nat -> (ps + p <= 256)%nat ->
  best = -1 \/ match_at data i best off ->
  let '(b, o) := search ps p data i best off in
  b = -1 \/ match_at data i b o.
Proof.
  induction ps; intros p data i best off I P H; cbn [search].
  - exact H.
  - destruct (Nat.ltb_spec i (p + 1)) as [Lt | Ge]; [exact H|].
    pose proof (common_spec 256 (skipn i data) (skipn (i - 1 - p) data)) as (A & B & C).
    set (l := common 256 (skipn i data) (skipn (i - 1 - p) data)) in *.
    clearbody l. rewrite skipn_length in B.
    destruct (best <? Z.of_nat l).
    + apply IHps; try lia. right. unfold match_at.
      repeat split; try lia.
      intros j J. specialize (C j ltac:(lia)). rewrite !nth_skip in C.
      replace (i + j - (Z.to_nat (Z.of_nat p) + 1))%nat with (i - 1 - p + j)%nat by lia.
      exact C.
    + apply IHps; try lia. exact H.
Qed.

Lemma more_spec : forall x l,
  (more x l <= length l)%nat /\
  (forall j, (j < more x l)%nat -> nth j l 0 = x) /\
  forall k, (k <= length l)%nat -> (forall j, (j < k)%nat -> nth j l 0 = x) ->
    (k <= more x l)%nat.
Proof.
  induction l as [|y l IH]; cbn [more length].
  - repeat split; intros; lia.
  - destruct IH as (A & B & C).
    destruct (Z.eqb_spec x y).
    + repeat split; try lia.
      * intros [|j] J; cbn [nth]; auto. apply B. lia.
      * intros [|k] K E; try lia. apply le_n_S. apply C; try lia.
        intros j J. apply (E (S j)). lia.
    + repeat split; try lia.
      intros [|k] K E; try lia. specialize (E 0%nat ltac:(lia)). cbn in E. congruence.
Qed.

Lemma run_spec : forall data i, (i < length data)%nat ->
  let l := run_length data i in
  1 <= l /\ Z.of_nat i + l <= Z.of_nat (length data) /\
  (forall j, Z.of_nat j < l -> nth (i + j) data 0 = nth i data 0) /\
  forall k, (i + k <= length data)%nat ->
    (forall j, (j < k)%nat -> nth (i + j) data 0 = nth i data 0) ->
    Z.of_nat k <= l.
Proof.
  intros data i I l. unfold l, run_length. clear l.
  pose proof (more_spec (nth i data 0) (skipn (i + 1) data)) as (A & B & C).
  rewrite skipn_length in A, C.
  set (m := more _ _) in *. clearbody m.
  repeat split; try lia.
  - intros [|j] J; [now rewrite Nat.add_0_r|].
    specialize (B j ltac:(lia)). rewrite nth_skip in B.
    replace (i + S j)%nat with (i + 1 + j)%nat by lia. exact B.
  - intros [|k] K E; [lia|].
    assert (k <= m)%nat; [|lia].
    apply C; [lia|]. intros j J. rewrite nth_skip.
    replace (i + 1 + j)%nat with (i + S j)%nat by lia. apply E. lia.
Qed.

(** The pieces written so far; the literal stretch that may still grow comes
    last. *)
Definition last_literal (e : enc) (ps : list piece) : Prop :=
  match e_cnt e with
  | None => True
  | Some c => exists ps1 l ps2, ps = ps1 ++ Bytes l :: ps2 /\
      length (flat_map written ps1) = c
  end.

Definition inv (data : list Z) (e : enc) : Prop :=
  (e_i e <= length data)%nat /\
  exists ps, e_out e = flat_map written ps /\
    means [] ps (firstn (e_i e) data) /\ last_literal e ps.

Lemma means_app : forall a ps b, means a ps b -> forall qs c, means b qs c ->
  means a (ps ++ qs) c.
Proof.
  induction 1; intros qs d M; cbn [app]; auto.
  econstructor; eauto.
Qed.

Lemma means_split : forall ps qs a c, means a (ps ++ qs) c ->
  exists b, means a ps b /\ means b qs c.
Proof.
  induction ps; intros qs a0 c M; cbn [app] in M.
  - exists a0. split; [constructor | auto].
  - inversion M; subst. destruct (IHps _ _ _ H5) as (b' & A & B).
    exists b'. split; auto. econstructor; eauto.
Qed.

Lemma flat_written_app : forall ps qs,
  flat_map written (ps ++ qs) = flat_map written ps ++ flat_map written qs.
Proof. intros. now rewrite flat_map_app. Qed.

Lemma nth_count : forall ps1 l ps2,
  nth (length (flat_map written ps1)) (flat_map written (ps1 ++ Bytes l :: ps2)) 0
  = Z.of_nat (length l) - 1.
Proof.
  intros. rewrite flat_written_app, app_nth2 by lia. rewrite Nat.sub_diag.
  reflexivity.
Qed.

Lemma pieces_ok : forall a ps b, means a ps b -> forall p, In p ps -> piece_ok p.
Proof.
  induction 1; intros q I; cbn in I; [easy|]. destruct I as [<- | I]; auto.
Qed.

Lemma flat_short : forall ps, length (flat_map written ps) = 0%nat -> ps = [].
Proof.
  intros [|[l|n v|d len] ps]; cbn; auto; intros H; lia.
Qed.

Lemma valid_last : forall data e, inv data e -> valid e = true ->
  exists c ps1 l, e_cnt e = Some c /\
    e_out e = flat_map written (ps1 ++ [Bytes l]) /\
    length (flat_map written ps1) = c /\
    nth c (e_out e) 0 = Z.of_nat (length l) - 1 /\
    means [] (ps1 ++ [Bytes l]) (firstn (e_i e) data).
Proof.
  intros data e (I & ps & O & M & LL) V. unfold valid in V. unfold last_literal in LL.
  destruct (e_cnt e) as [c|]; [|discriminate].
  destruct LL as (ps1 & l & ps2 & -> & <-).
  rewrite O, nth_count in V.
  apply andb_true_iff in V. destruct V as [_ V]. apply Z.eqb_eq in V.
  rewrite flat_written_app, app_length in V. cbn [flat_map written app length] in V.
  rewrite app_length in V.
  assert (ps2 = []) as -> by (apply flat_short; lia).
  exists (length (flat_map written ps1)), ps1, l.
  repeat split; auto. rewrite O. apply nth_count.
Qed.

Lemma bump_at : forall a x b, bump (length a) (a ++ x :: b) = a ++ (x + 1) mod 256 :: b.
Proof. induction a; intros; cbn; auto. now rewrite IHa. Qed.

Lemma inv_add : forall data e p i' out,
  inv data e -> piece_ok p -> adds (firstn (e_i e) data) p (firstn i' data) ->
  (i' <= length data)%nat -> out = e_out e ++ written p ->
  inv data (mk_enc out (e_cnt e) i').
Proof.
  intros data e p i' out (I & ps & O & M & LL) OK A I' ->.
  split; [exact I'|]. exists (ps ++ [p]). cbn [e_out e_i]. repeat split.
  - rewrite O, flat_written_app. cbn. now rewrite app_nil_r.
  - apply (means_app _ _ _ M). econstructor; eauto. constructor.
  - unfold last_literal in *. cbn [e_cnt]. destruct (e_cnt e) as [c|]; auto.
    destruct LL as (ps1 & l & ps2 & -> & E).
    exists ps1, l, (ps2 ++ [p]). split; auto. now rewrite <- app_assoc.
Qed.

Lemma plain_step : forall data e, inv data e -> (e_i e < length data)%nat ->
  inv data (mk_enc (e_out e ++ [0; nth (e_i e) data 0])
                   (Some (length (e_out e))) (e_i e + 1)).
Proof.
  intros data e (I & ps & O & M & LL) L.
  split; [cbn; lia|]. exists (ps ++ [Bytes [nth (e_i e) data 0]]).
  cbn [e_out e_i]. repeat split.
  - rewrite O, flat_written_app. reflexivity.
  - apply (means_app _ _ _ M). econstructor; [| |constructor].
    + cbn; lia.
    + cbn. rewrite Nat.add_1_r. now apply firstn_S.
  - unfold last_literal. cbn [e_cnt]. exists ps, [nth (e_i e) data 0], [].
    rewrite O. auto.
Qed.

Lemma inv_step : forall data e, repeats_plain data ->
  inv data e -> (e_i e < length data)%nat ->
  inv data (encode1 data e) /\ (e_i e < e_i (encode1 data e))%nat.
Proof.
  intros data e RP V L. unfold encode1.
  pose proof (search_spec 256 0 data (e_i e) (-1) (-1) ltac:(lia) ltac:(lia)
                (or_introl eq_refl)) as S.
  destruct (search 256 0 data (e_i e) (-1) (-1)) as [best off].
  pose proof (run_spec data (e_i e) L) as R. cbv zeta in R.
  set (l := run_length data (e_i e)) in *. clearbody l.
  destruct R as (R1 & R2 & R3 & R4).
  set (limit := if valid e then 3 else 2).
  assert (LM : limit = 2 \/ limit = 3) by (unfold limit; destruct (valid e); auto).
  destruct ((l + 1 <? best) && (limit <? best)) eqn:B.
  - apply andb_true_iff in B. destruct B as [B1 B2].
    destruct S as [-> | (S1 & S2 & S3 & S4 & S5 & S6)]; [lia|].
    assert (best <= 255).
    { destruct (Z.eq_dec best 256) as [->|]; [|lia].
      exfalso. pose proof (RP (e_i e) (Z.to_nat off + 1)%nat ltac:(lia) ltac:(lia)
        ltac:(lia) ltac:(intros j J; apply S6; lia)) as P.
      specialize (R4 256%nat ltac:(lia) P). lia. }
    rewrite !Z.mod_small by lia.
    split; [|cbn [e_i]; lia].
    apply (inv_add data e (Again (Z.to_nat off + 1) (Z.to_nat best))); auto.
    + cbn. lia.
    + assert (LF : length (firstn (e_i e) data) = e_i e) by (rewrite firstn_length; lia).
      cbn [adds]. rewrite LF. repeat split.
      * lia.
      * rewrite firstn_length. lia.
      * rewrite firstn_firstn. f_equal. lia.
      * intros j J. rewrite !nth_first by lia. apply S6. lia.
    + lia.
    + cbn [written]. repeat f_equal; lia.
  - clear B S. destruct (Z.leb_spec limit l) as [LL|LL].
    + set (m := if 127 <? l then 127 else l).
      assert (M : 2 <= m <= 127 /\ m <= l)
        by (unfold m; destruct (Z.ltb_spec 127 l); lia).
      clearbody m.
      rewrite Z.mod_small by lia.
      split; [|cbn [e_i]; lia].
      apply (inv_add data e (Times (Z.to_nat m) (nth (e_i e) data 0))); auto.
      * cbn. lia.
      * cbn [adds]. rewrite firstn_more. f_equal.
        apply list_ext.
        { rewrite firstn_length, skipn_length, repeat_length. lia. }
        intros k K. rewrite firstn_length, skipn_length in K.
        rewrite nth_first, nth_skip by lia. rewrite R3 by lia.
        symmetry. apply (repeat_spec (Z.to_nat m)). apply nth_In. rewrite repeat_length. lia.
      * lia.
      * cbn [written]. now replace (126 + Z.of_nat (Z.to_nat m)) with (128 + (m - 2)) by lia.
    + destruct (e_cnt e) as [c|] eqn:C;
        [|split; [now apply plain_step | cbn [e_i]; lia]].
      destruct (valid e && (nth c (e_out e) 0 <? 127)) eqn:W;
        [|split; [now apply plain_step | cbn [e_i]; lia]].
      apply andb_true_iff in W. destruct W as [W1 W2].
      destruct (valid_last data e V W1) as (c' & ps1 & lit & C' & O & LC & N & M).
      assert (c' = c) as -> by congruence.
      rewrite N in W2.
      split; [|cbn [e_i]; lia].
      split; [cbn; lia|]. exists (ps1 ++ [Bytes (lit ++ [nth (e_i e) data 0])]).
      assert (OKL : piece_ok (Bytes lit))
        by (apply (pieces_ok _ _ _ M); apply in_or_app; right; left; auto).
      cbn [piece_ok] in OKL.
      cbn [e_out e_i]. repeat split.
      * rewrite O, !flat_written_app. cbn [flat_map written app].
        rewrite !app_nil_r, <- LC, bump_at. rewrite <- app_assoc. cbn [app].
        rewrite app_length. cbn [length].
        do 2 f_equal. rewrite Z.mod_small by lia. lia.
      * destruct (means_split _ _ _ _ M) as (b & M1 & M2).
        apply (means_app _ _ _ M1).
        inversion M2 as [|? ? b' ? ? OK A M3]; subst. inversion M3; subst.
        cbn [adds] in A. econstructor; [| |constructor].
        { cbn [piece_ok]. rewrite app_length. cbn [length]. lia. }
        cbn [adds]. rewrite Nat.add_1_r, firstn_S, A by lia.
        now rewrite app_assoc.
      * unfold last_literal. cbn [e_cnt]. exists ps1, (lit ++ [nth (e_i e) data 0]), [].
        auto.
Qed.

Lemma loop_inv : forall fuel data e, repeats_plain data -> inv data e ->
  (length data - e_i e <= fuel)%nat ->
  inv data (encode_loop fuel data e) /\
  e_i (encode_loop fuel data e) = length data.
Proof.
  induction fuel; intros data e RP V F; cbn [encode_loop].
  - split; auto. destruct V as (I & _). lia.
  - destruct (Nat.ltb_spec (e_i e) (length data)) as [L|L].
    + destruct (inv_step data e RP V L) as [V' P]. apply IHfuel; auto. lia.
    + split; auto. destruct V as (I & _). lia.
Qed.

Lemma inv_start : forall data, inv data (mk_enc [] None 0).
Proof.
  intros. split; [cbn; lia|]. exists []. repeat split. constructor.
Qed.

Lemma encode_pieces : forall data, repeats_plain data ->
  exists ps, rle_encode_internal data = flat_map written ps /\ means [] ps data.
Proof.
  intros data RP.
  destruct (loop_inv (length data) data (mk_enc [] None 0) RP (inv_start data))
    as [(I & ps & O & M & _) E]; [cbn; lia|].
  exists ps. split; [exact O|]. rewrite E, firstn_all in M. exact M.
Qed.

Lemma round_trip : forall data tail, repeats_plain data ->
  rle_decode (rle_encode_internal data ++ tail) (length data) = Some data.
Proof.
  intros data tail RP. destruct (encode_pieces data RP) as (ps & -> & M).
  now apply decode_pieces.
Qed.

Lemma same_bytes_spec : forall a b, same_bytes a b = true <-> a = b.
Proof.
  induction a; intros [|y b]; cbn; split; intros H; try discriminate; auto.
  - apply andb_true_iff in H. destruct H as [H1 H2].
    apply Z.eqb_eq in H1. apply IHa in H2. congruence.
  - injection H as -> H. apply andb_true_iff. split; [apply Z.eqb_refl | now apply IHa].
Qed.

Lemma encode_some : forall data, repeats_plain data ->
  rle_encode data = Some (rle_encode_internal data).
Proof.
  intros data RP. unfold rle_encode.
  pose proof (round_trip data [] RP) as H. rewrite app_nil_r in H. rewrite H.
  now rewrite (proj2 (same_bytes_spec data data) eq_refl).
Qed.

Lemma encode_checked : forall data output, rle_encode data = Some output ->
  output = rle_encode_internal data /\
  forall tail, rle_decode (output ++ tail) (length data) = Some data.
Proof.
  intros data output H. unfold rle_encode in H.
  destruct (rle_decode _ _) as [tmp|] eqn:D; [|discriminate].
  destruct (same_bytes tmp data) eqn:S; [|discriminate].
  apply same_bytes_spec in S. subst. injection H as <-.
  split; auto. intros. now apply decode_tail.
Qed.

(** *** The size of the output *)

Lemma bump_length : forall l c, length (bump c l) = length l.
Proof. induction l; intros [|c]; cbn; auto. Qed.

Lemma size_step : forall data e,
  (length (e_out e) <= 2 * e_i e)%nat ->
  (length (e_out (encode1 data e)) <= 2 * e_i (encode1 data e))%nat.
Proof.
  intros data e H. unfold encode1.
  destruct (search 256 0 data (e_i e) (-1) (-1)) as [best off].
  set (l := run_length data (e_i e)). clearbody l.
  set (limit := if valid e then 3 else 2).
  assert (LM : limit = 2 \/ limit = 3) by (unfold limit; destruct (valid e); auto).
  destruct ((l + 1 <? best) && (limit <? best)) eqn:B.
  - cbn [e_out e_i]. rewrite app_length. cbn [length]. lia.
  - destruct (Z.leb_spec limit l) as [LL|LL].
    + cbn [e_out e_i]. rewrite app_length. cbn [length].
      destruct (Z.ltb_spec 127 l); lia.
    + destruct (e_cnt e) as [c|]; [destruct (valid e && _)|]; cbn [e_out e_i];
        rewrite ?app_length, ?bump_length; cbn [length]; lia.
Qed.

Lemma step_bound : forall data e, (e_i e < length data)%nat ->
  (e_i (encode1 data e) <= length data)%nat.
Proof.
  intros data e L. unfold encode1.
  pose proof (search_spec 256 0 data (e_i e) (-1) (-1) ltac:(lia) ltac:(lia)
                (or_introl eq_refl)) as S.
  destruct (search 256 0 data (e_i e) (-1) (-1)) as [best off].
  pose proof (run_spec data (e_i e) L) as R. cbv zeta in R.
  set (l := run_length data (e_i e)) in *. clearbody l.
  destruct R as (R1 & R2 & _).
  set (limit := if valid e then 3 else 2).
  destruct ((l + 1 <? best) && (limit <? best)) eqn:B.
  - destruct S as [-> | (S1 & S2 & S3 & S4 & S5 & S6)]; cbn [e_i]; lia.
  - destruct (limit <=? l).
    + cbn [e_i]. destruct (Z.ltb_spec 127 l); lia.
    + destruct (e_cnt e) as [c|]; [destruct (valid e && _)|]; cbn [e_i]; lia.
Qed.

Lemma size_loop : forall fuel data e,
  (length (e_out e) <= 2 * e_i e)%nat -> (e_i e <= length data)%nat ->
  (length (e_out (encode_loop fuel data e)) <= 2 * length data)%nat.
Proof.
  induction fuel; intros data e H L; cbn [encode_loop].
  - lia.
  - destruct (Nat.ltb_spec (e_i e) (length data)); [|lia].
    apply IHfuel; [now apply size_step | now apply step_bound].
Qed.

Lemma encode_size : forall data,
  (length (rle_encode_internal data) <= 2 * length data)%nat.
Proof. intros. apply size_loop; cbn; lia. Qed.

(** A literal stretch costs one byte more than it holds, and what ends it saves one;
    only a full one does not. [q] full stretches were written. *)
Definition tight (e : enc) : Prop := exists q : nat,
  match e_cnt e with
  | None => (length (e_out e) <= e_i e + q /\ 128 * q <= e_i e)%nat
  | Some c =>
      exists x : nat, nth c (e_out e) 0 = Z.of_nat x /\ (x <= 127)%nat /\
      (c + x + 2 <= length (e_out e))%nat /\
      (if Nat.eqb (c + x + 2) (length (e_out e)) && Nat.ltb x 127
       then (length (e_out e) <= e_i e + q + 1 /\ 128 * q + x + 1 <= e_i e)%nat
       else (length (e_out e) <= e_i e + q /\ 128 * q <= e_i e)%nat)
  end.

Lemma valid_nat : forall e c x, e_cnt e = Some c -> nth c (e_out e) 0 = Z.of_nat x ->
  (x <= 127)%nat -> valid e = Nat.eqb (c + x + 2) (length (e_out e)).
Proof.
  intros e c x C N X. unfold valid. rewrite C, N.
  destruct (Nat.eqb_spec (c + x + 2) (length (e_out e))); lia.
Qed.

Lemma nth_bump : forall l c, (c < length l)%nat -> nth c (bump c l) 0 = (nth c l 0 + 1) mod 256.
Proof. induction l; intros [|c] H; cbn in *; try lia; auto. apply IHl. lia. Qed.

Lemma tight_longer : forall e q out i', tight e ->
  (q = if valid e then 3 else 2) ->
  (1 <= length out)%nat -> (length out <= i')%nat -> (Z.of_nat i' >= q) ->
  (valid e = true -> length out < i')%nat ->
  tight (mk_enc (e_out e ++ out) (e_cnt e) (e_i e + i')).
Proof.
  intros e q out i' (k & T) Q O1 O2 I V. exists k. cbn [e_out e_cnt e_i].
  rewrite app_length. destruct (e_cnt e) as [c|] eqn:C; [|lia].
  destruct T as (x & N & X & L & T). exists x.
  rewrite app_nth1 by lia. split; [exact N|]. split; [exact X|]. split; [lia|].
  rewrite (valid_nat e c x C N X) in V.
  destruct (Nat.eqb_spec (c + x + 2) (length (e_out e) + length out)); [lia|]. cbn [andb].
  destruct (Nat.eqb_spec (c + x + 2) (length (e_out e))); cbn [andb] in T.
  - specialize (V eq_refl). destruct (Nat.ltb x 127); lia.
  - lia.
Qed.

Lemma tight_new : forall e y, tight e ->
  (forall c x, e_cnt e = Some c -> nth c (e_out e) 0 = Z.of_nat x -> (x < 127)%nat ->
     valid e = false) ->
  tight (mk_enc (e_out e ++ [0; y]) (Some (length (e_out e))) (e_i e + 1)).
Proof.
  intros e y (q & T) V. exists q. cbn [e_out e_cnt e_i]. exists 0%nat.
  rewrite app_length. cbn [length]. rewrite app_nth2, Nat.sub_diag by lia.
  split; [reflexivity|]. split; [lia|]. split; [lia|].
  destruct (Nat.eqb_spec (length (e_out e) + 0 + 2) (length (e_out e) + 2)); [|lia].
  cbn [andb]. change (Nat.ltb 0 127) with true. cbn iota.
  destruct (e_cnt e) as [c|] eqn:C; [|lia].
  destruct T as (x & N & X & L & T).
  destruct (Nat.ltb_spec x 127) as [XX|XX].
  - specialize (V c x eq_refl N XX). rewrite (valid_nat e c x C N X) in V.
    rewrite V in T. cbn [andb] in T. lia.
  - rewrite andb_false_r in T. lia.
Qed.

Lemma tight_step : forall data e, tight e -> tight (encode1 data e).
Proof.
  intros data e H. unfold encode1.
  destruct (search 256 0 data (e_i e) (-1) (-1)) as [best off].
  set (l := run_length data (e_i e)). clearbody l.
  set (limit := if valid e then 3 else 2).
  assert (LM : valid e = true /\ limit = 3 \/ valid e = false /\ limit = 2)
    by (unfold limit; destruct (valid e); auto).
  destruct ((l + 1 <? best) && (limit <? best)) eqn:B.
  - apply (tight_longer e limit); auto; cbn [length]; try lia.
  - destruct (Z.leb_spec limit l) as [LL|LL].
    + apply (tight_longer e limit); auto; cbn [length]; try (destruct (Z.ltb_spec 127 l); lia).
    + destruct (e_cnt e) as [c|] eqn:C.
      2:{ apply tight_new; auto. rewrite C. discriminate. }
      pose proof H as (q & T). rewrite C in T. destruct T as (x & N & X & L & T).
      rewrite N. destruct (valid e) eqn:V; cbn [andb].
      * destruct (Z.ltb_spec (Z.of_nat x) 127) as [XX|XX].
        -- rewrite (valid_nat e c x C N X) in V. rewrite V in T.
           destruct (Nat.ltb_spec x 127) as [_|]; [|lia]. cbn [andb] in T.
           assert (CL : (c + x + 2 = length (e_out e))%nat)
             by (destruct (Nat.eqb_spec (c + x + 2) (length (e_out e))); [auto|discriminate]).
           assert (NB : nth c (bump c (e_out e) ++ [nth (e_i e) data 0]) 0 = Z.of_nat (x + 1)).
           { rewrite app_nth1 by (rewrite bump_length; lia).
             rewrite nth_bump by lia. rewrite N. rewrite Z.mod_small by lia. lia. }
           exists (if Nat.eqb x 126 then q + 1 else q)%nat. cbn [e_out e_cnt e_i].
           exists (x + 1)%nat. split; [exact NB|]. split; [lia|].
           rewrite app_length, bump_length. cbn [length]. split; [lia|].
           destruct (Nat.eqb_spec (c + (x + 1) + 2) (length (e_out e) + 1)); [|lia].
           cbn [andb]. destruct (Nat.ltb_spec (x + 1) 127), (Nat.eqb_spec x 126); lia.
        -- apply tight_new; auto. intros c' x' C' N' X'.
           assert (c' = c) as -> by congruence. assert (x' = x) as -> by lia. lia.
      * apply tight_new; auto.
Qed.

Lemma tight_loop : forall fuel data e, tight e -> (e_i e <= length data)%nat ->
  exists e', encode_loop fuel data e = e' /\ tight e' /\ (e_i e' <= length data)%nat.
Proof.
  induction fuel; intros data e H L; cbn [encode_loop].
  - now exists e.
  - destruct (Nat.ltb_spec (e_i e) (length data)); [|now exists e].
    apply IHfuel; [now apply tight_step | now apply step_bound].
Qed.

Lemma encode_tight : forall data,
  (length (rle_encode_internal data) <= length data + 1 + length data / 128)%nat.
Proof.
  intros data. unfold rle_encode_internal.
  destruct (tight_loop (length data) data (mk_enc [] None 0)) as (e & E & (q & T) & I);
    [exists 0%nat; cbn; lia | cbn; lia |].
  rewrite E. pose proof (Nat.div_mod (length data) 128 ltac:(lia)).
  pose proof (Nat.mod_upper_bound (length data) 128 ltac:(lia)).
  destruct (e_cnt e) as [c|]; [|lia].
  destruct T as (x & _ & _ & _ & T).
  destruct (Nat.eqb (c + x + 2) (length (e_out e)) && Nat.ltb x 127); lia.
Qed.

Lemma short_plain : forall data, (length data <= 256)%nat -> repeats_plain data.
Proof. intros data H i d D1 D2 L. lia. Qed.

(** ** The tables *)

Definition starts (output l : list Z) : Prop := exists rest, l = output ++ rest.

Lemma agrees_spec : forall output blob, agrees output blob = true ->
  starts output (blob ++ skipn (length blob) output).
Proof.
  induction output as [|x output IH]; intros [|y blob] H; cbn in *.
  - exists []. reflexivity.
  - eexists. reflexivity.
  - exists []. now rewrite app_nil_r.
  - apply andb_true_iff in H. destruct H as [H1 H2]. apply Z.eqb_eq in H1. subst y.
    destruct (IH _ H2) as [r E]. exists r. cbn. now rewrite E.
Qed.

Lemma agrees_starts : forall output l, starts output l -> agrees output l = true.
Proof.
  intros output l [r ->]. induction output; cbn; [now destruct r|].
  now rewrite Z.eqb_refl.
Qed.

Lemma place_le : forall output blob, (place output blob <= length blob)%nat.
Proof.
  induction blob; cbn [place length]; [lia|]. destruct (agrees _ _); lia.
Qed.

Lemma place_spec : forall output blob,
  agrees output (skipn (place output blob) blob) = true.
Proof.
  intros output. induction blob; cbn [place].
  - destruct output; reflexivity.
  - destruct (agrees output (a :: blob)) eqn:E; cbn [skipn]; auto.
Qed.

Lemma place_first : forall output blob k, agrees output (skipn k blob) = true ->
  (place output blob <= k)%nat.
Proof.
  intros output. induction blob; intros k H; cbn [place]; [lia|].
  destruct (agrees output (a :: blob)) eqn:E; [lia|].
  destruct k; cbn [skipn] in H; [congruence|]. apply IHblob in H. lia.
Qed.

Lemma place_starts : forall output blob,
  starts output (skipn (place output blob)
    (blob ++ skipn (length blob - place output blob) output)).
Proof.
  intros. pose proof (place_le output blob).
  rewrite skipn_app.
  replace (place output blob - length blob)%nat with 0%nat by lia. cbn [skipn].
  pose proof (agrees_spec _ _ (place_spec output blob)) as A.
  rewrite skipn_length in A. exact A.
Qed.

Lemma starts_app : forall output l m, starts output l -> starts output (l ++ m).
Proof. intros output l m [r ->]. exists (r ++ m). now rewrite app_assoc. Qed.

Lemma starts_skip : forall output k l m, starts output (skipn k l) -> (k <= length l)%nat ->
  starts output (skipn k (l ++ m)).
Proof.
  intros output k l m H K. rewrite skipn_app.
  replace (k - length l)%nat with 0%nat by lia. now apply starts_app.
Qed.

(** Columns encoded so far against the tables. *)
Definition holds (t : list Z * list nat) (done : list (list Z)) : Prop :=
  length (snd t) = length done /\
  forall k data, nth_error done k = Some data ->
    exists output, rle_encode data = Some output /\
      (nth k (snd t) 0 <= length (fst t))%nat /\
      starts output (skipn (nth k (snd t) 0%nat) (fst t)).

Lemma holds_add : forall t done data output, holds t done ->
  rle_encode data = Some output -> holds (add_column t output) (done ++ [data]).
Proof.
  intros [blob offsets] done data output [L H] E. unfold add_column.
  cbn [fst snd] in L, H. pose proof (place_le output blob) as PL.
  split; cbn [fst snd].
  - rewrite !app_length. cbn. lia.
  - intros k d K. destruct (Nat.lt_ge_cases k (length done)) as [Lt|Ge].
    + rewrite nth_error_app1 in K by lia. destruct (H k d K) as (o & O & P & S).
      exists o. rewrite app_nth1 by lia. split; auto.
      split; [rewrite app_length; lia|]. now apply starts_skip.
    + rewrite nth_error_app2 in K by lia.
      destruct (k - length done)%nat as [|m] eqn:M; cbn in K;
        [|destruct m; discriminate].
      injection K as <-. exists output.
      rewrite app_nth2 by lia. replace (k - length offsets)%nat with 0%nat by lia.
      cbn [nth]. split; auto. split; [rewrite app_length; lia|].
      apply place_starts.
Qed.

Lemma tables_holds : forall columns t done t', holds t done ->
  tables t columns = Some t' -> holds t' (done ++ columns).
Proof.
  induction columns as [|data columns IH]; intros t done t' H E; cbn [tables] in E.
  - injection E as <-. now rewrite app_nil_r.
  - destruct (rle_encode data) as [output|] eqn:R; [|discriminate].
    specialize (IH _ _ _ (holds_add t done data output H R) E).
    now rewrite <- app_assoc in IH.
Qed.

Lemma holds_start : holds ([], []) [].
Proof. split; auto. intros [|k]; discriminate. Qed.

Lemma image_decodes : forall columns blob offsets,
  make_image columns = Some (blob, offsets) ->
  length offsets = length columns /\
  forall k data, nth_error columns k = Some data ->
    rle_decode (skipn (nth k offsets 0%nat) blob) (length data) = Some data.
Proof.
  intros columns blob offsets H.
  destruct (tables_holds _ _ _ _ holds_start H) as [L D]. cbn [app fst snd] in *.
  split; auto. intros k data K. destruct (D k data K) as (o & O & P & [r S]).
  rewrite S. now apply encode_checked.
Qed.

Lemma image_made : forall columns t,
  (forall data, In data columns -> repeats_plain data) ->
  exists t', tables t columns = Some t'.
Proof.
  induction columns as [|data columns IH]; intros t H; cbn [tables].
  - now exists t.
  - rewrite encode_some by (apply H; left; auto). apply IH. intros; apply H; right; auto.
Qed.

Lemma tables_app : forall a b t,
  tables t (a ++ b) =
  match tables t a with Some t' => tables t' b | None => None end.
Proof.
  induction a as [|x a IH]; intros b t; cbn [app tables]; auto.
  destruct (rle_encode x); auto.
Qed.

Lemma shared_column : forall columns data t,
  make_image columns = Some t -> In data columns ->
  exists t', make_image (columns ++ [data]) = Some t' /\ fst t' = fst t.
Proof.
  intros columns data t H I. unfold make_image in *. rewrite tables_app, H.
  destruct (tables_holds _ _ _ _ holds_start H) as [L D]. cbn [app] in *.
  destruct (In_nth_error _ _ I) as [k K].
  destruct (D k data K) as (output & O & P & S).
  cbn [tables]. rewrite O. eexists. split; [reflexivity|].
  destruct t as [blob offsets]. cbn [fst snd] in *. unfold add_column. cbn [fst].
  pose proof (place_first output blob _ (agrees_starts _ _ S)) as F.
  destruct S as [r S].
  assert (G : length (skipn (nth k offsets 0%nat) blob) = (length output + length r)%nat)
    by (rewrite S; apply app_length).
  rewrite skipn_length in G.
  rewrite skipn_all2 by lia. apply app_nil_r.
Qed.

Lemma tables_size : forall columns t t', tables t columns = Some t' ->
  (length (fst t') <= length (fst t) +
     fold_right (fun d n => length (rle_encode_internal d) + n) 0 columns)%nat.
Proof.
  induction columns as [|data columns IH]; intros t t' H; cbn [tables fold_right] in *.
  - injection H as <-. lia.
  - destruct (rle_encode data) as [output|] eqn:R; [|discriminate].
    apply IH in H. destruct (encode_checked _ _ R) as [-> _].
    destruct t as [blob offsets]. unfold add_column in H. cbn [fst] in *.
    rewrite app_length, skipn_length in H. lia.
Qed.

(** ** Colours *)

Lemma find_color_spec : forall map c x,
  match find_color map c x with
  | Some k => (c <= k)%nat /\ (k - c < length map)%nat /\ nth (k - c) map 0 = x
  | None => ~ In x map
  end.
Proof.
  induction map as [|y map IH]; intros c x; cbn [find_color].
  - auto.
  - destruct (Z.eqb_spec x y).
    + rewrite Nat.sub_diag. cbn. repeat split; auto; lia.
    + specialize (IH (c + 1)%nat x). destruct (find_color map (c + 1) x) as [k|].
      * destruct IH as (A & B & C). repeat split; cbn [length]; try lia.
        replace (k - c)%nat with (S (k - (c + 1))) by lia. exact C.
      * intros [->|I]; auto.
Qed.

Definition extends (map map' : list Z) : Prop := exists m, map' = map ++ m.

Lemma extends_trans : forall a b c, extends a b -> extends b c -> extends a c.
Proof. intros a b c [m ->] [n ->]. exists (m ++ n). now rewrite app_assoc. Qed.

Lemma extends_nth : forall map map' k, extends map map' -> (k < length map)%nat ->
  nth k map' 0 = nth k map 0.
Proof. intros map map' k [m ->] K. now apply app_nth1. Qed.

Lemma NoDup_snoc : forall (l : list Z) x, NoDup l -> ~ In x l -> NoDup (l ++ [x]).
Proof.
  intros l x N I. apply NoDup_rev in N. rewrite <- (rev_involutive (l ++ [x])).
  apply NoDup_rev. rewrite rev_app_distr. cbn. constructor; auto.
  now rewrite <- in_rev.
Qed.

Lemma quantize1_spec : forall map x map' c, NoDup map -> (length map <= 256)%nat ->
  quantize1 map x = Some (map', c) ->
  NoDup map' /\ (length map' <= 256)%nat /\ extends map map' /\
  0 <= c < Z.of_nat (length map') /\ nth (Z.to_nat c) map' 0 = x /\
  (forall y, In y map' -> In y map \/ y = x).
Proof.
  intros map x map' c N L H. unfold quantize1 in H.
  pose proof (find_color_spec map 0 x) as F.
  destruct (find_color map 0 x) as [k|].
  - injection H as <- <-. destruct F as (A & B & C). rewrite Nat.sub_0_r in *.
    repeat split; auto; try lia.
    + exists []. now rewrite app_nil_r.
    + now rewrite Nat2Z.id.
  - destruct (Nat.eqb_spec (length map) 256); [discriminate|].
    injection H as <- <-. rewrite app_length. cbn [length]. repeat split; try lia.
    + now apply NoDup_snoc.
    + now exists [x].
    + rewrite Nat2Z.id, app_nth2, Nat.sub_diag by lia. reflexivity.
    + intros y Y. apply in_app_or in Y. destruct Y as [Y|[Y|[]]]; auto.
Qed.

Definition colored (map data pixels : list Z) : Prop :=
  Forall2 (fun c x => 0 <= c < Z.of_nat (length map) /\ nth (Z.to_nat c) map 0 = x)
    data pixels.

Lemma colored_extends : forall map map' data pixels, extends map map' ->
  colored map data pixels -> colored map' data pixels.
Proof.
  intros map map' data pixels E. induction 1; constructor; auto.
  destruct H as [H H1]. split.
  - destruct E as [m ->]. rewrite app_length. lia.
  - rewrite (extends_nth map map') by (auto; lia). exact H1.
Qed.

Lemma quantize_spec : forall pixels map map' data, NoDup map ->
  (length map <= 256)%nat -> quantize map pixels = Some (map', data) ->
  NoDup map' /\ (length map' <= 256)%nat /\ extends map map' /\
  colored map' data pixels.
Proof.
  induction pixels as [|x pixels IH]; intros map map' data N L H; cbn [quantize] in H.
  - injection H as <- <-. repeat split; auto.
    + exists []. now rewrite app_nil_r.
    + constructor.
  - destruct (quantize1 map x) as [[m1 c]|] eqn:Q1; [|discriminate].
    destruct (quantize m1 pixels) as [[m2 d]|] eqn:Q2; [|discriminate].
    injection H as <- <-.
    destruct (quantize1_spec _ _ _ _ N L Q1) as (N1 & L1 & E1 & C1 & X1 & _).
    destruct (IH _ _ _ N1 L1 Q2) as (N2 & L2 & E2 & C2).
    repeat split; auto.
    + eapply extends_trans; eauto.
    + constructor; auto. split.
      * destruct E2 as [m ->]. rewrite app_length. lia.
      * rewrite (extends_nth m1 m2) by (auto; lia). exact X1.
Qed.

Lemma quantize_all_spec : forall columns map map' datas, NoDup map ->
  (length map <= 256)%nat -> quantize_all map columns = Some (map', datas) ->
  NoDup map' /\ (length map' <= 256)%nat /\ extends map map' /\
  Forall2 (colored map') datas columns.
Proof.
  induction columns as [|p columns IH]; intros map map' datas N L H;
    cbn [quantize_all] in H.
  - injection H as <- <-. repeat split; auto.
    exists []. now rewrite app_nil_r.
  - destruct (quantize map p) as [[m1 d]|] eqn:Q1; [|discriminate].
    destruct (quantize_all m1 columns) as [[m2 ds]|] eqn:Q2; [|discriminate].
    injection H as <- <-.
    destruct (quantize_spec _ _ _ _ N L Q1) as (N1 & L1 & E1 & C1).
    destruct (IH _ _ _ N1 L1 Q2) as (N2 & L2 & E2 & C2).
    repeat split; auto.
    + eapply extends_trans; eauto.
    + constructor; auto. eapply colored_extends; eauto.
Qed.

Lemma quantize1_some : forall palette map x, (length palette <= 256)%nat ->
  NoDup map -> incl map palette -> In x palette ->
  exists map' c, quantize1 map x = Some (map', c) /\ NoDup map' /\ incl map' palette.
Proof.
  intros palette map x L N I X. unfold quantize1.
  pose proof (find_color_spec map 0 x) as F.
  destruct (find_color map 0 x) as [k|].
  - eauto.
  - assert (N' : NoDup (map ++ [x])) by now apply NoDup_snoc.
    assert (I' : incl (map ++ [x]) palette).
    { intros y Y. apply in_app_or in Y. destruct Y as [Y|[<-|[]]]; auto. }
    pose proof (NoDup_incl_length N' I') as LE. rewrite app_length in LE. cbn in LE.
    destruct (Nat.eqb_spec (length map) 256); [lia|]. eauto.
Qed.

Lemma quantize_some : forall palette pixels map, (length palette <= 256)%nat ->
  NoDup map -> incl map palette -> incl pixels palette ->
  exists map' d, quantize map pixels = Some (map', d) /\ NoDup map' /\ incl map' palette.
Proof.
  intros palette. induction pixels as [|x pixels IH]; intros map L N I X; cbn [quantize].
  - eauto.
  - destruct (quantize1_some palette map x) as (m1 & c & -> & N1 & I1); auto.
    { apply X. now left. }
    destruct (IH m1) as (m2 & d & -> & N2 & I2); auto.
    { intros y Y. apply X. now right. }
    eauto.
Qed.

Lemma quantize_all_some : forall palette columns map, (length palette <= 256)%nat ->
  NoDup map -> incl map palette -> (forall p, In p columns -> incl p palette) ->
  exists r, quantize_all map columns = Some r.
Proof.
  intros palette. induction columns as [|p columns IH]; intros map L N I X;
    cbn [quantize_all].
  - eauto.
  - destruct (quantize_some palette p map) as (m1 & d & -> & N1 & I1); auto.
    { apply X. now left. }
    destruct (IH m1) as ([m2 ds] & ->); auto.
    { intros q Q. apply X. now right. }
    eauto.
Qed.

(** ** The styles *)

Lemma to_int_floor : forall x : Q, (0 <= x)%Q ->
  floor_of (to_int x) x /\ 0 <= to_int x.
Proof.
  intros [n d] H. unfold floor_of, to_int, Qle, Qlt, inject_Z, Qplus in *.
  cbn [Qnum Qden] in *. rewrite Z.mul_1_r in *. cbn in H.
  assert (N : 0 <= n) by lia.
  rewrite Z.quot_div_nonneg by lia.
  pose proof (Z.div_mod n (Z.pos d) ltac:(lia)) as E.
  pose proof (Z.mod_pos_bound n (Z.pos d) ltac:(lia)) as B.
  pose proof (Z.div_pos n (Z.pos d) N ltac:(lia)).
  repeat split; lia.
Qed.

Lemma floor_unique : forall c c' x, floor_of c x -> floor_of c' x -> c = c'.
Proof.
  intros c c' x [A B] [C D].
  assert (inject_Z c < inject_Z (c' + 1))%Q as E1
    by (rewrite inject_Z_plus; apply (Qle_lt_trans _ x); auto).
  assert (inject_Z c' < inject_Z (c + 1))%Q as E2
    by (rewrite inject_Z_plus; apply (Qle_lt_trans _ x); auto).
  rewrite <- Zlt_Qlt in E1, E2. lia.
Qed.

Lemma fract_range : forall x, (0 <= fract x)%Q /\ (fract x < 1)%Q.
Proof.
  intros x. unfold fract. pose proof (Qfloor_le x). pose proof (Qlt_floor x) as H1.
  rewrite inject_Z_plus in H1. change (inject_Z 1) with 1%Q in H1. split; lra.
Qed.

Lemma floor_below : forall c x n, floor_of c x -> (x < inject_Z n)%Q -> c < n.
Proof.
  intros c x n [A B] H. rewrite Zlt_Qlt. apply (Qle_lt_trans _ x); auto.
Qed.

Lemma floor_atmost : forall c x n, floor_of c x -> (x <= inject_Z n)%Q -> c <= n.
Proof.
  intros c x n [A B] H. rewrite Zle_Qle. apply (Qle_trans _ x); auto.
Qed.

Lemma Qle_bool_false : forall x y, Qle_bool x y = false -> (y < x)%Q.
Proof.
  intros x y H. apply Qnot_le_lt. intros L. apply Qle_bool_iff in L. congruence.
Qed.

Lemma scaled_range : forall f n, (0 <= f)%Q -> (f <= 1)%Q -> 0 <= n ->
  (0 <= f * inject_Z n)%Q /\ (f * inject_Z n <= inject_Z n)%Q.
Proof.
  intros f n A B N. assert (0 <= inject_Z n)%Q as N'
    by (change 0%Q with (inject_Z 0); rewrite <- Zle_Qle; lia).
  split; [apply Qmult_le_0_compat; auto|].
  apply (Qle_trans _ (1 * inject_Z n)); [apply Qmult_le_compat_r; auto | lra].
Qed.

Lemma floor_of_eq : forall c x y, (x == y)%Q -> floor_of c x -> floor_of c y.
Proof. intros c x y E [A B]. split; [rewrite <- E | rewrite <- E]; auto. Qed.

Lemma part_eq : forall lo hi degrees,
  ((degrees - inject_Z lo) / inject_Z (hi - lo) == part_of lo hi degrees)%Q.
Proof.
  intros. unfold part_of, Z.sub. rewrite inject_Z_plus, inject_Z_opp. reflexivity.
Qed.

Lemma once_column : forall lo hi mirror columns degrees, 1 <= columns ->
  match style_column lo hi false mirror columns degrees with
  | Some c =>
      (0 <= part_of lo hi degrees /\ part_of lo hi degrees <= 1)%Q /\
      floor_of c (part_of lo hi degrees * inject_Z (columns - 1)) /\
      0 <= c < columns
  | None => (part_of lo hi degrees < 0 \/ 1 < part_of lo hi degrees)%Q
  end.
Proof.
  intros lo hi mirror columns degrees C. unfold style_column.
  pose proof (part_eq lo hi degrees) as E.
  set (f := ((degrees - inject_Z lo) / inject_Z (hi - lo))%Q) in *. clearbody f.
  set (g := part_of lo hi degrees) in *. clearbody g.
  destruct (Qle_bool 0 f) eqn:A; cbn [negb orb].
  - apply Qle_bool_iff in A. destruct (Qle_bool f 1) eqn:B; cbn [negb].
    + apply Qle_bool_iff in B.
      destruct (scaled_range f (columns - 1) A B ltac:(lia)) as [S1 S2].
      destruct (to_int_floor _ S1) as [F P].
      pose proof (floor_atmost _ _ _ F S2).
      repeat split; try lia; try (rewrite <- E; assumption).
      * destruct F as [F _]. rewrite <- E. exact F.
      * destruct F as [_ F]. rewrite <- E. exact F.
    + apply Qle_bool_false in B. right. rewrite <- E. exact B.
  - apply Qle_bool_false in A. left. rewrite <- E. exact A.
Qed.

Lemma repeat_column : forall lo hi columns degrees, 1 <= columns ->
  exists c k f, style_column lo hi true false columns degrees = Some c /\
    (part_of lo hi degrees == inject_Z k + f)%Q /\ (0 <= f)%Q /\ (f < 1)%Q /\
    floor_of c (f * inject_Z (columns - 1)) /\ 0 <= c < columns.
Proof.
  intros lo hi columns degrees C. unfold style_column.
  pose proof (part_eq lo hi degrees) as E.
  set (f := ((degrees - inject_Z lo) / inject_Z (hi - lo))%Q) in *. clearbody f.
  destruct (fract_range f) as [A B].
  destruct (scaled_range (fract f) (columns - 1) A ltac:(lra) ltac:(lia)) as [S1 S2].
  destruct (to_int_floor _ S1) as [F P].
  pose proof (floor_atmost _ _ _ F S2).
  exists (to_int (fract f * inject_Z (columns - 1))), (Qfloor f), (fract f).
  repeat split; auto; try lia; try (destruct F; assumption).
  rewrite <- E. unfold fract. ring.
Qed.

Lemma continuous_range : forall degrees columns t last speed angle, 2 <= columns ->
  let '(a, c) := continuous degrees columns t last speed angle in
  (0 <= a /\ a < 1)%Q /\ floor_of c (a * inject_Z (columns - 1)) /\
  0 <= c < columns - 1.
Proof.
  intros degrees columns t last speed angle C. unfold continuous. cbv zeta.
  set (a := fract _).
  assert (R : (0 <= a)%Q /\ (a < 1)%Q) by apply fract_range.
  clearbody a. destruct R as [A B].
  destruct (scaled_range a (columns - 1) A ltac:(lra) ltac:(lia)) as [S1 S2].
  destruct (to_int_floor _ S1) as [F P].
  assert (L : (a * inject_Z (columns - 1) < inject_Z (columns - 1))%Q).
  { setoid_replace (inject_Z (columns - 1)) with (1 * inject_Z (columns - 1))%Q
      at 2 by ring.
    apply Qmult_lt_compat_r; auto.
    change 0%Q with (inject_Z 0). rewrite <- Zlt_Qlt. lia. }
  pose proof (floor_below _ _ _ F L).
  repeat split; auto; try lia; try (destruct F; assumption).
Qed.

Lemma led_index : forall height leds led, 1 <= height -> 0 <= led < leds ->
  Z.quot (led * height) leds = led * height / leds /\
  0 <= led * height / leds < height.
Proof.
  intros height leds led H L.
  assert (0 <= led * height) by (apply Z.mul_nonneg_nonneg; lia).
  split; [apply Z.quot_div_nonneg; lia|].
  split; [apply Z.div_pos; lia|].
  apply Z.div_lt_upper_bound; [lia|].
  apply Z.mul_lt_mono_pos_r; lia.
Qed.

Lemma show_column : forall lo hi mirror columns image height leds s degrees,
  columns <> [] -> 1 <= height ->
  (forall d, In d columns -> Z.of_nat (length d) = height) ->
  make_image columns = Some image ->
  (0 <= part_of lo hi degrees)%Q -> (part_of lo hi degrees <= 1)%Q ->
  exists s' c,
    pov_frame lo hi false mirror image height leds s degrees = Some s' /\
    floor_of (Z.of_nat c)
      (part_of lo hi degrees * inject_Z (Z.of_nat (length columns) - 1)) /\
    forall led, 0 <= led < leds ->
      pov_color height s' led =
        nth_error (nth c columns []) (Z.to_nat (led * height / leds)) /\
      (Z.to_nat (led * height / leds) < length (nth c columns []))%nat.
Proof.
  intros lo hi mirror columns [blob offsets] height leds s degrees NE H1 HH MI P0 P1.
  destruct (image_decodes _ _ _ MI) as [LO D].
  assert (LC : (1 <= length columns)%nat) by (destruct columns; cbn; [easy|lia]).
  pose proof (once_column lo hi mirror (Z.of_nat (length offsets)) degrees ltac:(lia)) as OC.
  unfold pov_frame.
  destruct (style_column _ _ _ _ _ _) as [c|]; [|destruct OC; lra].
  destruct OC as (_ & F & R).
  destruct (Z.ltb_spec c 0); [lia|].
  destruct (Z.leb_spec (Z.of_nat (length offsets)) c); [lia|]. cbn [orb].
  assert (NT : nth_error columns (Z.to_nat c) = Some (nth (Z.to_nat c) columns []))
    by (apply nth_error_nth'; lia).
  specialize (D _ _ NT).
  assert (LD : Z.of_nat (length (nth (Z.to_nat c) columns [])) = height)
    by (apply HH; apply nth_In; lia).
  replace (Z.to_nat height) with (length (nth (Z.to_nat c) columns [])) by lia.
  rewrite D. eexists. exists (Z.to_nat c). split; [reflexivity|]. split.
  - rewrite LO in F. rewrite Z2Nat.id by lia. exact F.
  - intros led L. destruct (led_index height leds led H1 L) as [Q B].
    unfold pov_color. cbn [p_leds p_buffer].
    destruct (Z.eqb_spec leds 0); [lia|]. rewrite Q. split; auto. lia.
Qed.

Lemma half_column : forall lo hi columns degrees, 1 <= columns ->
  (0 <= part_of lo hi degrees)%Q -> (part_of lo hi degrees <= 1)%Q ->
  exists c, style_column lo hi true true columns degrees = Some c /\
    2 * c <= columns - 1.
Proof.
  intros lo hi columns degrees C P0 P1. unfold style_column.
  pose proof (part_eq lo hi degrees) as E.
  set (f := ((degrees - inject_Z lo) / inject_Z (hi - lo))%Q) in *. clearbody f.
  rewrite <- E in P0, P1. clear E.
  assert (F2 : (fract (f / 2) == f * (1 # 2))%Q).
  { assert (Eh : (f / 2 == f * (1 # 2))%Q) by reflexivity.
    unfold fract. set (h := (f / 2)%Q) in *. clearbody h.
    assert (Fl : Qfloor h = 0).
    { pose proof (Qfloor_le h) as A. pose proof (Qlt_floor h) as B.
      assert (A' : (inject_Z (Qfloor h) < inject_Z 1)%Q)
        by (change (inject_Z 1) with 1%Q; lra).
      assert (B' : (inject_Z 0 < inject_Z (Qfloor h + 1))%Q)
        by (change (inject_Z 0) with 0%Q; lra).
      rewrite <- Zlt_Qlt in A', B'. lia. }
    rewrite Fl. change (inject_Z 0) with 0%Q. lra. }
  set (g := (fract (f / 2) * f)%Q).
  assert (G : (0 <= g)%Q /\ (g <= 1 # 2)%Q).
  { unfold g. rewrite F2. split; nra. }
  clearbody g. destruct G as [G0 G1].
  destruct (Qle_bool g 1) eqn:B; cbn [negb]; [|apply Qle_bool_false in B; lra].
  eexists. split; [reflexivity|].
  destruct (scaled_range g (columns - 1) G0 ltac:(lra) ltac:(lia)) as [S1 S2].
  destruct (to_int_floor _ S1) as [[F _] P].
  set (c := to_int _) in *. clearbody c.
  assert (N : (0 <= inject_Z (columns - 1))%Q)
    by (change 0%Q with (inject_Z 0); rewrite <- Zle_Qle; lia).
  assert (inject_Z c + inject_Z c <= inject_Z (columns - 1))%Q as Q2 by nra.
  rewrite <- inject_Z_plus, <- Zle_Qle in Q2. lia.
Qed.
