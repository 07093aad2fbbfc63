From Coq Require Import ZArith List Bool Lia ZifyBool ZifyNat.
From Verif Require Import StrModel FileModel FileSpec FileProofs ConfigModel ConfigSpec ConfigProofs PresetModel PresetSpec.
Import ListNotations.
Open Scope Z_scope.

(** One line "key=value". *)
Definition key_ok (k : list Z) : Prop := name_ok k /\ map toLower k = k.
Lemma line_parts k v r : key_ok k ->
  let s := write_key_value k v ++ r in
  skipspace s = s /\ (peek s =? HASH) = false /\ s <> [] /\
  readVariable s = (k, EQS :: escape v ++ LF :: r) /\
  readString (skipspace (escape v ++ LF :: r)) = (drop_spaces v, LF :: r).
Proof.
  intros [K KL] s. unfold s, write_key_value. rewrite <- !app_assoc.
  split; [apply skipspace_name; auto|].
  pose proof K as (K1 & K2 & K3). destruct k as [|c k]; [congruence|]. inversion K3; subst.
  split; [apply name_char_nospace in H1; cbn [app peek]; unfold HASH in *; lia|].
  split; [discriminate|].
  split.
  - rewrite readVariable_name; [|exact K|reflexivity]. rewrite KL. reflexivity.
  - apply read_value.
Qed.

Lemma moved_app f a r : rest f = a ++ r -> moved f r = Reader (tell f + Z.of_nat (length a)) r.
Proof. intros E. unfold moved. rewrite E, app_length. f_equal. lia. Qed.

Lemma key_font : key_ok txt_font. Proof. repeat split; try discriminate; cbn; try lia; repeat constructor. Qed.
Lemma key_track : key_ok txt_track. Proof. repeat split; try discriminate; cbn; try lia; repeat constructor. Qed.
Lemma key_style : key_ok txt_style. Proof. repeat split; try discriminate; cbn; try lia; repeat constructor. Qed.
Lemma key_name : key_ok txt_name. Proof. repeat split; try discriminate; cbn; try lia; repeat constructor. Qed.
Lemma key_variation : key_ok txt_variation. Proof. repeat split; try discriminate; cbn; try lia; repeat constructor. Qed.
Lemma key_installed : key_ok txt_installed. Proof. repeat split; try discriminate; cbn; try lia; repeat constructor. Qed.
Lemma key_new : key_ok txt_new_preset. Proof. repeat split; try discriminate; cbn; try lia; repeat constructor. Qed.
Lemma key_end : key_ok txt_end. Proof. repeat split; try discriminate; cbn; try lia; repeat constructor. Qed.

Lemma line_nonempty k v r : key_ok k -> exists c s, write_key_value k v ++ r = c :: s.
Proof. intros K. destruct (line_parts k v r K) as (_ & _ & N & _). destruct (write_key_value k v ++ r); [congruence|eauto]. Qed.

Ltac line K :=
  match goal with |- read_loop (S ?n) ?cnt ?cs ?p ?num (Reader ?t (write_key_value ?k ?v ++ ?r)) = _ =>
    let L := fresh "L" in
    pose proof (line_parts k v r K) as L; cbv zeta in L; destruct L as (L1 & L2 & L3 & L4 & L5);
    destruct (line_nonempty k v r K) as (c0 & s0 & NE);
    cbn [read_loop rest]; rewrite NE; rewrite <- NE; rewrite L1, L2, L4;
    cbn [list_eqb list_eq_dec]
  end.

Lemma step_installed n p num t v r :
  read_loop (S n) 0 0 p num (Reader t (write_key_value txt_installed v ++ r)) =
  read_loop n 0 0 p num (Reader (t + Z.of_nat (length (write_key_value txt_installed v))) r).
Proof.
  line key_installed.
  change (list_eqb txt_installed txt_new_preset) with false. change (list_eqb txt_installed txt_end) with false.
  cbn [txt_installed]. change (0 =? 0) with true. cbv iota zeta.
  assert (SK : skipline (EQS :: escape v ++ LF :: r) = r).
  { cbn [skipline]. change (EQS =? LF) with false. cbv iota.
    clear. induction v as [|c v IH]; [reflexivity|]. cbn [escape].
    unfold LF, TAB, BSL in *. rewrite <- app_assoc.
    destruct (c =? 10) eqn:E1; [cbn [app skipline]; unfold LF; cbn [Z.eqb Pos.eqb]; exact IH|].
    destruct (c =? 9) eqn:E2; [cbn [app skipline]; unfold LF; cbn [Z.eqb Pos.eqb]; exact IH|].
    destruct (c =? 92) eqn:E3; [cbn [app skipline]; unfold LF; cbn [Z.eqb Pos.eqb]; exact IH|].
    cbn [app skipline]. unfold LF. rewrite E1. exact IH. }
  rewrite SK. f_equal. apply moved_app. reflexivity.
Qed.
Lemma step_font n cs p num t v r :
  read_loop (S n) 1 cs p num (Reader t (write_key_value txt_font v ++ r)) =
  read_loop n 1 cs (Preset (drop_spaces v) (track p) (styles p) (name p) (variation p)) num (Reader (t + Z.of_nat (length (write_key_value txt_font v))) r).
Proof.
  line key_font. cbn [tl peek]. rewrite L5. cbn -[read_loop moved skipline Z.add write_key_value Z.of_nat].
  f_equal. apply moved_app. reflexivity.
Qed.
Lemma step_track n cs p num t v r :
  read_loop (S n) 1 cs p num (Reader t (write_key_value txt_track v ++ r)) =
  read_loop n 1 cs (Preset (font p) (drop_spaces v) (styles p) (name p) (variation p)) num (Reader (t + Z.of_nat (length (write_key_value txt_track v))) r).
Proof.
  line key_track. cbn [tl peek]. rewrite L5. cbn -[read_loop moved skipline Z.add write_key_value Z.of_nat].
  f_equal. apply moved_app. reflexivity.
Qed.
Lemma step_name n cs p num t v r :
  read_loop (S n) 1 cs p num (Reader t (write_key_value txt_name v ++ r)) =
  read_loop n 1 cs (Preset (font p) (track p) (styles p) (drop_spaces v) (variation p)) num (Reader (t + Z.of_nat (length (write_key_value txt_name v))) r).
Proof.
  line key_name. cbn [tl peek]. rewrite L5. cbn -[read_loop moved skipline Z.add write_key_value Z.of_nat].
  f_equal. apply moved_app. reflexivity.
Qed.
Lemma step_variation n cs p num t v r :
  read_loop (S n) 1 cs p num (Reader t (write_key_value txt_variation v ++ r)) =
  read_loop n 1 cs (Preset (font p) (track p) (styles p) (name p) (to_uint (strtol (drop_spaces v)))) num (Reader (t + Z.of_nat (length (write_key_value txt_variation v))) r).
Proof.
  line key_variation. cbn [tl peek]. rewrite L5. cbn -[read_loop moved skipline Z.add write_key_value Z.of_nat to_uint strtol].
  f_equal. apply moved_app. reflexivity.
Qed.
Lemma step_style n cs p num t v r :
  read_loop (S n) 1 cs p num (Reader t (write_key_value txt_style v ++ r)) =
  match set_nth cs (drop_spaces v) (styles p) with
  | None => Overflow
  | Some ss => read_loop n 1 (S cs) (Preset (font p) (track p) ss (name p) (variation p)) num (Reader (t + Z.of_nat (length (write_key_value txt_style v))) r)
  end.
Proof.
  line key_style. cbn [tl peek]. rewrite L5. cbn -[read_loop moved skipline Z.add write_key_value Z.of_nat].
  destruct (set_nth cs (drop_spaces v) (styles p)); [|reflexivity].
  f_equal. apply moved_app. reflexivity.
Qed.

(** A line "new_preset" and the line "end". *)
Lemma new_parts r : let s := txt_new_preset ++ LF :: r in
  skipspace s = s /\ (peek s =? HASH) = false /\ readVariable s = (txt_new_preset, LF :: r).
Proof.
  split; [reflexivity|]. split; [reflexivity|]. rewrite readVariable_name; [reflexivity|apply key_new|reflexivity].
Qed.
Lemma step_new n cs p num t r :
  read_loop (S n) 0 cs p num (Reader t (txt_new_preset ++ LF :: r)) =
  read_loop n 1 cs p num (Reader (t + 11) r).
Proof.
  destruct (new_parts r) as (L1 & L2 & L4). cbn [read_loop rest].
  rewrite L1, L2, L4. cbn -[read_loop moved skipline Z.add].
  change (0 + 1 =? 2) with false. change (0 + 1) with 1. cbv iota.
  f_equal. apply (moved_app (Reader t (txt_new_preset ++ LF :: r)) (txt_new_preset ++ [LF])).
  rewrite <- app_assoc. reflexivity.
Qed.
Lemma stop_new n cs p num t r :
  read_loop (S n) 1 cs p num (Reader t (txt_new_preset ++ LF :: r)) =
  Got true p (num + 1) (Reader t (txt_new_preset ++ LF :: r)).
Proof.
  destruct (new_parts r) as (L1 & L2 & L4). cbn [read_loop rest].
  rewrite L1, L2, L4. cbn -[read_loop moved skipline Z.add].
  change (1 + 1 =? 2) with true. cbv iota.
  f_equal. rewrite (moved_app _ []) by reflexivity. cbn. f_equal. lia.
Qed.
Definition ends (junk : list Z) : Prop := name_char (toLower (peek junk)) = false.
Lemma end_parts junk : ends junk -> let s := txt_end ++ junk in
  skipspace s = s /\ (peek s =? HASH) = false /\ readVariable s = (txt_end, skipspace junk).
Proof.
  intros J s. split; [reflexivity|]. split; [reflexivity|]. unfold s. rewrite readVariable_name; [reflexivity|apply key_end|exact J].
Qed.
Lemma stop_end n cs p num t junk : ends junk ->
  read_loop (S n) 1 cs p num (Reader t (txt_end ++ junk)) = Got true p (num + 1) (Reader t (txt_end ++ junk)) /\
  read_loop (S n) 0 cs p num (Reader t (txt_end ++ junk)) = Got false p num (Reader t (txt_end ++ junk)).
Proof.
  intros J. destruct (end_parts junk J) as (L1 & L2 & L4). cbn [read_loop rest].
  rewrite L1, L2, L4.
  assert (MV : moved (Reader t (txt_end ++ junk)) (txt_end ++ junk) = Reader t (txt_end ++ junk)).
  { rewrite (moved_app _ []) by reflexivity. cbn [tell length]. rewrite Z.add_0_r. reflexivity. }
  rewrite MV. split; reflexivity.
Qed.

(** Styles *)
Lemma set_nth_spec a x b y : set_nth (length a) x (a ++ y :: b) = Some (a ++ x :: b).
Proof. induction a; cbn; [reflexivity|]. rewrite IHa. reflexivity. Qed.

Lemma read_styles ss : forall done old p num t r fuel,
  styles p = done ++ old -> length old = length ss ->
  read_loop (length ss + fuel) 1 (length done) p num (Reader t (flat_map (write_key_value txt_style) ss ++ r)) =
  read_loop fuel 1 (length done + length ss) (Preset (font p) (track p) (done ++ map drop_spaces ss) (name p) (variation p)) num
    (Reader (t + Z.of_nat (length (flat_map (write_key_value txt_style) ss))) r).
Proof.
  induction ss as [|s ss IH]; intros done old p num t r fuel E L.
  - destruct old; [|discriminate]. rewrite app_nil_r in E. cbn [flat_map length map app Nat.add].
    rewrite app_nil_r, Nat.add_0_r, Z.add_0_r, <- E. destruct p; reflexivity.
  - destruct old as [|o old]; [discriminate|]. cbn [flat_map length Nat.add]. rewrite <- app_assoc.
    rewrite step_style, E, set_nth_spec.
    replace (S (length done)) with (length (done ++ [drop_spaces s])) by (rewrite app_length; cbn; lia).
    rewrite (IH (done ++ [drop_spaces s]) old); cbn [styles font track name variation].
    + rewrite !app_length. cbn [length map]. f_equal; [lia| |].
      * f_equal. rewrite <- app_assoc. reflexivity.
      * f_equal. lia.
    + rewrite <- app_assoc. reflexivity.
    + cbn in L. lia.
Qed.

Lemma strtol_itoa v : 0 <= v < 2 ^ 32 -> to_uint (strtol (drop_spaces (itoa (to_int v)))) = v.
Proof.
  intros V. assert (D : drop_spaces (itoa (to_int v)) = itoa (to_int v)).
  { pose proof (itoa_chars (to_int v)) as C. destruct (itoa (to_int v)) as [|c l]; [reflexivity|].
    inversion C; subst. cbn [drop_spaces]. replace (c =? 32) with false by lia. reflexivity. }
  rewrite D. unfold strtol. pose proof (read_int_itoa (to_int v) [] I) as E. rewrite app_nil_r in E. rewrite E.
  cbn [fst]. unfold to_uint, to_int. destruct (v <? 2 ^ 31) eqn:A.
  - apply Z.mod_small. lia.
  - rewrite <- (Z.mod_small v (2 ^ 32)) at 2 by lia. replace (v - 2 ^ 32) with (v + (-1) * 2 ^ 32) by lia. apply Z.mod_add. lia.
Qed.

Definition body (p : preset) : list Z :=
  write_key_value txt_font (font p) ++ write_key_value txt_track (track p) ++
  flat_map (write_key_value txt_style) (styles p) ++
  write_key_value txt_name (name p) ++ write_key_value txt_variation (itoa (to_int (variation p))).
Lemma Write_body p : Write p = txt_new_preset ++ LF :: body p.
Proof. reflexivity. Qed.

Lemma read_body nb p0 p num t r fuel : preset_ok nb p0 -> length (styles p) = nb ->
  read_loop (nb + 4 + fuel) 1 0 p num (Reader t (body p0 ++ r)) =
  read_loop fuel 1 nb (trimmed p0) num (Reader (t + Z.of_nat (length (body p0))) r).
Proof.
  intros [O1 O2] L. unfold body. rewrite <- !app_assoc.
  replace (nb + 4 + fuel)%nat with (S (S (length (styles p0) + S (S fuel)))) by lia.
  rewrite step_font, step_track. cbn [font track styles name variation].
  change 0%nat with (length (@nil (list Z))) at 1. rewrite (read_styles (styles p0) [] (styles p)); [|reflexivity|lia].
  cbn [font track styles name variation app length Nat.add]. rewrite step_name, step_variation.
  cbn [font track styles name variation]. rewrite strtol_itoa by auto. unfold trimmed.
  f_equal; [lia|]. f_equal. rewrite !app_length. lia.
Qed.


Lemma body_length p : (length (styles p) + 30 <= length (body p))%nat.
Proof.
  unfold body, write_key_value. rewrite !app_length.
  assert (H : (length (styles p) <= length (flat_map (fun v => txt_style ++ [EQS] ++ escape v ++ [LF]) (styles p)))%nat).
  { induction (styles p) as [|s l IH]; [cbn; lia|]. cbn [flat_map]. rewrite !app_length. cbn [length]. lia. }
  cbn [txt_font txt_track txt_name txt_variation length] in *. lia.
Qed.

(** The presets part of a file, from the line of the next preset on. *)
Definition more (ps : list preset) (junk : list Z) : list Z := flat_map Write ps ++ txt_end ++ junk.
Definition pre_ok (pre : list Z) : Prop := pre = [] \/ exists v, pre = write_key_value txt_installed v.

Lemma stop_more n p num t ps junk : ends junk ->
  forall cs, read_loop (S n) 1 cs p num (Reader t (more ps junk)) = Got true p (num + 1) (Reader t (more ps junk)).
Proof.
  intros J cs. destruct ps as [|q ps].
  - apply stop_end. exact J.
  - unfold more. cbn [flat_map]. rewrite Write_body. rewrite <- !app_assoc. cbn [app]. rewrite <- ?app_assoc. apply stop_new.
Qed.

Lemma Read_one nb pre p0 ps junk p num t : pre_ok pre -> ends junk -> preset_ok nb p0 -> length (styles p) = nb ->
  exists t', t + 32 < t' /\
  Read p num (Reader t (pre ++ more (p0 :: ps) junk)) =
  Got true (trimmed p0) ((if t <=? 32 then -1 else num) + 1) (Reader t' (more ps junk)).
Proof.
  intros PRE J O L. set (num0 := if t <=? 32 then -1 else num).
  assert (M : forall n t, read_loop (S (nb + 4 + S n)) 0 0 p num0 (Reader t (more (p0 :: ps) junk)) =
     Got true (trimmed p0) (num0 + 1) (Reader (t + 11 + Z.of_nat (length (body p0))) (more ps junk))).
  { intros n t0. unfold more at 1. cbn [flat_map]. rewrite Write_body, <- !app_assoc. cbn [app].
    rewrite <- ?app_assoc. rewrite step_new. rewrite (read_body nb) by auto.
    apply stop_more. exact J. }
  pose proof (body_length p0) as BL. pose proof O as [O1 _].
  assert (LM : (length (body p0) + 11 <= length (more (p0 :: ps) junk))%nat).
  { unfold more. cbn [flat_map]. rewrite Write_body. repeat (rewrite app_length || cbn [length txt_new_preset]). lia. }
  destruct PRE as [-> | [v ->]].
  - exists (t + 11 + Z.of_nat (length (body p0))). split; [lia|]. unfold Read. cbn [app rest tell]. fold num0.
    replace (S (length (more (p0 :: ps) junk))) with (S (nb + 4 + S (length (more (p0 :: ps) junk) - nb - 5))) by lia.
    apply M.
  - exists (t + Z.of_nat (length (write_key_value txt_installed v)) + 11 + Z.of_nat (length (body p0))). split; [lia|].
    unfold Read. cbn [rest tell]. fold num0. rewrite app_length.
    assert (length (write_key_value txt_installed v) >= 11)%nat.
    { unfold write_key_value. rewrite !app_length. cbn. lia. }
    set (lw := length (write_key_value txt_installed v)) in *.
    replace (S (lw + length (more (p0 :: ps) junk)))%nat
      with (S (S (nb + 4 + S (lw + length (more (p0 :: ps) junk) - nb - 6))))%nat by lia.
    rewrite step_installed. apply M.
Qed.
Lemma Read_end pre junk p num t : pre_ok pre -> ends junk ->
  exists f, Read p num (Reader t (pre ++ more [] junk)) = Got false p (if t <=? 32 then -1 else num) f.
Proof.
  intros PRE J. destruct PRE as [-> | [v ->]]; unfold Read; cbn [rest tell].
  - eexists. cbn [app length]. apply stop_end. exact J.
  - eexists. rewrite app_length. rewrite (step_installed). unfold more. cbn [flat_map app].
    match goal with |- read_loop ?n _ _ _ _ _ = _ => destruct n eqn:E; [cbn in E; lia|] end.
    apply stop_end. exact J.
Qed.

Lemma trimmed_styles nb p : preset_ok nb p -> length (styles (trimmed p)) = nb.
Proof. intros [O _]. cbn. rewrite map_length. exact O. Qed.

(** Reading on from the middle of the file. *)
Lemma load_more nb start ps : forall k p num t want fuel, Forall (preset_ok nb) ps ->
  length (styles p) = nb -> 32 < t -> (length ps < fuel)%nat -> num = Z.of_nat k - 1 -> 
  forall junk, ends junk ->
  load_loop fuel start want (Z.of_nat k) p num (Reader t (more ps junk)) =
  if (Z.of_nat k <=? want) && (want <? Z.of_nat k + Z.of_nat (length ps))
  then match nth_error ps (Z.to_nat (want - Z.of_nat k)) with
       | Some q => Some (true, trimmed q, want) | None => None end
  else
    let q := last (map trimmed ps) p in
    let n := Z.of_nat k + Z.of_nat (length ps) in
    if negb (n =? 0) && (want =? -1) then Some (true, q, n - 1)
    else if n =? want then
      match Read q (-1) start with Overflow => None | Got _ p num _ => Some (true, p, num) end
    else Some (false, q, n - 1).
Proof.
  induction ps as [|p0 ps IH]; intros k p num t want fuel F L T FU N junk J.
  - destruct fuel as [|fuel]; [cbn in FU; lia|]. cbn [load_loop].
    destruct (Read_end [] junk p num t (or_introl eq_refl) J) as (f & E). cbn [app] in E. rewrite E.
    replace (t <=? 32) with false by lia. cbn [length map last]. rewrite Z.add_0_r.
    replace ((Z.of_nat k <=? want) && (want <? Z.of_nat k)) with false by lia. subst num. reflexivity.
  - destruct fuel as [|fuel]; [cbn in FU; lia|]. cbn [load_loop]. inversion F; subst.
    destruct (Read_one (length (styles p)) [] p0 ps junk p (Z.of_nat k - 1) t (or_introl eq_refl) J H1 eq_refl) as (t' & T' & E).
    cbn [app] in E. rewrite E. replace (t <=? 32) with false by lia.
    replace (Z.of_nat k - 1 + 1) with (Z.of_nat k) by lia.
    destruct (Z.of_nat k =? want) eqn:EQ.
    + replace ((Z.of_nat k <=? want) && (want <? Z.of_nat k + Z.of_nat (length (p0 :: ps)))) with true by (cbn [length]; lia).
      replace (want - Z.of_nat k) with 0 by lia. cbn. f_equal. f_equal. lia.
    + replace (Z.of_nat k + 1) with (Z.of_nat (S k)) by lia.
      rewrite (IH (S k) (trimmed p0) (Z.of_nat k) t' want fuel); auto;
        [|eapply trimmed_styles; eauto|lia|cbn in FU; lia|lia].
      cbn [length].
      replace (Z.of_nat (S k) + Z.of_nat (length ps)) with (Z.of_nat k + Z.of_nat (S (length ps))) by lia.
      replace ((Z.of_nat (S k) <=? want) && (want <? Z.of_nat k + Z.of_nat (S (length ps))))
        with ((Z.of_nat k <=? want) && (want <? Z.of_nat k + Z.of_nat (S (length ps)))) by lia.
      destruct ((Z.of_nat k <=? want) && (want <? Z.of_nat k + Z.of_nat (S (length ps)))) eqn:C.
      * replace (Z.to_nat (want - Z.of_nat k)) with (S (Z.to_nat (want - Z.of_nat (S k)))) by lia. reflexivity.
      * replace (last (map trimmed (p0 :: ps)) p) with (last (map trimmed ps) (trimmed p0)); [reflexivity|].
        clear. cbn [map]. destruct (map trimmed ps) as [|x l] eqn:E; [reflexivity|].
        change (last (x :: l) (trimmed p0) = last (x :: l) p). clear. revert x. induction l; intros; [reflexivity|]. cbn. apply IHl.
Qed.

Lemma more_length ps junk : (length ps < length (more ps junk))%nat.
Proof.
  induction ps as [|p ps IH]; unfold more in *; [cbn; lia|]. cbn [flat_map length].
  rewrite <- app_assoc, app_length. rewrite Write_body, app_length. cbn [length]. lia.
Qed.
Lemma last_map_ne (ps : list preset) p0 p : ps <> [] -> last (map trimmed ps) p = trimmed (last ps p0).
Proof.
  induction ps as [|q ps IH]; [congruence|]. intros _. destruct ps as [|q' ps]; [reflexivity|].
  change (last (map trimmed (q' :: ps)) p = trimmed (last (q' :: ps) p0)). apply IH. discriminate.
Qed.

Lemma Load_all nb pre junk p0 ps p t want :
  let all := p0 :: ps in
  pre_ok pre -> ends junk -> Forall (preset_ok nb) all -> length (styles p) = nb -> 0 <= t ->
  let n := Z.of_nat (length all) in
  let r := Load p (Reader t (pre ++ more all junk)) want in
  (0 <= want < n -> exists q, nth_error all (Z.to_nat want) = Some q /\ r = Some (true, trimmed q, want)) /\
  (want = -1 -> r = Some (true, trimmed (last all p0), n - 1)) /\
  (want = n -> r = Some (true, trimmed p0, 0)) /\
  (want < -1 \/ n < want -> exists q k, r = Some (false, q, k)).
Proof.
  intros all PRE J F L T n r. unfold all in F. inversion F as [|? ? O0 F']; subst.
  destruct (Read_one (length (styles p)) pre p0 ps junk p (-1) t PRE J O0 eq_refl) as (t' & T' & E).
  assert (N1 : (if t <=? 32 then -1 else -1) + 1 = 0) by (destruct (t <=? 32); reflexivity). rewrite N1 in E.
  assert (R : r = if 0 =? want then Some (true, trimmed p0, 0) else
     load_loop (S (length (pre ++ more all junk))) (Reader t (pre ++ more all junk)) want (Z.of_nat 1) (trimmed p0) 0 (Reader t' (more ps junk))).
  { unfold r, Load. cbn [rest load_loop]. unfold all. rewrite E. reflexivity. }
  assert (LL : (length ps < S (length (pre ++ more all junk)))%nat).
  { rewrite app_length. pose proof (more_length all junk). unfold all in *. cbn [length] in *. lia. }
  rewrite (load_more (length (styles p)) _ ps 1 (trimmed p0) 0 t' want _ F') in R;
    [|eapply trimmed_styles; eauto|lia|exact LL|lia|exact J].
  assert (NN : n = Z.of_nat 1 + Z.of_nat (length ps)) by (unfold n, all; cbn [length]; lia). rewrite <- NN in R.
  split; [|split; [|split]].
  - intros W. rewrite R. destruct (0 =? want) eqn:E0.
    + exists p0. replace (Z.to_nat want) with 0%nat by lia. replace want with 0 by lia. split; reflexivity.
    + replace ((Z.of_nat 1 <=? want) && (want <? n)) with true by lia.
      destruct (nth_error ps (Z.to_nat (want - Z.of_nat 1))) as [q|] eqn:Q.
      * exists q. split; [|reflexivity]. unfold all. replace (Z.to_nat want) with (S (Z.to_nat (want - Z.of_nat 1))) by lia. exact Q.
      * apply nth_error_None in Q. lia.
  - intros W. rewrite R. replace (0 =? want) with false by lia. replace ((Z.of_nat 1 <=? want) && (want <? n)) with false by lia.
    cbv zeta. replace (negb (n =? 0) && (want =? -1)) with true by lia. f_equal. f_equal. f_equal.
    unfold all. destruct ps as [|q ps]; [reflexivity|]. apply (last_map_ne (q :: ps)). discriminate.
  - intros W. rewrite R. replace (0 =? want) with false by lia. replace ((Z.of_nat 1 <=? want) && (want <? n)) with false by lia.
    cbv zeta. replace (negb (n =? 0) && (want =? -1)) with false by lia. replace (n =? want) with true by lia.
    unfold all.
    assert (LS : length (styles (last (map trimmed ps) (trimmed p0))) = length (styles p)).
    { destruct ps as [|q ps']; [eapply trimmed_styles; eauto|].
      rewrite (last_map_ne (q :: ps') p0) by discriminate. eapply trimmed_styles.
      rewrite Forall_forall in F'. apply F'. clear. revert q. induction ps' as [|a l IH]; intros q; [left; reflexivity|].
      right. apply (IH a). }
    destruct (Read_one _ pre p0 ps junk _ (-1) t PRE J O0 LS) as (t2 & _ & E2). rewrite E2, N1. reflexivity.
  - intros W. rewrite R. replace (0 =? want) with false by lia. replace ((Z.of_nat 1 <=? want) && (want <? n)) with false by lia.
    cbv zeta. replace (negb (n =? 0) && (want =? -1)) with false by lia. replace (n =? want) with false by lia. eauto.
Qed.

(** Reading everything *)
Lemma read_all_more nb ps : forall k p t fuel junk, Forall (preset_ok nb) ps -> length (styles p) = nb -> 32 < t ->
  (length ps < fuel)%nat -> ends junk ->
  read_all fuel p (Z.of_nat k - 1) (Reader t (more ps junk)) =
  Some (combine (map trimmed ps) (map Z.of_nat (seq k (length ps)))).
Proof.
  induction ps as [|p0 ps IH]; intros k p t fuel junk F L T FU J; (destruct fuel as [|fuel]; [cbn in FU; lia|]); cbn [read_all].
  - destruct (Read_end [] junk p (Z.of_nat k - 1) t (or_introl eq_refl) J) as (f & E). cbn [app] in E. rewrite E. reflexivity.
  - inversion F; subst.
    destruct (Read_one (length (styles p)) [] p0 ps junk p (Z.of_nat k - 1) t (or_introl eq_refl) J H1 eq_refl) as (t' & T' & E).
    cbn [app] in E. rewrite E. replace (t <=? 32) with false by lia. replace (Z.of_nat k - 1 + 1) with (Z.of_nat (S k) - 1) by lia.
    rewrite IH; auto; [|eapply trimmed_styles; eauto|lia|cbn in FU; lia].
    cbn [length map seq combine]. f_equal. f_equal. f_equal. lia.
Qed.
Lemma read_all_file nb pre ps p t junk : pre_ok pre -> ends junk -> Forall (preset_ok nb) ps -> length (styles p) = nb -> 0 <= t ->
  read_all (S (length ps)) p (-1) (Reader t (pre ++ more ps junk)) = Some (numbered (map trimmed ps)).
Proof.
  intros PRE J F L T. unfold numbered. rewrite map_length.
  assert (N1 : (if t <=? 32 then -1 else -1) = -1) by (destruct (t <=? 32); reflexivity).
  destruct ps as [|p0 ps].
  - cbn [read_all length]. destruct (Read_end pre junk p (-1) t PRE J) as (f & E). rewrite E. reflexivity.
  - inversion F; subst. cbn [length]. remember (S (length ps)) as fuel eqn:FU. cbn [read_all]. subst fuel.
    destruct (Read_one (length (styles p)) pre p0 ps junk p (-1) t PRE J H1 eq_refl) as (t' & T' & E).
    rewrite E, N1. change (-1 + 1) with (Z.of_nat 1 - 1).
    rewrite (read_all_more (length (styles p))); auto; try (cbn; lia); try lia; try (eapply trimmed_styles; eauto).
Qed.

(** Saving *)
Fixpoint without (k origin : Z) (ps : list preset) : list preset :=
  match ps with [] => [] | q :: ps => if k =? origin then without (k + 1) origin ps else trimmed q :: without (k + 1) origin ps end.
Fixpoint go (cur : preset) (origin pos opos k : Z) (ps : list preset) : list preset :=
  match ps with
  | [] => []
  | q :: ps =>
    if k =? origin then go cur origin pos opos (k + 1) ps
    else trimmed q :: (if pos =? opos + 1 then cur :: go cur origin pos (opos + 2) (k + 1) ps
                       else go cur origin pos (opos + 1) (k + 1) ps)
  end.
Lemma go_spec cur origin pos ps : forall opos k,
  go cur origin pos opos k ps =
  let r := without k origin ps in
  if pos <=? opos then r else insert_at (pos - opos) cur r.
Proof.
  induction ps as [|q ps IH]; intros opos k; cbn [go without].
  - cbv zeta. unfold insert_at. cbn [length]. dif; try reflexivity. lia.
  - destruct (k =? origin); [apply IH|]. cbv zeta. destruct (pos =? opos + 1) eqn:A.
    + rewrite IH. cbv zeta. replace (pos <=? opos + 2) with true by lia. replace (pos <=? opos) with false by lia.
      replace (pos - opos) with 1 by lia. unfold insert_at. cbn [length].
      replace ((0 <=? 1) && (1 <=? Z.of_nat (S (length (without (k + 1) origin ps))))) with true by lia.
      reflexivity.
    + rewrite IH. cbv zeta. destruct (pos <=? opos) eqn:B; [replace (pos <=? opos + 1) with true by lia; reflexivity|].
      replace (pos <=? opos + 1) with false by lia. unfold insert_at. cbn [length].
      replace ((0 <=? pos - opos) && (pos - opos <=? Z.of_nat (S (length (without (k + 1) origin ps)))))
        with ((0 <=? pos - (opos + 1)) && (pos - (opos + 1) <=? Z.of_nat (length (without (k + 1) origin ps)))) by lia.
      destruct ((0 <=? pos - (opos + 1)) && _) eqn:C; [|reflexivity].
      replace (Z.to_nat (pos - opos)) with (S (Z.to_nat (pos - (opos + 1)))) by lia. reflexivity.
Qed.
Lemma without_spec ps : forall k origin, 0 <= k ->
  without k origin ps = if origin <? k then map trimmed ps else remove_at (origin - k) (map trimmed ps).
Proof.
  induction ps as [|q ps IH]; intros k origin K; cbn [without map].
  - unfold remove_at. dif; try reflexivity. destruct (Z.to_nat (origin - k)); reflexivity.
  - destruct (k =? origin) eqn:A.
    + rewrite IH by lia. replace (origin <? k + 1) with true by lia. replace (origin <? k) with false by lia.
      unfold remove_at. replace (origin - k) with 0 by lia. reflexivity.
    + rewrite IH by lia. unfold remove_at. destruct (origin <? k) eqn:B; [replace (origin <? k + 1) with true by lia; reflexivity|].
      replace (origin <? k + 1) with false by lia. replace (origin - k <? 0) with false by lia. replace (origin - (k + 1) <? 0) with false by lia.
      replace (Z.to_nat (origin - k)) with (S (Z.to_nat (origin - (k + 1)))) by lia. reflexivity.
Qed.

Lemma save_more nb cur origin pos ps : forall k opos tmp t fuel junk, Forall (preset_ok nb) ps -> length (styles tmp) = nb ->
  32 < t -> (length ps < fuel)%nat -> ends junk ->
  save_loop fuel cur origin pos opos tmp (Z.of_nat k - 1) (Reader t (more ps junk)) =
  Some (flat_map Write (go cur origin pos opos (Z.of_nat k) ps)).
Proof.
  induction ps as [|p0 ps IH]; intros k opos p t fuel junk F L T FU J; (destruct fuel as [|fuel]; [cbn in FU; lia|]); cbn [save_loop go].
  - destruct (Read_end [] junk p (Z.of_nat k - 1) t (or_introl eq_refl) J) as (f & E). cbn [app] in E. rewrite E. reflexivity.
  - inversion F; subst.
    destruct (Read_one (length (styles p)) [] p0 ps junk p (Z.of_nat k - 1) t (or_introl eq_refl) J H1 eq_refl) as (t' & T' & E).
    cbn [app] in E. rewrite E. replace (t <=? 32) with false by lia. replace (Z.of_nat k - 1 + 1) with (Z.of_nat (S k) - 1) by lia.
    assert (IH' : forall opos, save_loop fuel cur origin pos opos (trimmed p0) (Z.of_nat (S k) - 1) (Reader t' (more ps junk)) =
       Some (flat_map Write (go cur origin pos opos (Z.of_nat k + 1) ps))).
    { intros o. rewrite IH; auto; [|eapply trimmed_styles; eauto|lia|cbn in FU; lia]. do 2 f_equal. f_equal. lia. }
    replace (Z.of_nat (S k) - 1 =? origin) with (Z.of_nat k =? origin) by lia.
    destruct (Z.of_nat k =? origin); cbn [negb]; [apply IH'|].
    destruct (pos =? opos + 1); rewrite IH'; cbn [flat_map app]; [|reflexivity].
    f_equal. f_equal. f_equal. f_equal. f_equal. lia.
Qed.

Lemma SaveAt_file nb install pre cur origin pos ps t junk : pre_ok pre -> ends junk -> Forall (preset_ok nb) ps -> 0 <= t ->
  SaveAt nb install cur origin pos (Reader t (pre ++ more ps junk)) =
  Some (presets_text install (insert_at pos cur (remove_at origin (map trimmed ps)))).
Proof.
  intros PRE J F T. unfold SaveAt. cbn [rest].
  set (opos := if pos =? 0 then 1 else 0).
  assert (N1 : (if t <=? 32 then -1 else -1) = -1) by (destruct (t <=? 32); reflexivity).
  assert (E : save_loop (S (S (length (pre ++ more ps junk)))) cur origin pos opos (empty_preset nb) (-1) (Reader t (pre ++ more ps junk)) =
    Some (flat_map Write (go cur origin pos opos 0 ps))).
  { assert (LL : (length ps < length (pre ++ more ps junk))%nat) by (rewrite app_length; pose proof (more_length ps junk); lia).
    assert (FU : (length ps < S (length (pre ++ more ps junk)))%nat) by lia.
    generalize dependent (S (length (pre ++ more ps junk))). intros fuel FU.
    destruct ps as [|p0 ps].
    - cbn [save_loop go]. destruct (Read_end pre junk (empty_preset nb) (-1) t PRE J) as (f & E). rewrite E. reflexivity.
    - inversion F; subst. cbn [save_loop go].
      assert (LE : length (styles (empty_preset nb)) = nb) by (cbn; apply repeat_length).
      destruct (Read_one nb pre p0 ps junk (empty_preset nb) (-1) t PRE J H1 LE) as (t' & T' & E).
      rewrite E, N1. change (-1 + 1) with (Z.of_nat 1 - 1).
      assert (IH' : forall o, save_loop fuel cur origin pos o (trimmed p0) (Z.of_nat 1 - 1) (Reader t' (more ps junk)) =
         Some (flat_map Write (go cur origin pos o 1 ps))).
      { intros o. rewrite (save_more nb); auto; [eapply trimmed_styles; eauto|lia|cbn [length] in *; lia]. }
      change (Z.of_nat 1 - 1 =? origin) with (0 =? origin).
      destruct (0 =? origin); cbn [negb]; [apply IH'|].
      destruct (pos =? opos + 1); rewrite IH'; cbn [flat_map app]; [|reflexivity].
      do 4 f_equal. f_equal. lia. }
  rewrite E. f_equal. unfold presets_text. f_equal. rewrite go_spec, without_spec by lia. cbv zeta.
  rewrite Z.sub_0_r.
  replace (if origin <? 0 then map trimmed ps else remove_at origin (map trimmed ps)) with (remove_at origin (map trimmed ps))
    by (unfold remove_at; destruct (origin <? 0); reflexivity).
  set (R := remove_at origin (map trimmed ps)). unfold opos.
  destruct (pos =? 0) eqn:P0.
  - replace pos with 0 by lia. cbn [Z.leb Z.compare]. unfold insert_at. cbn [Z.leb Z.compare andb].
    replace (0 <=? Z.of_nat (length R)) with true by lia. cbn [Z.to_nat firstn skipn app flat_map].
    rewrite <- app_assoc. reflexivity.
  - destruct (pos <=? 0) eqn:P1.
    + unfold insert_at. replace (0 <=? pos) with false by lia. reflexivity.
    + rewrite Z.sub_0_r. reflexivity.
Qed.

(** ** Editing sessions *)
Lemma drop_spaces_idem s : drop_spaces (drop_spaces s) = drop_spaces s.
Proof. induction s as [|c s IH]; [reflexivity|]. cbn [drop_spaces]. destruct (_ : bool) eqn:E; [exact IH|]. cbn [drop_spaces]. rewrite E. reflexivity. Qed.
Lemma set_nth_eq n : forall x l, set_nth n x l = if (n <? length l)%nat then Some (firstn n l ++ x :: skipn (S n) l) else None.
Proof.
  induction n as [|n IH]; intros x [|y l]; cbn [set_nth length]; try reflexivity.
  rewrite IH. change (S n <? S (length l))%nat with (n <? length l)%nat. destruct (n <? length l)%nat; reflexivity.
Qed.
Lemma text_split install ps : presets_text install ps = write_key_value txt_installed install ++ more ps [LF].
Proof. unfold presets_text, more. reflexivity. Qed.
Lemma ends_LF : ends [LF]. Proof. reflexivity. Qed.
Lemma pre_installed install : pre_ok (write_key_value txt_installed install).
Proof. right. eauto. Qed.
Lemma map_clean ps : Forall clean ps -> map trimmed ps = ps.
Proof. induction 1; [reflexivity|]. cbn [map]. rewrite H, IHForall. reflexivity. Qed.
Lemma Forall_remove {A} (P : A -> Prop) n l : Forall P l -> Forall P (remove_at n l).
Proof.
  intros F. unfold remove_at. destruct (n <? 0); [exact F|]. apply Forall_app. split.
  - rewrite <- (firstn_skipn (Z.to_nat n) l) in F. apply Forall_app in F. tauto.
  - rewrite <- (firstn_skipn (S (Z.to_nat n)) l) in F. apply Forall_app in F. tauto.
Qed.
Lemma Forall_insert {A} (P : A -> Prop) n x l : P x -> Forall P l -> Forall P (insert_at n x l).
Proof.
  intros H F. unfold insert_at. destruct (_ && _); [|exact F].
  rewrite <- (firstn_skipn (Z.to_nat n) l) in F. apply Forall_app in F. apply Forall_app. split; [tauto|]. constructor; tauto.
Qed.
Definition good nb p := preset_ok nb p /\ clean p.
Lemma good_map nb ps : Forall (good nb) ps -> map trimmed ps = ps.
Proof. intros F. apply map_clean. eapply Forall_impl; [|exact F]. intros ? (_ & ?); assumption. Qed.
Lemma good_ok nb ps : Forall (good nb) ps -> Forall (preset_ok nb) ps.
Proof. intros F. eapply Forall_impl; [|exact F]. intros ? (? & _); assumption. Qed.

Definition same install (s : session) (e : editor) := file s = presets_text install (plist e) /\ cur s = inuse e /\ num s = number e.
Definition einv nb (e : editor) := Forall (good nb) (plist e) /\ good nb (inuse e).

Lemma saveAt_same nb install t s e p origin pos : 0 <= t -> same install s e -> einv nb e -> good nb p ->
  exists s', saveAt nb install t (Session (file s) p origin) pos = Some s' /\ same install s' (store e p origin pos) /\ einv nb (store e p origin pos).
Proof.
  intros T (S1 & S2 & S3) (I1 & I2) G. unfold saveAt. cbn [PresetModel.cur num file].
  rewrite S1, text_split, (SaveAt_file nb); auto using pre_installed, ends_LF; [|apply good_ok, I1].
  rewrite (good_map nb _ I1). eexists. split; [reflexivity|]. split; [repeat split|].
  split; cbn [plist inuse store]; [|exact G]. apply Forall_insert; [exact G|]. apply Forall_remove. exact I1.
Qed.

Lemma Load_none nb install t want : 0 <= t ->
  let r := Load (empty_preset nb) (Reader t (presets_text install [])) want in
  if want =? 0 then r = Some (true, empty_preset nb, -1) else exists q k, r = Some (false, q, k).
Proof.
  intros T r. unfold r, Load. rewrite text_split. cbn [rest load_loop].
  destruct (Read_end (write_key_value txt_installed install) [LF] (empty_preset nb) (-1) t (pre_installed _) ends_LF) as (f & E).
  rewrite E.
  assert (N1 : (if t <=? 32 then -1 else -1) = -1) by (destruct (t <=? 32); reflexivity).
  change (negb (0 =? 0)) with false. cbn [andb]. rewrite (Z.eqb_sym 0 want). destruct (want =? 0); [rewrite E, ?N1; reflexivity|eauto].
Qed.

Lemma good_styles nb p : good nb p -> length (styles p) = nb. Proof. intros ((? & _) & _). assumption. Qed.
Lemma clean_parts p : clean p <-> drop_spaces (font p) = font p /\ drop_spaces (track p) = track p /\
  map drop_spaces (styles p) = styles p /\ drop_spaces (name p) = name p.
Proof. destruct p; unfold clean, trimmed; cbn. split; [intros E; inversion E; rewrite !H0, !H1, !H2, !H3; auto|]. intros (-> & -> & -> & ->). reflexivity. Qed.

Lemma choose_good nb rom l k p n : Forall (good nb) l -> Forall (good nb) rom -> choose nb rom l k = Some (p, n) -> good nb p.
Proof.
  intros L R. unfold choose.
  assert (EM : good nb (empty_preset nb)).
  { split; [split; [apply repeat_length|cbn; lia]|]. apply clean_parts. repeat split. cbn. clear. induction nb; cbn; congruence. }
  destruct (_ && _).
  { destruct (nth_error l (Z.to_nat k)) eqn:E; [|discriminate]. intros X; inversion X; subst. apply nth_error_In in E. rewrite Forall_forall in L; auto. }
  destruct (_ && _) eqn:E1.
  { intros X; inversion X; subst. destruct l as [|a l]; [cbn in E1; lia|]. clear -L EM. revert a L. induction l as [|b l IH]; intros a L; inversion L; subst; [assumption|].
    change (good nb (last (b :: l) (empty_preset nb))). apply IH. assumption. }
  destruct (k =? Z.of_nat (length l)).
  { destruct l; intros X; inversion X; subst; [exact EM|]. inversion L; assumption. }
  unfold SetRom. destruct ((0 <? Z.of_nat (length rom)) && (0 <=? Z.rem (Z.of_nat (length rom) + k) (Z.of_nat (length rom)))); [|discriminate]. destruct (nth_error rom _) eqn:E; [|discriminate].
  intros X; inversion X; subst. apply nth_error_In in E. rewrite Forall_forall in R; auto.
Qed.

Lemma last_any {A} (l : list A) d d' : l <> [] -> last l d = last l d'.
Proof. induction l as [|a l IH]; [congruence|]. intros _. destruct l; [reflexivity|]. apply IH. discriminate. Qed.
Lemma select_same nb install t rom l k : 0 <= t -> Forall (good nb) l ->
  match Load (empty_preset nb) (Reader t (presets_text install l)) k with
  | None => None
  | Some (true, p, n) => Some (p, n)
  | Some (false, _, _) => SetRom rom k
  end = choose nb rom l k.
Proof.
  intros T L. destruct l as [|p0 ps].
  - pose proof (Load_none nb install t k T) as H. unfold choose. cbv zeta in *. cbn [length] in *. change (Z.of_nat 0) with 0.
    replace ((0 <=? k) && (k <? 0)) with false by lia. replace ((k =? -1) && (0 <? 0)) with false by lia.
    destruct (k =? 0); [rewrite H; reflexivity|]. destruct H as (q & m & ->). reflexivity.
  - rewrite text_split. set (all := p0 :: ps) in *.
    destruct (Load_all nb (write_key_value txt_installed install) [LF] p0 ps (empty_preset nb) t k (pre_installed _) ends_LF (good_ok _ _ L)
      (repeat_length _ _) T) as (A & B & C & D).
    fold all in A, B, C, D. cbv zeta in A, B, C, D.
    assert (G0 : trimmed p0 = p0) by (inversion L as [|? ? (_ & G) _]; exact G).
    unfold choose. cbv zeta. remember (Z.of_nat (length all)) as n eqn:N.
    assert (1 <= n) by (subst n; unfold all; cbn [length]; lia).
    destruct ((0 <=? k) && (k <? n)) eqn:E1.
    { destruct A as (q & Q1 & Q2); [lia|]. rewrite Q2, Q1. f_equal. f_equal.
      apply nth_error_In in Q1. rewrite Forall_forall in L. apply L in Q1. apply Q1. }
    destruct ((k =? -1) && (0 <? n)) eqn:E2.
    { rewrite B by lia. f_equal. f_equal.
      assert (LA : last all (empty_preset nb) = last all p0) by (apply last_any; discriminate).
      rewrite LA. assert (IN : In (last all p0) all).
      { unfold all. clear. revert p0. cut (forall a p0, In (last (a :: ps) p0) (a :: ps)); [auto|]. induction ps as [|b l IH]; intros a p0; [left; reflexivity|]. right. apply (IH b). }
      rewrite Forall_forall in L. apply L in IN. apply IN. }
    destruct (k =? n) eqn:E3; [rewrite C by lia; rewrite G0; reflexivity|].
    destruct D as (q & m & ->); [lia|]. reflexivity.
Qed.

Lemma edit_same nb install t rom s a e : 0 <= t -> Forall (good nb) rom -> same install s a -> einv nb a -> edit_ok e ->
  match edit_list nb rom a e with
  | Some a' => exists s', do_edit nb install t rom s e = Some s' /\ same install s' a' /\ einv nb a'
  | None => do_edit nb install t rom s e = None
  end.
Proof.
  intros T R SA IN OK. pose proof SA as (S1 & S2 & S3). pose proof IN as (I1 & I2).
  pose proof I2 as ((L1 & V1) & CL). apply clean_parts in CL. destruct CL as (C1 & C2 & C3 & C4).
  assert (K : forall p, good nb p -> exists s', saveAt nb install t (Session (file s) p (num s)) (num s) = Some s' /\
     same install s' (store a p (number a) (number a)) /\ einv nb (store a p (number a) (number a))).
  { intros p G. rewrite S3. apply saveAt_same; auto. }
  destruct e; cbn [edit_list do_edit edit_ok] in *.
  - pose proof (select_same nb install t rom (plist a) k T I1) as H. rewrite <- S1 in H.
    destruct (choose nb rom (plist a) k) as [[p n]|] eqn:E.
    + destruct (Load _ _ _) as [[[[|] q] m]|]; [| |discriminate].
      * inversion H; subst. eexists. split; [reflexivity|]. split; [repeat split; assumption|]. split; [assumption|].
        exact (choose_good _ rom (plist a) k _ _ I1 R E).
      * rewrite H. eexists. split; [reflexivity|]. split; [repeat split; assumption|]. split; [assumption|].
        exact (choose_good _ rom (plist a) k _ _ I1 R E).
    + destruct (Load _ _ _) as [[[[|] q] m]|]; [discriminate| |reflexivity]. rewrite H. reflexivity.
  - rewrite S2. apply K. split; [split; assumption|]. apply clean_parts. auto.
  - rewrite S2. apply K. split; [split; assumption|]. apply clean_parts. auto.
  - rewrite S2. apply K. split; [split; assumption|]. apply clean_parts. auto.
  - rewrite S2, set_nth_eq. destruct (blade <? length (styles (inuse a)))%nat eqn:B; [|reflexivity]. apply K.
    split; [split; [|assumption]|apply clean_parts; cbn [font track styles name]; split; [auto|split; [auto|split; [|auto]]]].
    + cbn [styles]. rewrite app_length, firstn_length. cbn [length]. rewrite skipn_length. apply Nat.ltb_lt in B. lia.
    + rewrite map_app. cbn [map]. rewrite <- firstn_map, <- skipn_map, C3, OK. reflexivity.
  - rewrite S2. apply K. split; [split; assumption|]. apply clean_parts. auto.
  - destruct s as [f p n]. cbn [file cur num] in *. subst p n. apply (saveAt_same nb install t (Session f (inuse a) (number a)) a); auto.
  - rewrite S2. apply (saveAt_same nb install t s a); auto.
  - destruct s as [f p n]. cbn [file cur num] in *. subst p n. apply (saveAt_same nb install t (Session f (inuse a) (number a)) a); auto.
Qed.

Lemma edits_same nb install t rom es : 0 <= t -> Forall (good nb) rom -> Forall edit_ok es -> forall s a, same install s a -> einv nb a ->
  match edit_all nb rom a es with
  | Some a' => exists s', do_edits nb install t rom s es = Some s' /\ same install s' a'
  | None => do_edits nb install t rom s es = None
  end.
Proof.
  intros T R. induction 1 as [|e es E _ IH]; intros s a SA IN; cbn [edit_all do_edits]; [eauto|].
  pose proof (edit_same nb install t rom s a e T R SA IN E) as H.
  destruct (edit_list nb rom a e) as [a'|]; [|rewrite H; reflexivity].
  destruct H as (s' & -> & SA' & IN'). apply IH; assumption.
Qed.
