(** Proofs about paths and directory lists. *)
From Coq Require Import ZArith List Bool PeanoNat Lia ZifyBool ZifyNat.
From Verif Require Import StrModel PathModel PathSpec.
Import ListNotations.
Open Scope Z_scope.

Lemma cstr_ok s r : ~ In 0 s -> cstr (s ++ 0 :: r) = s.
Proof. induction s as [|c s IH]; cbn; intros N; [reflexivity|]. destruct (Z.eqb_spec c 0) as [->|_]; [exfalso; apply N; left; reflexivity|]. f_equal. apply IH. intros I. apply N. right. exact I. Qed.
Lemma strlen_ok s r : ~ In 0 s -> strlen (s ++ 0 :: r) = length s.
Proof. intros N. unfold strlen. rewrite cstr_ok by exact N. reflexivity. Qed.
Lemma firstn_here {A} (a b : list A) : firstn (length a) (a ++ b) = a.
Proof. rewrite firstn_app, Nat.sub_diag, firstn_all. cbn. apply app_nil_r. Qed.
Lemma skipn_here {A} (a b : list A) n : skipn (length a + n) (a ++ b) = skipn n b.
Proof. rewrite skipn_app, skipn_all2 by lia. cbn. f_equal. lia. Qed.
Lemma poke_ok a x b v : poke (a ++ x :: b) (length a) v = Some (a ++ v :: b).
Proof.
  unfold poke. rewrite app_length. cbn [length]. destruct (Nat.ltb_spec (length a) (length a + S (length b))); [|lia]. rewrite firstn_here. f_equal. f_equal. f_equal. replace (S (length a)) with (length a + 1)%nat by lia. rewrite skipn_here. reflexivity.
Qed.
Lemma strcat_ok s r t : ~ In 0 s -> (length s + length t + 1 <= length (s ++ 0%Z :: r))%nat -> exists r', strcat (s ++ 0 :: r) t = Some ((s ++ t) ++ 0 :: r') /\ length ((s ++ t) ++ 0 :: r') = length (s ++ 0 :: r).
Proof.
  intros N L. unfold strcat, paste. rewrite strlen_ok by exact N. destruct (Nat.leb_spec (length s + length t + 1) (length (s ++ 0 :: r))); [|lia].
  rewrite firstn_here. eexists. split; [rewrite <- app_assoc; reflexivity|]. rewrite !app_length in *. cbn [length] in *. rewrite skipn_length, app_length. cbn [length]. lia.
Qed.
Lemma last_nth (s : str) r : s <> [] -> nth (length s - 1) (s ++ r) 0 = last s 0.
Proof. intros N. destruct (exists_last N) as (a & x & ->). rewrite last_last, <- app_assoc, app_length. cbn. rewrite app_nth2 by lia. replace (_ - _)%nat with O by lia. reflexivity. Qed.
Lemma slash_ok s r : ~ In 0 s -> (length s + 2 <= length (s ++ 0%Z :: r))%nat ->
  exists r', slash (s ++ 0 :: r) = Some (in_dir s [] ++ 0 :: r') /\ length (in_dir s [] ++ 0 :: r') = length (s ++ 0 :: r).
Proof.
  intros N L. unfold slash. rewrite strlen_ok by exact N. destruct s as [|c s]; [exists r; split; reflexivity|]. remember (c :: s) as w eqn:W. assert (NW : w <> []) by (subst; discriminate).
  assert (E : (length w =? 0)%nat = false) by (subst w; reflexivity). rewrite E. cbn [negb andb]. rewrite last_nth by exact NW. assert (ID : in_dir w [] = if last w 0 =? 47 then w ++ [] else w ++ [47] ++ []) by (rewrite W; reflexivity). rewrite ID. clear W. destruct (Z.eqb_spec (last w 0) 47) as [Q|Q]; cbn [negb].
  - exists r. rewrite app_nil_r. split; reflexivity.
  - cbn [app]. destruct (strcat_ok w r [47] N) as (r' & A & B); [cbn [length]; lia|]. exists r'. rewrite A. split; [reflexivity|exact B].
Qed.
Lemma in_dir_nil s name : in_dir s name = in_dir s [] ++ name.
Proof. unfold in_dir. destruct s; [reflexivity|]. destruct (_ =? 47); rewrite <- !app_assoc; reflexivity. Qed.
Lemma in_dir_no0 s : ~ In 0 s -> ~ In 0 (in_dir s []).
Proof. intros N. unfold in_dir. destruct s; [exact N|]. destruct (_ =? 47); [rewrite app_nil_r; exact N|]. intros I; apply in_app_or in I. destruct I as [I|[I|[]]]; [exact (N I)|discriminate]. Qed.
Lemma append_ok s r name : ~ In 0 s -> (length (in_dir s name) + 1 <= length (s ++ 0%Z :: r))%nat ->
  exists r', append (s ++ 0 :: r) name = Some (in_dir s name ++ 0 :: r') /\ length (in_dir s name ++ 0 :: r') = length (s ++ 0 :: r).
Proof.
  intros N L. rewrite in_dir_nil, app_length in L. unfold append. destruct (Nat.le_gt_cases (length s + 2) (length (s ++ 0 :: r))) as [Q|Q].
  - destruct (slash_ok s r N Q) as (r1 & A & B). rewrite A. destruct (strcat_ok (in_dir s []) r1 name (in_dir_no0 s N)) as (r2 & C & D); [lia|]. exists r2. rewrite C, (in_dir_nil s name). split; [reflexivity|]. rewrite D. exact B.
  - (* the buffer is full: nothing is added *)
    assert (E : in_dir s [] = s). { unfold in_dir in *. destruct s as [|c s]; [reflexivity|]. destruct (last (c :: s) 0 =? 47); [apply app_nil_r|]. exfalso. change ((c :: s) ++ [47] ++ []) with ((c :: s) ++ [47]) in L. rewrite !app_length in *. cbn [length] in *. lia. }
    assert (SL : slash (s ++ 0 :: r) = Some (s ++ 0 :: r)).
    { unfold slash. rewrite strlen_ok by exact N. destruct s as [|c s]; [reflexivity|]. rewrite last_nth by discriminate. unfold in_dir in E. destruct (last (c :: s) 0 =? 47); [rewrite andb_false_r; reflexivity|]. exfalso. apply (f_equal (@length Z)) in E. rewrite app_length in E. cbn in E. lia. }
    rewrite SL. destruct (strcat_ok s r name N) as (r2 & C & D); [rewrite E in L; lia|]. exists r2. rewrite C, (in_dir_nil s name), E. split; [reflexivity|exact D].
Qed.
Lemma strrchr_none s : ~ In 47 s -> strrchr s = None.
Proof. induction s as [|c s IH]; cbn; intros N; [reflexivity|]. rewrite IH by (intros I; apply N; right; exact I). destruct (Z.eqb_spec c 47) as [->|_]; [exfalso; apply N; left; reflexivity|reflexivity]. Qed.
Lemma strrchr_ok d n : ~ In 47 n -> strrchr (d ++ 47 :: n) = Some (length d).
Proof. intros N. induction d as [|c d IH]; cbn; [rewrite strrchr_none by exact N; reflexivity|]. rewrite IH. reflexivity. Qed.
Definition rootlike (d : str) : bool := match d with [] => true | [c] => c =? 47 | _ => false end.
Lemma dirname_ok d n r : ~ In 0 d -> ~ In 47 n -> ~ In 0 n -> dirname ((d ++ 47 :: n) ++ 0 :: r) = Some (d ++ 0 :: n ++ 0 :: r, negb (rootlike d)).
Proof.
  intros D N N0. unfold dirname. rewrite cstr_ok by (intros I; apply in_app_or in I; destruct I as [I|[I|I]]; [apply D; exact I|discriminate|apply N0; exact I]). rewrite strrchr_ok by exact N. rewrite <- app_assoc. cbn [app]. rewrite poke_ok. unfold is_root. rewrite cstr_ok by exact D. reflexivity.
Qed.
Lemma undo_ok d n r : ~ In 0 d -> undo_dirname (d ++ 0 :: n ++ 0 :: r) = Some ((d ++ 47 :: n) ++ 0 :: r).
Proof. intros D. unfold undo_dirname. rewrite strlen_ok by exact D. rewrite poke_ok, <- app_assoc. reflexivity. Qed.
Lemma path_snoc cs c : cs <> [] -> path (cs ++ [c]) = path cs ++ 47 :: c.
Proof. induction cs as [|a cs IH]; intros N; [contradiction|]. destruct cs as [|b cs]; [reflexivity|]. change (path ((a :: b :: cs) ++ [c])) with (a ++ [47] ++ path ((b :: cs) ++ [c])). rewrite IH by discriminate. cbn [path]. rewrite <- !app_assoc. reflexivity. Qed.
Lemma path_no0 cs : Forall component cs -> ~ In 0 (path cs).
Proof.
  induction cs as [|c cs IH]; intros F; [intros []|]. inversion F as [|? ? (F1 & F2 & F3) F4]; subst. specialize (IH F4). destruct cs as [|b cs]; [exact F3|]. change (path (c :: b :: cs)) with (c ++ [47] ++ path (b :: cs)).
  intros I. apply in_app_or in I. destruct I as [I|[I|I]]; [exact (F3 I)|discriminate|exact (IH I)].
Qed.
Lemma path_not_root cs : Forall component cs -> cs <> [] -> rootlike (path cs) = false.
Proof.
  intros F N. destruct cs as [|c cs]; [contradiction|]. inversion F as [|? ? (F1 & F2 & F3) F4]; subst. destruct c as [|x c]; [contradiction|]. assert (X : x <> 47) by (intros ->; apply F2; left; reflexivity).
  destruct cs as [|b cs]; cbn; [destruct c; [lia|reflexivity]|]. destruct c; reflexivity.
Qed.
Lemma ways_snoc cs c : ways (cs ++ [c]) = ways cs ++ [cs ++ [c]].
Proof.
  unfold ways. rewrite app_length. cbn [length]. rewrite Nat.add_1_r, seq_S, map_app. cbn [map]. f_equal.
  - apply map_ext_in. intros n I. apply in_seq in I. rewrite firstn_app. replace (n - length cs)%nat with O by lia. cbn. apply app_nil_r.
  - f_equal. rewrite firstn_all2; [reflexivity|]. rewrite app_length. cbn. lia.
Qed.
Lemma mkdir_ok cs : forall r fuel, Forall component cs -> cs <> [] -> (length cs <= fuel)%nat -> mkdir fuel (path cs ++ 0 :: r) = Some (path cs ++ 0 :: r, map path (ways cs)).
Proof.
  induction cs as [|c cs IH] using rev_ind; intros r fuel F N L; [contradiction|]. apply Forall_app in F. destruct F as (F1 & F2). inversion F2 as [|? ? (C1 & C2 & C3) _]; subst. rewrite app_length in L. cbn in L. destruct fuel as [|fuel]; [lia|]. cbn [mkdir].
  destruct cs as [|a cs'] eqn:E.
  - cbn [app path]. unfold dirname. rewrite cstr_ok by exact C3. rewrite strrchr_none by exact C2. rewrite cstr_ok by exact C3. reflexivity.
  - rewrite <- E in *. assert (NC : cs <> []) by (subst; discriminate). clear E. rewrite path_snoc by exact NC. rewrite dirname_ok by (try apply path_no0; assumption). rewrite path_not_root by assumption. cbn [negb].
    rewrite (IH (c ++ 0 :: r) fuel) by (try assumption; lia). rewrite undo_ok by (apply path_no0; assumption). rewrite <- path_snoc by exact NC. f_equal. f_equal. rewrite ways_snoc, map_app. cbn [map]. rewrite cstr_ok; [reflexivity|]. apply path_no0. apply Forall_app. split; assumption.
Qed.

(** Directory lists. *)
Definition flat (ds : list str) : list Z := concat (map (fun d => d ++ [0]) ds).
Lemma flat_app a b : flat (a ++ b) = flat a ++ flat b.
Proof. unfold flat. rewrite map_app, concat_app. reflexivity. Qed.
Definition whole (d : str) : Prop := d <> [] /\ ~ In 0 d.
Lemma nth_here {A} (a : list A) n b (x : A) : nth (length a + n) (a ++ b) x = nth n b x.
Proof. rewrite app_nth2 by lia. f_equal. lia. Qed.
(** Before the directory at p: [A]; from there on: d, 0, the others, 0 and junk. *)
Lemma next_ok A d ds r : ~ In 0 d -> Forall whole ds ->
  next_dir (A ++ d ++ 0 :: flat ds ++ 0 :: r) (length A) = Some (match ds with [] => None | _ => Some (length (A ++ d ++ [0%Z])) end).
Proof.
  intros D W. unfold next_dir. assert (SK : skipn (length A) (A ++ d ++ 0 :: flat ds ++ 0 :: r) = d ++ 0 :: flat ds ++ 0 :: r) by (rewrite <- (Nat.add_0_r (length A)); rewrite skipn_here; reflexivity). rewrite SK. clear SK. rewrite strlen_ok by exact D. cbv zeta. rewrite !app_length. cbn [length].
  destruct (Nat.ltb_spec (length A + length d + 1) (length A + (length d + S (length (flat ds ++ 0 :: r))))) as [_|L]; [|rewrite app_length in L; cbn in L; lia].
  rewrite <- (Nat.add_assoc (length A)). rewrite (nth_here A), (nth_here d). cbn [nth]. destruct ds as [|e ds]; [reflexivity|]. inversion W as [|? ? (W1 & W2) _]; subst. destruct e as [|x e]; [contradiction|]. cbn. destruct (Z.eqb_spec x 0) as [->|_]; [exfalso; apply W2; left; reflexivity|reflexivity].
Qed.
Lemma cstr_here A d r : ~ In 0 d -> cstr (skipn (length A) (A ++ d ++ 0 :: r)) = d.
Proof. intros D. rewrite <- (Nat.add_0_r (length A)). rewrite skipn_here. cbn [skipn]. apply cstr_ok. exact D. Qed.
Lemma shift_buf A d e ds r : A ++ d ++ 0 :: flat (e :: ds) ++ 0 :: r = (A ++ d ++ [0]) ++ e ++ 0 :: flat ds ++ 0 :: r.
Proof. unfold flat. cbn [map concat]. rewrite <- !app_assoc. cbn [app]. reflexivity. Qed.
Lemma forward_ok ds : forall A d r fuel, ~ In 0 d -> Forall whole ds -> (length ds < fuel)%nat -> forward fuel (A ++ d ++ 0 :: flat ds ++ 0 :: r) (length A) = Some (d :: ds).
Proof.
  induction ds as [|e ds IH]; intros A d r fuel D W L; (destruct fuel as [|fuel]; [lia|]); cbn [forward]; rewrite next_ok by assumption; rewrite cstr_here by exact D; [reflexivity|].
  rewrite shift_buf. inversion W as [|? ? (W1 & W2) W3]; subst. cbn in L. rewrite IH by (try assumption; lia). reflexivity.
Qed.
Lemma last_ok ds : forall A d r fuel, ~ In 0 d -> Forall whole ds -> (length ds < fuel)%nat -> last_dir_from fuel (A ++ d ++ 0 :: flat ds ++ 0 :: r) (length A) = Some (length A + length (flat (removelast (d :: ds))))%nat.
Proof.
  induction ds as [|e ds IH]; intros A d r fuel D W L; (destruct fuel as [|fuel]; [lia|]); cbn [last_dir_from]; rewrite next_ok by assumption; [cbn; f_equal; lia|].
  rewrite shift_buf. inversion W as [|? ? (W1 & W2) W3]; subst. cbn in L. rewrite IH by (try assumption; lia). f_equal. change (removelast (d :: e :: ds)) with (d :: removelast (e :: ds)). unfold str in *. generalize (removelast (e :: ds)); intros l. unfold flat. cbn [map concat]. rewrite !app_length. cbn [length]. lia.
Qed.
Lemma back_ok A d R : whole d -> (A = [] \/ exists A', A = A' ++ [0] /\ A' <> []) -> forall i, (i < length d)%nat -> back (A ++ d ++ R) (length A + i) = length A.
Proof.
  intros (D1 & D0) HA. induction i as [|i IH]; intros L.
  - destruct HA as [->|(A' & -> & NA)]; [reflexivity|]. rewrite Nat.add_0_r. rewrite app_length. cbn [length]. destruct d as [|x d]; [contradiction|].
    destruct A' as [|y A'] using rev_ind; [contradiction|]. rewrite app_length. cbn [length]. replace (length A' + 1 + 1)%nat with (S (S (length A'))) by lia. cbn [back].
    assert (E : nth (S (S (length A'))) (((A' ++ [y]) ++ [0]) ++ (x :: d) ++ R) 0 = x). { rewrite <- !app_assoc. cbn [app]. replace (S (S (length A'))) with (length A' + 2)%nat by lia. rewrite nth_here. reflexivity. }
    rewrite E. destruct (Z.eqb_spec x 0) as [->|_]; [exfalso; apply D0; left; reflexivity|].
    assert (E2 : nth (S (length A')) (((A' ++ [y]) ++ [0]) ++ (x :: d) ++ R) 0 = 0). { rewrite <- !app_assoc. cbn [app]. replace (S (length A')) with (length A' + 1)%nat by lia. rewrite nth_here. reflexivity. }
    rewrite E2. reflexivity.
  - replace (length A + S i)%nat with (S (length A + i)) by lia. cbn [back]. replace (S (length A + i)) with (length A + S i)%nat by lia. rewrite nth_here. rewrite app_nth1 by exact L.
    destruct (Z.eqb_spec (nth (S i) d 0) 0) as [Q|_]; [exfalso; apply D0; rewrite <- Q; apply nth_In; exact L|]. apply IH. lia.
Qed.
Lemma flat_shape ds : Forall whole ds -> flat ds = [] \/ exists A', flat ds = A' ++ [0] /\ A' <> [].
Proof.
  intros W. destruct ds as [|d ds] using rev_ind; [left; reflexivity|]. right. apply Forall_app in W. destruct W as (_ & W). inversion W as [|? ? (W1 & _) _]; subst. rewrite flat_app. unfold flat at 2. cbn [map concat]. rewrite app_nil_r. exists (flat ds ++ d). rewrite app_assoc. split; [reflexivity|]. destruct d; [contradiction|]. destruct (flat ds); discriminate.
Qed.
Lemma backward_ok ds : forall d R fuel, Forall whole ds -> whole d -> (length ds < fuel)%nat -> backward fuel (flat ds ++ d ++ 0 :: R) (length (flat ds)) = Some (d :: rev ds).
Proof.
  induction ds as [|e ds IH] using rev_ind; intros d R fuel W D L; (destruct fuel as [|fuel]; [lia|]); cbn [backward].
  - cbn. rewrite cstr_ok by apply D. reflexivity.
  - apply Forall_app in W. destruct W as (W1 & W2). inversion W2 as [|? ? WE _]; subst. rewrite app_length in L. cbn in L.
    rewrite cstr_here by apply D.
    assert (EL : (1 <= length e)%nat) by (destruct WE as (E & _); destruct e; [contradiction|cbn; lia]).
    assert (FE : flat (ds ++ [e]) = flat ds ++ e ++ [0]) by (rewrite flat_app; f_equal; unfold flat; cbn [map concat]; apply app_nil_r).
    assert (BE : flat (ds ++ [e]) ++ d ++ 0 :: R = flat ds ++ e ++ 0 :: d ++ 0 :: R) by (rewrite FE, <- !app_assoc; reflexivity).
    assert (LE : length (flat (ds ++ [e])) = S (S (length (flat ds) + (length e - 1)))) by (rewrite FE, !app_length; cbn [length]; lia).
    rewrite BE, LE. cbn [previous_dir].
    rewrite back_ok by (try apply flat_shape; try assumption; lia). rewrite (IH e (d ++ 0 :: R) fuel) by (try assumption; lia). rewrite rev_app_distr. reflexivity.
Qed.
Lemma packed_name d rest : ~ In 59 d -> last d 0 <> 47 -> packed (d ++ rest) = d ++ packed rest.
Proof.
  induction d as [|c d IH]; intros N L; [reflexivity|]. cbn [app packed]. assert (N' : ~ In 59 d) by (intros I; apply N; right; exact I).
  replace ((c =? 47) && match d ++ rest with [] => true | c2 :: _ => c2 =? 59 end) with false.
  - destruct (Z.eqb_spec c 59) as [->|_]; [exfalso; apply N; left; reflexivity|]. f_equal. destruct d as [|e d]; [reflexivity|]. apply IH; [exact N'|exact L].
  - symmetry. destruct (Z.eqb_spec c 47) as [->|_]; [|reflexivity]. cbn [andb]. destruct d as [|e d]; [cbn in L; contradiction|]. cbn. destruct (Z.eqb_spec e 59) as [->|_]; [exfalso; apply N'; left; reflexivity|reflexivity].
Qed.
Lemma packed_list ds : Forall (fun d => dir_name (fst d)) ds -> ds <> [] -> packed (dir_list ds) = flat (map fst ds) ++ [0].
Proof.
  induction ds as [|(d, sl) ds IH]; intros F N; [contradiction|]. inversion F as [|? ? (D1 & D2 & D3 & D4) F2]; subst. cbn [fst] in *. destruct ds as [|e ds].
  - cbn [dir_list map fst]. rewrite <- (app_nil_r d) at 1. rewrite packed_name by assumption. unfold flat. cbn. rewrite app_nil_r, <- app_assoc. reflexivity.
  - change (dir_list ((d, sl) :: e :: ds)) with (d ++ (if sl then [47] else []) ++ [59] ++ dir_list (e :: ds)). rewrite packed_name by assumption.
    assert (E : packed ((if sl then [47] else []) ++ [59] ++ dir_list (e :: ds)) = 0 :: packed (dir_list (e :: ds))) by (destruct sl; reflexivity). rewrite E, IH by (try exact F2; discriminate).
    change (map fst ((d, sl) :: e :: ds)) with (d :: map fst (e :: ds)). assert (FC : forall x l, flat (x :: l) = x ++ 0 :: flat l) by (intros; unfold flat; cbn [map concat]; rewrite <- app_assoc; reflexivity). rewrite FC, <- app_assoc. reflexivity.
Qed.
Lemma dir_list_last ds : Forall (fun d => dir_name (fst d)) ds -> ds <> [] -> dir_list ds <> [] /\ last (dir_list ds) 0 <> 47.
Proof.
  induction ds as [|(d, sl) ds IH]; intros F N; [contradiction|]. inversion F as [|? ? (D1 & D2 & D3 & D4) F2]; subst. cbn [fst] in *. destruct ds as [|e ds]; [cbn; auto|].
  destruct (IH F2 ltac:(discriminate)) as (I1 & I2). change (dir_list ((d, sl) :: e :: ds)) with (d ++ (if sl then [47] else []) ++ [59] ++ dir_list (e :: ds)). split; [destruct d; [contradiction|discriminate]|].
  destruct (exists_last I1) as (w & x & E). rewrite E in *. rewrite last_last in I2. rewrite !app_assoc. rewrite last_last. exact I2.
Qed.
Lemma map_whole ds : Forall (fun d : str * bool => dir_name (fst d)) ds -> Forall whole (map fst ds).
Proof. intros F. apply Forall_map. eapply Forall_impl; [|exact F]. intros d (A & B & C & D). split; assumption. Qed.
Lemma removelast_len {A} (l : list A) : forall x, length (removelast (x :: l)) = length l.
Proof. induction l as [|y l IH]; intros x; [reflexivity|]. change (removelast (x :: y :: l)) with (x :: removelast (y :: l)). cbn [length]. rewrite IH. reflexivity. Qed.
Lemma chdir_ok b ds : Forall (fun d => dir_name (fst d)) ds -> ds <> [] -> (length (flat (map fst ds)) + 1 <= length b)%nat ->
  exists b' p, chdir b (dir_list ds) = Some (Some b') /\ length b' = length b /\ forward (length b') b' 0 = Some (map fst ds) /\ last_dir b' = Some p /\ backward (length b') b' p = Some (rev (map fst ds)).
Proof.
  intros F N L. destruct (dir_list_last ds F N) as (L1 & L2). unfold chdir. destruct (Z.eqb_spec (last (dir_list ds) 0) 47) as [|_]; [contradiction|]. rewrite andb_false_r. rewrite packed_list by assumption. rewrite app_length. cbn [length].
  destruct (Nat.leb_spec (length (flat (map fst ds)) + 1) (length b)) as [_|Q]; [|lia].
  set (rr := skipn (length (flat (map fst ds)) + 1) b). assert (RL : length rr = (length b - (length (flat (map fst ds)) + 1))%nat) by (subst rr; apply skipn_length). clearbody rr.
  pose proof (map_whole ds F) as W. destruct (map fst ds) as [|d es] eqn:E; [destruct ds; [contradiction|discriminate]|].
  assert (LL : (length (d :: es) <= length (flat (d :: es)))%nat). { clear. induction (d :: es) as [|x l IH]; [reflexivity|]. unfold flat in *. cbn [map concat]. rewrite !app_length. cbn [length]. lia. }
  assert (LB : (length es < length b)%nat) by (cbn [length] in LL; lia). exists ((flat (d :: es) ++ [0]) ++ rr). inversion W as [|? ? (D1 & D2) WE]; subst.
  assert (BE : (flat (d :: es) ++ [0]) ++ rr = [] ++ d ++ 0 :: flat es ++ 0 :: rr). { unfold flat. cbn [map concat app]. rewrite <- !app_assoc. reflexivity. }
  assert (BL : length ((flat (d :: es) ++ [0]) ++ rr) = length b) by (rewrite !app_length; cbn [length]; lia).
  exists (length (flat (removelast (d :: es)))). split; [reflexivity|]. split; [exact BL|]. split; [|split].
  - rewrite BL, BE. apply (forward_ok es [] d rr); [exact D2|exact WE|exact LB].
  - unfold last_dir. rewrite BL, BE. apply (last_ok es [] d rr); [exact D2|exact WE|exact LB].
  - rewrite BL. assert (NE : d :: es <> []) by discriminate. unfold str in *. rewrite (app_removelast_last [] NE) at 1 3. set (ini := removelast (d :: es)) in *. set (la := last (d :: es) []).
    assert (LI : length ini = length es) by (subst ini; apply removelast_len).
    assert (WA : Forall whole (ini ++ [la])) by (subst ini la; rewrite <- app_removelast_last by discriminate; exact W). apply Forall_app in WA. destruct WA as (WI & WL). inversion WL as [|? ? WL1 _]; subst.
    replace ((flat (ini ++ [la]) ++ [0]) ++ rr) with (flat ini ++ la ++ 0 :: 0 :: rr) by (rewrite flat_app; unfold flat at 3; cbn [map concat]; rewrite app_nil_r, <- !app_assoc; reflexivity).
    rewrite backward_ok; [|exact WI|exact WL1|unfold str in *; rewrite LI; exact LB]. rewrite rev_app_distr. reflexivity.
Qed.
Lemma cstr_split b : (exists r, b = cstr b ++ 0 :: r /\ ~ In 0 (cstr b)) \/ (b = cstr b /\ ~ In 0 b).
Proof.
  induction b as [|c b IH]; [right; split; [reflexivity|intros []]|]. cbn [cstr]. destruct (Z.eqb_spec c 0) as [->|N]; [left; exists b; split; [reflexivity|intros []]|].
  destruct IH as [(r & E & I)|(E & I)].
  - left. exists r. split; [cbn; f_equal; exact E|]. intros [Q|Q]; [exact (N Q)|exact (I Q)].
  - right. split; [f_equal; exact E|]. intros [Q|Q]; [exact (N Q)|exact (I Q)].
Qed.
Lemma strcat_cstr b t : ~ In 0 t -> (length (cstr b) + length t < length b)%nat -> exists b', strcat b t = Some b' /\ cstr b' = cstr b ++ t /\ length b' = length b.
Proof.
  intros N L. destruct (cstr_split b) as [(r & E & N0)|(E & _)]; [|pose proof (f_equal (@length Z) E); lia]. set (s := cstr b) in *. clearbody s. subst b.
  destruct (strcat_ok s r t N0) as (r' & A & B); [lia|]. exists ((s ++ t) ++ 0 :: r'). split; [exact A|]. split; [|exact B]. apply cstr_ok. intros I. apply in_app_or in I. tauto.
Qed.
Lemma append_full s r name : ~ In 0 s -> (length (s ++ 0%Z :: r) <= length (in_dir s name))%nat -> append (s ++ 0 :: r) name = None.
Proof.
  intros N L. rewrite in_dir_nil, (app_length (in_dir s [])) in L. unfold append. destruct (Nat.le_gt_cases (length s + 2) (length (s ++ 0 :: r))) as [Q|Q].
  - destruct (slash_ok s r N Q) as (r1 & A & B). rewrite A. unfold strcat, paste. rewrite strlen_ok by (apply in_dir_no0; exact N). destruct (Nat.leb_spec (length (in_dir s []) + length name + 1) (length (in_dir s [] ++ 0 :: r1))) as [X|X]; [exfalso|reflexivity]. unfold str in *. lia.
  - unfold slash. rewrite strlen_ok by exact N. destruct s as [|c s].
    + cbn [length Nat.eqb negb andb]. unfold strcat, paste. cbn [app]. change (strlen (0 :: r)) with 0%nat. cbn [length] in *. unfold in_dir in L. cbn in L. destruct (Nat.leb_spec (0 + length name + 1) (S (length r))); [lia|reflexivity].
    + rewrite last_nth by discriminate. change (length (c :: s) =? 0)%nat with false. cbn [negb andb]. unfold in_dir in L. destruct (last (c :: s) 0 =? 47); cbn [negb].
      * unfold strcat, paste. rewrite strlen_ok by exact N. rewrite app_nil_r in L. destruct (Nat.leb_spec (length (c :: s) + length name + 1) (length ((c :: s) ++ 0 :: r))) as [X|X]; [exfalso|reflexivity]. lia.
      * unfold strcat, paste. rewrite strlen_ok by exact N. destruct (Nat.leb_spec (length (c :: s) + length [47] + 1) (length ((c :: s) ++ 0 :: r))) as [X|X]; [exfalso|reflexivity]. cbn [length] in *. lia.
Qed.
