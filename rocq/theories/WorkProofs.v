(** Lemmas for WorkProps.v. *)
From Coq Require Import ZArith List Bool Lia ZifyBool ZifyNat.
From Verif Require Import Machine WorkModel WorkSpec.
Import ListNotations.
Open Scope Z_scope.

Lemma room_eq d : real_space_available d = room d.
Proof. unfold real_space_available, room, buffered. destruct (eof_ d), (linked d); reflexivity. Qed.
Lemma satisfied_eq d : sound_stream d -> satisfied d <-> real_space_available d = 0.
Proof.
  intros (A & B & C & _). unfold satisfied, real_space_available, buffered. destruct (linked d), (eof_ d); cbn; intuition (try discriminate; try lia).
Qed.
(** How many more reads a stream takes *)
Definition cost (d : stream) : nat :=
  if real_space_available d <=? 0 then 0%nat
  else (length (src d) + (if ((buf_end d mod size d) + real_space_available d <=? size d)%Z then 1 else 2))%nat.
Lemma cost_le d : (cost d <= length (src d) + 2)%nat.
Proof. unfold cost. destruct (_ <=? 0); [lia|]. destruct (_ <=? _); lia. Qed.
Lemma Fill_sound d : sound_stream d -> sound_stream (FillBuffer d).
Proof.
  intros W. unfold FillBuffer. destruct (linked d) eqn:L; [|exact W]. destruct (0 <? real_space_available d) eqn:S; [|exact W].
  apply Z.ltb_lt in S. destruct W as (A & B & C & D). assert (SP : real_space_available d <= size d - buffered d).
  { unfold real_space_available. destruct (_ || _); unfold buffered; lia. }
  pose proof (Z.mod_pos_bound (buf_end d) (size d) A) as M. unfold buffered in SP.
  destruct (src d) as [|[g e] r] eqn:E.
  - unfold sound_stream. cbn. repeat split; try lia. constructor.
  - inversion D; subst. cbn in *. unfold sound_stream. cbn. repeat split; try lia. assumption.
Qed.
Lemma Fill_cost d : sound_stream d -> 0 < real_space_available d -> (S (cost (FillBuffer d)) <= cost d)%nat.
Proof.
  intros (A & B & C & D) S. unfold cost at 2. destruct (real_space_available d <=? 0) eqn:E0; [lia|]. clear E0.
  assert (L : linked d = true). { unfold real_space_available in S. destruct (linked d); auto. rewrite orb_true_r in S. lia. }
  assert (EO : eof_ d = false). { unfold real_space_available in S. destruct (eof_ d); auto. cbn in S. lia. }
  assert (SP : real_space_available d = size d - (buf_end d - buf_start d)).
  { unfold real_space_available, buffered. rewrite L, EO. reflexivity. }
  unfold FillBuffer. rewrite L. replace (0 <? real_space_available d) with true by lia.
  pose proof (Z.mod_pos_bound (buf_end d) (size d) A) as M.
  set (sp := real_space_available d) in *. set (ep := buf_end d mod size d) in *.
  assert (G : forall g e pa rest, 0 <= g <= Z.min sp (size d - ep) ->
    (cost (Stream (size d) (buf_start d) (buf_end d + g) e true pa rest) <= length rest + (if (ep + sp <=? size d)%Z then 1 else 2))%nat /\
    (g = Z.min sp (size d - ep) -> e = false -> (cost (Stream (size d) (buf_start d) (buf_end d + g) e true pa rest) <= length rest + (if (ep + sp <=? size d)%Z then 0 else 1))%nat)).
  { intros g e pa rest Hg. unfold cost. set (d' := Stream _ _ _ _ _ _ _).
    assert (SP' : real_space_available d' = if e then 0 else sp - g).
    { unfold real_space_available, buffered, d'; cbn. destruct e; cbn; lia. }
    rewrite SP'. destruct e; [cbn; split; [lia|discriminate]|].
    destruct (sp - g <=? 0) eqn:X; [split; lia|]. change (src d') with rest. change (size d') with (size d). change (buf_end d') with (buf_end d + g).
    assert (EP : (buf_end d + g) mod size d = if ep + g =? size d then 0 else ep + g).
    { rewrite <- Zplus_mod_idemp_l. fold ep. destruct (ep + g =? size d) eqn:Y.
      - apply Z.eqb_eq in Y. rewrite Y. apply Z_mod_same_full.
      - apply Z.mod_small. lia. }
    rewrite EP. destruct (ep + sp <=? size d) eqn:Y.
    - split; [|intros; lia]. destruct (ep + g =? size d) eqn:Z; [lia|].
      replace (ep + g + (sp - g) <=? size d) with true by lia. lia.
    - split.
      + match goal with |- context [if ?c then 1%nat else 2%nat] => destruct c end; apply Nat.add_le_mono_l; auto.
      + intros Hg' _. replace (ep + g =? size d) with true by lia.
        replace (0 + (sp - g) <=? size d) with true by lia. lia. }
  destruct (src d) as [|[g e] r] eqn:E.
  - destruct (Z.min sp (size d - ep) =? 0) eqn:Z0; [lia|].
    destruct (G (Z.min sp (size d - ep)) false (paused d) [] ltac:(lia)) as [_ G2]. specialize (G2 eq_refl eq_refl). cbn [length] in *.
    destruct (ep + sp <=? size d); lia.
  - inversion D; subst. cbn in H1.
    destruct (G (Z.min g (Z.min sp (size d - ep))) (if Z.min g (Z.min sp (size d - ep)) =? 0 then e else false) (paused d) r ltac:(lia)) as [G1 _].
    cbn [length]. lia.
Qed.
Definition total (l : list stream) : nat := fold_right (fun d n => cost d + n)%nat 0%nat l.
Lemma total_effort l : (total l <= effort l)%nat.
Proof. induction l as [|d l IH]; [reflexivity|]. unfold total, effort in *. cbn [fold_right]. pose proof (cost_le d). lia. Qed.
Lemma total_app a b : total (a ++ b) = (total a + total b)%nat.
Proof. induction a as [|d a IH]; [reflexivity|]. unfold total in *. cbn [app fold_right]. rewrite IH. lia. Qed.
Lemma real_ge0 d : sound_stream d -> 0 <= real_space_available d.
Proof. intros (A & B & C & _). unfold real_space_available, buffered. destruct (_ || _); lia. Qed.
Lemma wants_eq d : sound_stream d -> space_available d = wants d.
Proof.
  intros W. apply real_ge0 in W. unfold space_available, wants. rewrite <- room_eq. destruct (paused d), (real_space_available d =? 0) eqn:E, (0 <? real_space_available d) eqn:E'; cbn; lia.
Qed.
Lemma space_real d : space_available d = 0 <-> real_space_available d = 0.
Proof. unfold space_available. destruct (paused d), (real_space_available d =? 0) eqn:E; cbn; lia. Qed.
Lemma space_ge0 d : sound_stream d -> 0 <= space_available d.
Proof. intros W. apply real_ge0 in W. unfold space_available. destruct (_ && _); lia. Qed.

Lemma max_from l : forall m, m <= fold_left (fun m d => Z.max m (space_available d)) l m /\
  Forall (fun d => space_available d <= fold_left (fun m d => Z.max m (space_available d)) l m) l /\
  (fold_left (fun m d => Z.max m (space_available d)) l m = m \/ exists d, In d l /\ space_available d = fold_left (fun m d => Z.max m (space_available d)) l m).
Proof.
  induction l as [|d l IH]; intros m; cbn.
  - split; [lia|]. split; auto.
  - destruct (IH (Z.max m (space_available d))) as (A & B & C). split; [lia|]. split.
    + constructor; [lia|exact B].
    + destruct C as [C|(x & C & D)]; [|right; exists x; auto]. rewrite C.
      destruct (Z.max_spec m (space_available d)) as [[_ E]|[_ E]]; rewrite E; [right; exists d; auto|auto].
Qed.
Lemma max_space_spec l : 0 <= max_space l /\ Forall (fun d => space_available d <= max_space l) l /\
  (max_space l = 0 \/ exists d, In d l /\ space_available d = max_space l).
Proof. apply max_from. Qed.

Definition fill_if (m : Z) (d : stream) : stream := if m <=? space_available d then FillBuffer d else d.
Lemma fill_all_app m l : forall done, fst (fill_all m done l) = done ++ map (fill_if m) l.
Proof.
  induction l as [|d l IH]; intros done; cbn; [rewrite app_nil_r; reflexivity|].
  destruct (m <=? space_available d) eqn:E.
  - specialize (IH (done ++ [FillBuffer d])). destruct (fill_all m (done ++ [FillBuffer d]) l). cbn in *. rewrite IH, <- app_assoc. unfold fill_if at 2. rewrite E. reflexivity.
  - rewrite IH, <- app_assoc. unfold fill_if at 2. rewrite E. reflexivity.
Qed.
Lemma fill_all_sound m l : Forall sound_stream l -> Forall sound_stream (fst (fill_all m [] l)).
Proof.
  intros F. rewrite fill_all_app. cbn. rewrite Forall_map. eapply Forall_impl; [|exact F]. intros d W. unfold fill_if.
  destruct (m <=? _); auto using Fill_sound.
Qed.
Lemma map_cost m l : 0 < m -> Forall sound_stream l ->
  (total (map (fill_if m) l) <= total l)%nat /\
  ((exists d, In d l /\ m <= space_available d) -> (S (total (map (fill_if m) l)) <= total l)%nat).
Proof.
  intros M. unfold total. induction l as [|d l IH]; intros F; cbn [map fold_right].
  - split; [lia|]. intros (d & [] & _).
  - inversion F as [|? ? F1 F2]; subst. destruct (IH F2) as [A B]. unfold fill_if at 1 3. destruct (m <=? space_available d) eqn:E.
    + assert (RP : 0 < real_space_available d). { pose proof (real_ge0 d F1). pose proof (space_real d). lia. }
      pose proof (Fill_cost d F1 RP). lia.
    + split; [lia|]. intros (x & [->|I] & Hx); [lia|]. specialize (B (ex_intro _ x (conj I Hx))). lia.
Qed.
Lemma round_cost l : Forall sound_stream l -> max_space l <> 0 -> (S (total (fst (fill_all (max_space l) [] l))) <= total l)%nat.
Proof.
  intros F N. destruct (max_space_spec l) as (A & _ & [B|(d & I & B)]); [contradiction|].
  rewrite fill_all_app. cbn. apply map_cost; [lia|exact F|]. exists d. split; [exact I|lia].
Qed.
Lemma zero_full l : Forall sound_stream l -> max_space l = 0 -> Forall satisfied l.
Proof.
  intros F M. destruct (max_space_spec l) as (_ & A & _). rewrite M in A. rewrite Forall_forall in *.
  intros d I. apply satisfied_eq, space_real; auto. pose proof (space_ge0 d (F d I)). specialize (A d I). cbn in A. lia.
Qed.
Lemma total0 l : Forall sound_stream l -> total l = 0%nat -> Forall satisfied l.
Proof.
  intros F T. induction l as [|d l IH]; [constructor|]. inversion F; subst. unfold total in *. cbn [fold_right] in T. constructor; [|apply IH; auto; lia].
  apply satisfied_eq; auto. pose proof (real_ge0 d H1). unfold cost in T. destruct (real_space_available d <=? 0) eqn:E; [lia|].
  destruct (_ <=? size d); lia.
Qed.
Lemma rounds_full n : forall l, Forall sound_stream l -> (total l <= n)%nat -> Forall satisfied (fst (rounds n l)) /\ Forall sound_stream (fst (rounds n l)).
Proof.
  induction n as [|n IH]; intros l F T; cbn [rounds].
  - cbn [fst]. split; [apply total0; auto; lia|exact F].
  - destruct (max_space l =? 0) eqn:M.
    + apply Z.eqb_eq in M. split; [apply zero_full; auto|exact F].
    + apply Z.eqb_neq in M. pose proof (round_cost l F M) as C. pose proof (fill_all_sound (max_space l) l F) as F'.
      destruct (fill_all (max_space l) [] l) as [l' log]. cbn [fst snd] in *. destruct (IH l' F' ltac:(lia)) as [A B].
      destruct (rounds n l') as [l2 log2]. cbn [fst snd] in *. auto.
Qed.
Lemma all_full l : Forall sound_stream l -> (effort l <= 50)%nat -> Forall satisfied (fst (ProcessAudioStreams false l)).
Proof. intros F E. apply rounds_full; auto. pose proof (total_effort l). lia. Qed.

(** Neediest first *)
Lemma Fill_real d : sound_stream d -> real_space_available (FillBuffer d) <= real_space_available d.
Proof.
  intros W. pose proof (real_ge0 d W) as G. unfold FillBuffer. destruct (linked d) eqn:L; [|lia]. destruct (0 <? real_space_available d) eqn:P; [|lia].
  assert (EO : eof_ d = false). { unfold real_space_available in P. destruct (eof_ d); auto. }
  assert (K : forall g e rest, 0 <= g -> real_space_available (Stream (size d) (buf_start d) (buf_end d + g) e true (paused d) rest) <= real_space_available d).
  { intros g e rest Hg. unfold real_space_available, buffered in *. cbn. rewrite L, EO in *. cbn in *. destruct e; cbn; lia. }
  destruct W as (A & B & C & D). pose proof (Z.mod_pos_bound (buf_end d) (size d) A).
  destruct (src d) as [|[g e] r]; apply K; [lia|]. inversion D; subst. cbn in H2. lia.
Qed.
Lemma Fill_paused d : paused (FillBuffer d) = paused d.
Proof.
  unfold FillBuffer. destruct (linked d); auto. destruct (0 <? _); auto. destruct (src d) as [|[g e] r]; reflexivity.
Qed.
Lemma Fill_space d : sound_stream d -> space_available (FillBuffer d) <= space_available d.
Proof.
  intros W. pose proof (Fill_real d W). pose proof (real_ge0 d W). pose proof (real_ge0 _ (Fill_sound d W)).
  unfold space_available. rewrite Fill_paused. destruct (paused d), (real_space_available d =? 0) eqn:E, (real_space_available (FillBuffer d) =? 0) eqn:E'; cbn; lia.
Qed.
Lemma fill_all_order m l : forall done, 0 < m -> Forall (fun d => space_available d <= m) (done ++ l) -> Forall sound_stream (done ++ l) ->
  Forall (fun e => exists d, nth_error (snd e) (fst e) = Some d /\ space_available d = m /\ Forall (fun x => sound_stream x /\ space_available x <= m) (snd e)) (snd (fill_all m done l)).
Proof.
  induction l as [|d l IH]; intros done M F W; cbn; [constructor|]. 
  assert (W1 : sound_stream d). { apply Forall_app in W. destruct W as [_ W]. inversion W; auto. }
  assert (F2 : space_available d <= m). { apply Forall_app in F. destruct F as [_ F]. inversion F; auto. }
  destruct (m <=? space_available d) eqn:E.
  - specialize (IH (done ++ [FillBuffer d]) M). destruct (fill_all m (done ++ [FillBuffer d]) l) as [r log]. cbn [fst snd] in *. constructor.
    + exists d. cbn [fst snd]. split; [|split; [lia|]].
      * rewrite nth_error_app2 by lia. rewrite Nat.sub_diag. reflexivity.
      * apply Forall_and; assumption.
    + apply IH; rewrite <- app_assoc; cbn [app].
      * apply Forall_app in F. destruct F as [Fa Fb]. apply Forall_app. split; [exact Fa|]. inversion Fb; subst. constructor; auto.
        pose proof (Fill_space d W1). lia.
      * apply Forall_app in W. destruct W as [Wa Wb]. apply Forall_app. split; [exact Wa|]. inversion Wb; subst. constructor; auto using Fill_sound.
  - apply IH; auto; rewrite <- app_assoc; assumption.
Qed.
Lemma rounds_order n : forall l, Forall sound_stream l ->
  Forall (fun e => exists d, nth_error (snd e) (fst e) = Some d /\ 0 < wants d /\ Forall (fun x => wants x <= wants d) (snd e)) (snd (rounds n l)).
Proof.
  induction n as [|n IH]; intros l F; cbn [rounds]; [constructor|].
  destruct (max_space l =? 0) eqn:M; [constructor|]. apply Z.eqb_neq in M.
  destruct (max_space_spec l) as (A & B & _).
  pose proof (fill_all_order (max_space l) l [] ltac:(lia) B F) as O. pose proof (fill_all_sound (max_space l) l F) as F'.
  destruct (fill_all (max_space l) [] l) as [l' log]. cbn [fst snd] in *. specialize (IH l' F').
  destruct (rounds n l') as [l2 log2]. cbn [fst snd] in *. apply Forall_app. split; [|exact IH].
  eapply Forall_impl; [|exact O]. intros e (d & X & Y & Z). exists d. split; [exact X|].
  assert (Wd : sound_stream d). { rewrite Forall_forall in Z. apply (Z d). eapply nth_error_In, X. }
  rewrite <- (wants_eq d Wd). split; [lia|].
  eapply Forall_impl; [|exact Z]. intros x [Wx Hx]. rewrite <- (wants_eq x Wx). lia.
Qed.

(** With interrupts *)
Lemma upd_length f k l : length (upd f k l) = length l.
Proof.
  unfold upd. rewrite <- (firstn_skipn k l) at 3. rewrite !app_length. f_equal. destruct (skipn k l); reflexivity.
Qed.
Lemma upd_Forall (P : stream -> Prop) f k l : (forall d, P d -> P (f d)) -> Forall P l -> Forall P (upd f k l).
Proof.
  intros H F. unfold upd. rewrite <- (firstn_skipn k l) in F. apply Forall_app in F. destruct F as [F1 F2].
  apply Forall_app. split; [exact F1|]. destruct (skipn k l) as [|d r]; [constructor|]. inversion F2; subst. constructor; auto.
Qed.
Lemma effort_app a b : effort (a ++ b) = (effort a + effort b)%nat.
Proof. induction a as [|d a IH]; [reflexivity|]. unfold effort in *. cbn [app fold_right]. rewrite IH. lia. Qed.
Lemma upd_effort f k l : (forall d, length (src (f d)) <= length (src d))%nat -> (effort (upd f k l) <= effort l)%nat.
Proof.
  intros H. unfold upd. rewrite <- (firstn_skipn k l) at 3. rewrite !effort_app. apply Nat.add_le_mono_l.
  destruct (skipn k l) as [|d r]; [reflexivity|]. unfold effort. cbn [fold_right]. specialize (H d). lia.
Qed.
Lemma Fill_src d : (length (src (FillBuffer d)) <= length (src d))%nat.
Proof.
  unfold FillBuffer. destruct (linked d); [|lia]. destruct (0 <? _); [|lia]. destruct (src d) as [|[g e] r]; cbn; lia.
Qed.
Lemma take_sound n d : 0 <= n -> sound_stream d -> sound_stream (take n d).
Proof. intros N (A & B & C & D). unfold sound_stream, take, buffered. cbn. repeat split; auto; lia. Qed.
Lemma step_streams s o : Forall sound_stream (streams s) -> (match o with Take _ n => 0 <= n | _ => True end) ->
  Forall sound_stream (streams (step s o)) /\ (effort (streams (step s o)) <= effort (streams s))%nat /\ length (streams (step s o)) = length (streams s).
Proof.
  intros F G. destruct o as [|k n|b|]; cbn [step].
  - unfold schedule. destruct (pending s); auto.
  - unfold schedule. cbn [pending]. destruct (pending s); cbn [streams];
      (split; [apply upd_Forall; auto using take_sound|split; [apply upd_effort; cbn; auto|apply upd_length]]).
  - auto.
  - unfold work. destruct (where_ s); cbn [streams]; auto.
    + destruct (queued s); auto.
    + destruct (sd_locked s); auto.
    + destruct (50 <=? i)%nat; auto. destruct (_ =? 0); auto.
    + destruct (nth_error _ _); auto. cbn [streams]. destruct (m <=? _); auto.
      split; [apply upd_Forall; auto using Fill_sound|split; [apply upd_effort; auto using Fill_src|apply upd_length]].
Qed.
Lemma run_streams ops : forall s, Forall sound_stream (streams s) -> Forall (fun o => match o with Take _ n => 0 <= n | _ => True end) ops ->
  Forall sound_stream (streams (run step s ops)) /\ (effort (streams (run step s ops)) <= effort (streams s))%nat /\
  length (streams (run step s ops)) = length (streams s).
Proof.
  induction ops as [|o ops IH]; intros s F G; [auto|]. inversion G; subst.
  destruct (step_streams s o F H1) as (A & B & C). destruct (IH (step s o) A H2) as (A' & B' & C'). cbn [run].
  change (run step s (o :: ops)) with (run step (step s o) ops). split; [exact A'|]. split; [lia|congruence].
Qed.
Lemma step_length s o : length (streams (step s o)) = length (streams s).
Proof.
  destruct o as [|k n|b|]; cbn [step].
  - unfold schedule. destruct (pending s); auto.
  - unfold schedule. cbn [pending]. destruct (pending s); cbn [streams]; apply upd_length.
  - auto.
  - unfold work. destruct (where_ s); cbn [streams]; auto.
    + destruct (queued s); auto.
    + destruct (sd_locked s); auto.
    + destruct (50 <=? i)%nat; auto. destruct (_ =? 0); auto.
    + destruct (nth_error _ _); auto. cbn [streams]. destruct (m <=? _); auto using upd_length.
Qed.
Lemma run_length ops : forall s, length (streams (run step s ops)) = length (streams s).
Proof. induction ops as [|o ops IH]; intros s; [reflexivity|]. change (run step s (o :: ops)) with (run step (step s o) ops). rewrite IH. apply step_length. Qed.

(** One run at a time, and one for each request *)
Definition Inv (s : state) : Prop :=
  pending s = true /\ queued s = 1%nat /\ where_ s = Idle \/ pending s = true /\ queued s = 0%nat /\ where_ s <> Idle \/
  pending s = false /\ queued s = 0%nat /\ where_ s = Idle.
Lemma step_Inv s o : Inv s -> Inv (step s o).
Proof.
  unfold Inv. destruct s as [l b p q w]. cbn.
  intros [(P & Q & W)|[(P & Q & W)|(P & Q & W)]]; subst; destruct o as [|k n|b'|]; cbn -[Nat.leb max_space]; try tauto.
  - right; left. repeat split; try reflexivity. discriminate.
  - unfold work. cbn -[Nat.leb max_space]. destruct w; try contradiction; cbn -[Nat.leb max_space].
    + destruct b; cbn; right; left; repeat split; try reflexivity; discriminate.
    + destruct (50 <=? i)%nat; [|destruct (_ =? 0)]; cbn; right; left; repeat split; try reflexivity; discriminate.
    + destruct (nth_error _ _); cbn; right; left; repeat split; try reflexivity; discriminate.
    + right; right. auto.
Qed.
Lemma run_Inv ops : forall s, Inv s -> Inv (run step s ops).
Proof. induction ops as [|o ops IH]; intros s H; [exact H|]. apply (IH (step s o)). apply step_Inv, H. Qed.
Lemma after_Inv l ops : Inv (after l ops).
Proof. apply run_Inv. right; right. auto. Qed.

(** A run ends *)
Definition R (n i : nat) : nat := ((50 - i) * (n + 2) + 2)%nat.
Definition togo (s : state) : nat :=
  let n := length (streams s) in
  match where_ s with
  | Idle => 0%nat
  | Entered => S (R n 0)
  | Round i => R n i
  | Filling i _ k => ((n - k) + 1 + R n (S i))%nat
  | Ending => 1%nat
  end.
Lemma R_S n i : (i < 50)%nat -> R n i = (n + 2 + R n (S i))%nat.
Proof. intros H. unfold R. replace (50 - i)%nat with (S (50 - S i)) by lia. lia. Qed.
Lemma R_2 n i : (2 <= R n i)%nat.
Proof. unfold R. apply Nat.le_add_l. Qed.
Lemma R_max n i : (R n i <= 50 * (n + 2) + 2)%nat.
Proof. unfold R. apply Nat.add_le_mono_r, Nat.mul_le_mono_r. lia. Qed.
Lemma work_togo s : running s = true -> (togo (step s Work) < togo s)%nat.
Proof.
  destruct s as [l b p q w]. unfold running, togo. cbn [step]. unfold work. cbn [where_ streams sd_locked pending queued].
  destruct w; [discriminate|..]; intros _.
  - destruct b; cbn [where_ streams]; [pose proof (R_2 (length l) 0); lia|lia].
  - destruct (50 <=? i)%nat eqn:E; cbn [where_ streams]; [pose proof (R_2 (length l) i); lia|].
    assert (L : (i < 50)%nat) by lia. rewrite (R_S _ i L). destruct (_ =? 0); cbn [where_ streams]; pose proof (R_2 (length l) (S i)); lia.
  - destruct (nth_error l k) eqn:E; cbn [where_ streams].
    + assert (K : (k < length l)%nat) by (apply nth_error_Some; congruence). destruct (m <=? _); rewrite ?upd_length; lia.
    + lia.
  - cbn. lia.
Qed.
Lemma other_togo s o : o <> Work -> where_ (step s o) = where_ s /\ togo (step s o) = togo s.
Proof.
  intros N. assert (W : where_ (step s o) = where_ s).
  { destruct o; cbn [step]; try contradiction; auto; unfold schedule; cbn [pending]; destruct (pending s); reflexivity. }
  split; [exact W|]. unfold togo. rewrite W, step_length. reflexivity.
Qed.
Lemma togo_idle s : togo s = 0%nat -> running s = false.
Proof. unfold togo, running. destruct (where_ s); auto; pose proof (R_2 (length (streams s)) 0); try lia. pose proof (R_2 (length (streams s)) i). lia. Qed.
Lemma ends ops : forall s, (togo s <= count_work ops)%nat -> exists a b, ops = a ++ b /\ running (run step s a) = false.
Proof.
  induction ops as [|o ops IH]; intros s H.
  - exists [], []. split; [reflexivity|]. change (running s = false). apply togo_idle. unfold count_work in H. cbn [filter length] in H. lia.
  - destruct (running s) eqn:RU.
    + assert (T : (togo (step s o) <= count_work ops)%nat).
      { destruct o; try (destruct (other_togo s Request); [discriminate|]); unfold count_work in *; cbn [filter] in H.
        - lia.
        - destruct (other_togo s (Take k n)) as [_ ->]; [discriminate|exact H].
        - destruct (other_togo s (Lock b)) as [_ ->]; [discriminate|exact H].
        - pose proof (work_togo s RU). cbn [length] in H. lia. }
      destruct (IH (step s o) T) as (a & b & -> & E). exists (o :: a), b. split; [reflexivity|exact E].
    + exists [], (o :: ops). split; [reflexivity|exact RU].
Qed.
Lemma togo_max s : (togo s <= 50 * (length (streams s) + 2) + 3)%nat.
Proof.
  unfold togo. destruct (where_ s) as [| |i|i m k|]; try lia.
  - pose proof (R_max (length (streams s)) 0). lia.
  - pose proof (R_max (length (streams s)) i). lia.
  - assert (H : (length (streams s) + 2 + R (length (streams s)) (S i) <= 50 * (length (streams s) + 2) + 2)%nat \/ (50 <= i)%nat).
    { destruct (Nat.le_gt_cases 50 i) as [H|H]; [auto|]. left. rewrite <- R_S by exact H. apply R_max. }
    destruct H as [H|H]; [lia|]. unfold R. replace (50 - S i)%nat with 0%nat by lia. lia.
Qed.

(** Uninterrupted, a run is ProcessAudioStreams *)
Lemma works_app a b : works (a + b) = works a ++ works b.
Proof. apply repeat_app. Qed.
Lemma upd_mid f a d b : upd f (length a) (a ++ d :: b) = a ++ f d :: b.
Proof.
  unfold upd. rewrite firstn_app, firstn_all, Nat.sub_diag, skipn_app, skipn_all, Nat.sub_diag. cbn. rewrite app_nil_r. reflexivity.
Qed.
Lemma filling_run lk p q i m l : forall done,
  run step (State (done ++ l) lk p q (Filling i m (length done))) (works (S (length l))) = State (fst (fill_all m done l)) lk p q (Round (S i)).
Proof.
  induction l as [|d l IH]; intros done.
  - change (run step ?s (works (S (length (@nil stream))))) with (step s Work). cbn [step work where_ streams].
    rewrite app_nil_r. replace (nth_error done (length done)) with (@None stream); [reflexivity|]. symmetry. apply nth_error_None. lia.
  - change (works (S (length (d :: l)))) with (Work :: works (S (length l))).
    match goal with |- run step ?s (Work :: ?w) = _ => change (run step (step s Work) w = State (fst (fill_all m done (d :: l))) lk p q (Round (S i))) end.
    cbn [step work where_ streams sd_locked pending queued]. rewrite nth_error_app2, Nat.sub_diag by lia. cbn [nth_error fill_all].
    rewrite upd_mid. destruct (m <=? space_available d) eqn:E.
    + specialize (IH (done ++ [FillBuffer d])). rewrite app_length in IH. cbn [length] in IH. rewrite Nat.add_1_r, <- app_assoc in IH.
      cbn [app] in IH. rewrite IH. destruct (fill_all m (done ++ [FillBuffer d]) l). reflexivity.
    + specialize (IH (done ++ [d])). rewrite app_length in IH. cbn [length] in IH. rewrite Nat.add_1_r, <- app_assoc in IH.
      cbn [app] in IH. exact IH.
Qed.
Lemma fill_all_length m l : length (fst (fill_all m [] l)) = length l.
Proof. rewrite fill_all_app. cbn. apply map_length. Qed.
Lemma rounds_run n : forall i l lk p q, (i + n = 50)%nat ->
  exists k, (k <= n * (length l + 2) + 1)%nat /\ run step (State l lk p q (Round i)) (works k) = State (fst (rounds n l)) lk p q Ending.
Proof.
  induction n as [|n IH]; intros i l lk p q H.
  - exists 1%nat. split; [lia|]. change (run step ?s (works 1)) with (step s Work). cbn [step work where_ streams].
    replace (50 <=? i)%nat with true by lia. reflexivity.
  - destruct (max_space l =? 0) eqn:M.
    + exists 1%nat. split; [lia|]. change (run step ?s (works 1)) with (step s Work). cbn [step work where_ streams].
      replace (50 <=? i)%nat with false by lia. rewrite M. cbn [rounds]. rewrite M. reflexivity.
    + destruct (IH (S i) (fst (fill_all (max_space l) [] l)) lk p q) as (k & K & E); [lia|]. rewrite fill_all_length in K.
      exists (1 + (S (length l) + k))%nat. split; [lia|]. rewrite !works_app, !run_app.
      change (run step ?s (works 1)) with (step s Work). cbn [step work where_ streams sd_locked pending queued].
      replace (50 <=? i)%nat with false by lia. rewrite M.
      pose proof (filling_run lk p q i (max_space l) l []) as FR. cbn [app length] in FR. rewrite FR, E. cbn [rounds]. rewrite M.
      destruct (fill_all (max_space l) [] l) as [l' lg]. cbn [fst]. destruct (rounds n l'). reflexivity.
Qed.
Lemma idle_run n l lk : run step (State l lk false 0 Idle) (works n) = State l lk false 0 Idle.
Proof. induction n as [|n IH]; [reflexivity|]. exact IH. Qed.
Lemma whole_run l lk n : (50 * (length l + 2) + 4 <= n)%nat ->
  run step (State l lk true 1 Idle) (works n) = State (fst (ProcessAudioStreams lk l)) lk false 0 Idle.
Proof.
  intros N. destruct lk.
  - replace n with (3 + (n - 3))%nat by lia. rewrite works_app, run_app. change (run step (State l true true 1 Idle) (works 3)) with (State l true false 0 Idle).
    apply idle_run.
  - destruct (rounds_run 50 0 l false true 0 eq_refl) as (k & K & E).
    replace n with (2 + (k + (1 + (n - 3 - k))))%nat by lia. rewrite !works_app, !run_app.
    change (run step (State l false true 1 Idle) (works 2)) with (State l false true 0 (Round 0)). rewrite E.
    change (run step ?s (works 1)) with (step s Work). cbn [step work where_ streams sd_locked pending queued]. rewrite idle_run. reflexivity.
Qed.
Lemma request_run l ops n : running (after l ops) = false -> (50 * (length l + 2) + 4 <= n)%nat ->
  after l (ops ++ Request :: works n) =
  State (fst (ProcessAudioStreams (sd_locked (after l ops)) (streams (after l ops)))) (sd_locked (after l ops)) false 0 Idle.
Proof.
  intros RU N. unfold after. rewrite run_app. fold (after l ops). pose proof (after_Inv l ops) as I.
  pose proof (run_length ops (state0 l)) as L. fold (after l ops) in L. cbn [streams state0] in L.
  destruct (after l ops) as [st lk p q w]. unfold Inv, running in *. cbn in *.
  change (run step ?s (Request :: works n)) with (run step (schedule s) (works n)).
  assert (W : w = Idle) by (destruct w; auto; discriminate). subst w.
  destruct I as [(P & Q & _)|[(_ & _ & W)|(P & Q & _)]]; [|contradiction|]; subst; cbn [schedule pending]; unfold schedule; cbn [pending streams sd_locked queued where_];
    apply whole_run; lia.
Qed.
Lemma starved_rounds N r d n : forall j, 0 < N -> sound_stream d -> wants d < N -> (n <= j)%nat ->
  fst (rounds n [Stream N 0 0 false true false (repeat (0, false) j ++ r); d]) = [Stream N 0 0 false true false (repeat (0, false) (j - n) ++ r); d].
Proof.
  induction n as [|n IH]; intros j HN W L J; cbn [rounds].
  - rewrite Nat.sub_0_r. reflexivity.
  - destruct j as [|j]; [lia|]. pose proof (space_ge0 d W) as G. pose proof (wants_eq d W) as E.
    assert (S0 : forall s, space_available (Stream N 0 0 false true false s) = N) by (intros; unfold space_available, real_space_available, buffered; cbn; lia).
    assert (M : max_space [Stream N 0 0 false true false (repeat (0, false) (S j) ++ r); d] = N).
    { unfold max_space. cbn [fold_left]. rewrite S0. lia. }
    rewrite M. replace (N =? 0) with false by lia.
    assert (F : fst (fill_all N [] [Stream N 0 0 false true false (repeat (0, false) (S j) ++ r); d]) = [Stream N 0 0 false true false (repeat (0, false) j ++ r); d]).
    { rewrite fill_all_app. cbn [map app]. unfold fill_if. rewrite S0. replace (N <=? N) with true by lia.
      replace (N <=? space_available d) with false by lia. f_equal. unfold FillBuffer. change (real_space_available ?d) with (space_available d). rewrite S0. cbn [linked src size buf_end buf_start repeat app].
      replace (0 <? N) with true by lia. rewrite Zmod_0_l. replace (Z.min 0 (Z.min N (N - 0))) with 0 by lia. reflexivity. }
    destruct (fill_all N [] _) as [l' lg]. cbn [fst] in F. subst l'. specialize (IH j HN W L ltac:(lia)).
    destruct (rounds n _) as [l2 lg2]. cbn [fst] in *. exact IH.
Qed.
Lemma run_filled l ops n : Forall sound_stream l -> sane ops -> (effort l <= 50)%nat ->
  sd_locked (after l ops) = false -> running (after l ops) = false -> (whole_run_steps l <= n)%nat ->
  Forall satisfied (streams (after l (ops ++ Request :: works n))).
Proof.
  intros F S E K RU N. rewrite request_run; auto. cbn [streams]. rewrite K.
  destruct (run_streams ops (state0 l) F S) as (A & B & _). apply all_full; [exact A|]. unfold after. cbn [streams state0] in B. lia.
Qed.
Lemma sched_pending s : pending (schedule s) = true.
Proof. unfold schedule. destruct (pending s) eqn:E; [exact E|reflexivity]. Qed.
Lemma take_request l ops k x n : after l (ops ++ Take k x :: works n) = after l ((ops ++ [Take k x]) ++ Request :: works n).
Proof.
  unfold after. rewrite <- app_assoc. rewrite !run_app. cbn [app]. set (s := run step (state0 l) ops).
  change (run step (step s (Take k x)) (works n) = run step (step (step s (Take k x)) Request) (works n)). f_equal.
  cbn [step]. unfold schedule at 2. rewrite sched_pending. reflexivity.
Qed.
Lemma take_rest l ops k x : running (after l (ops ++ [Take k x])) = running (after l ops) /\ sd_locked (after l (ops ++ [Take k x])) = sd_locked (after l ops).
Proof.
  unfold after. rewrite run_app. set (s := run step (state0 l) ops). change (run step s [Take k x]) with (step s (Take k x)).
  cbn [step]. unfold schedule, running. cbn [pending]. destruct (pending s); split; reflexivity.
Qed.
