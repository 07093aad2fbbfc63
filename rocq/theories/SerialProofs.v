(** Lemmas about serial lines. *)
From Coq Require Import ZArith List Bool Lia ZifyBool ZifyNat.
From Verif Require Import SerialModel SerialSpec.
Import ListNotations.
Open Scope Z_scope.

Lemma store_app a x b v : store (a ++ x :: b) (length a) v = Some (a ++ v :: b).
Proof.
  unfold store. rewrite app_length. cbn [length]. replace (length a <? length a + S (length b))%nat with true by lia.
  rewrite firstn_app, firstn_all, Nat.sub_diag. cbn [firstn]. rewrite app_nil_r. f_equal. f_equal. f_equal.
  rewrite skipn_app. rewrite skipn_all2 by lia. replace (S (length a) - length a)%nat with 1%nat by lia. reflexivity.
Qed.

(** The line without the blanks (and returns) at its end. *)
Fixpoint rtrim (l : list Z) : list Z :=
  match l with
  | [] => []
  | c :: l => match rtrim l with [] => if (c =? 13) || (c =? 32) then [] else [c] | t => c :: t end
  end.
Lemma rtrim_snoc l c : rtrim (l ++ [c]) = if (c =? 13) || (c =? 32) then rtrim l else l ++ [c].
Proof.
  induction l as [|x l IH]; [cbn; destruct ((c =? 13) || (c =? 32)); reflexivity|]. cbn [app rtrim]. rewrite IH. destruct ((c =? 13) || (c =? 32)); [reflexivity|].
  destruct l; reflexivity.
Qed.
Lemma trim_ok cur : forall rest, exists rest', trim (cur ++ 0 :: rest) (length cur) = Some (rtrim cur ++ 0 :: rest').
Proof.
  induction cur as [|c cur IH] using rev_ind; intros rest; [exists rest; reflexivity|].
  rewrite app_length. cbn [length]. rewrite Nat.add_comm. cbn [Nat.add trim]. rewrite <- app_assoc. cbn [app]. rewrite app_nth2, Nat.sub_diag by lia. cbn [nth]. cbv zeta.
  rewrite rtrim_snoc. destruct ((c =? 13) || (c =? 32)).
  - rewrite store_app. apply IH.
  - exists rest. rewrite <- app_assoc. reflexivity.
Qed.
Fixpoint until0 (l : list Z) : list Z := match l with c :: l => if c =? 0 then [] else c :: until0 l | [] => [] end.
Lemma c_string_ok a rest : c_string (a ++ 0 :: rest) = Some (until0 a).
Proof. induction a as [|c a IH]; [reflexivity|]. cbn [app c_string until0]. destruct (c =? 0); [reflexivity|]. rewrite IH. reflexivity. Qed.
Lemma until0_id a : Forall (fun c => c <> 0) a -> until0 a = a.
Proof. intros F. induction F as [|c a C F IH]; [reflexivity|]. cbn. replace (c =? 0) with false by lia. rewrite IH. reflexivity. Qed.

Definition action_of (s : list Z) : action :=
  if nth 0 s 0 =? 35 then Echo s else let (w, a) := split_word (skip_spaces s) in Do w a.
Lemma parse_line_ok cur rest : cur <> [] -> parse_line (cur ++ 0 :: rest) (length cur) = Some [action_of (until0 (rtrim cur))].
Proof.
  intros N. unfold parse_line. destruct (length cur) eqn:E; [destruct cur; [congruence|discriminate]|]. rewrite <- E. destruct (trim_ok cur rest) as (r & ->). rewrite c_string_ok.
  unfold action_of. destruct (nth 0 (until0 (rtrim cur)) 0 =? 35); [reflexivity|]. destruct (split_word _). reflexivity.
Qed.

(** The buffer holds the line begun. *)
Definition holds (p : parser) (cur : list Z) : Prop :=
  len_ p = length cur /\
  ((p = reset /\ cur = []) \/ (cur <> [] /\ exists rest, cmd_ p = Some (cur ++ 0 :: rest) /\ space_ p = length (cur ++ 0 :: rest))).
Definition line_actions (l : list Z) : list action := match l with [] => [] | _ => [action_of (until0 (rtrim l))] end.

Lemma step_newline p cur c a : holds p cur -> (c =? 10) || (c =? 13) = true -> serial_step p (Byte c a) = Some (reset, line_actions cur).
Proof.
  intros (L & HO) N. unfold serial_step. rewrite N. destruct HO as [[-> ->]|(CN & rest & C & S1)]; [reflexivity|]. rewrite C, L, parse_line_ok by exact CN. unfold line_actions. destruct cur; [congruence|reflexivity].
Qed.
Lemma step_byte p cur c a : holds p cur -> (c =? 10) || (c =? 13) = false ->
  exists p', serial_step p (Byte c a) = Some (p', []) /\ (holds p' (cur ++ [c]) \/ (a = false /\ p' = reset)).
Proof.
  intros (L & HO) N. unfold serial_step. rewrite N. cbv zeta.
  assert (G : forall tail sp, (exists x y t, tail = x :: y :: t) -> sp = length (cur ++ tail) ->
    exists p', match store (cur ++ tail) (len_ p) c with
            | None => None
            | Some b => match store b (len_ p + 1) 0 with
                        | None => None
                        | Some b => Some (Parser (len_ p + 1) (Some b) sp, [])
                        end
            end = Some (p', @nil action) /\ (holds p' (cur ++ [c]) \/ (a = false /\ p' = reset))).
  { intros tail sp (x & y & t & ->) SP. rewrite L, store_app. replace (cur ++ c :: y :: t) with ((cur ++ [c]) ++ y :: t) by (rewrite <- app_assoc; reflexivity).
    replace (length cur + 1)%nat with (length (cur ++ [c])) by (rewrite app_length; reflexivity). rewrite store_app. eexists. split; [reflexivity|]. left. split; [reflexivity|]. right.
    split; [destruct cur; discriminate|]. exists t. cbn [cmd_ space_]. split; [reflexivity|]. rewrite SP, <- app_assoc, !app_length. reflexivity. }
  destruct (Nat.leb_spec (space_ p) (len_ p + 1)) as [SL|SL].
  - destruct a; [|eexists; split; [reflexivity|right; split; reflexivity]].
    destruct HO as [[-> ->]|(CN & rest & C & S1)].
    + cbn [cmd_ reset space_]. apply (G [0;0;0;0;0;0;0;0]); [eexists _, _, _; reflexivity|reflexivity].
    + rewrite C. rewrite <- app_assoc. set (sp := (space_ p * 3 / 2 + 8)%nat).
      assert (SP : (space_ p + 8 <= sp)%nat) by (unfold sp; pose proof (Nat.div_mod (space_ p * 3) 2); pose proof (Nat.mod_upper_bound (space_ p * 3) 2); lia).
      apply (G ((0 :: rest) ++ repeat 0 (sp - length (cur ++ 0 :: rest)))).
      * rewrite <- S1. destruct (sp - space_ p)%nat eqn:Q; [lia|]. destruct rest; eexists _, _, _; reflexivity.
      * rewrite <- S1. rewrite !app_length, repeat_length. rewrite app_length in S1. lia.
  - destruct HO as [[-> ->]|(CN & rest & C & S1)]; [cbn in SL; lia|]. rewrite C. apply (G (0 :: rest)); [|exact S1]. rewrite S1, app_length in SL. cbn [length] in SL. destruct rest; [cbn in SL; lia|]. eexists _, _, _. reflexivity.
Qed.

Lemma run_lines es : forall p cur, holds p cur -> Forall memory_left es ->
  exists p', serial_run p es = Some (p', concat (map line_actions (lines cur es))).
Proof.
  induction es as [|e es IH]; intros p cur HO M; [exists p; reflexivity|]. inversion M as [|? ? M1 M2]; subst. cbn [serial_run lines]. destruct e as [c a|].
  - destruct ((c =? 10) || (c =? 13)) eqn:N.
    + rewrite (step_newline p cur c a HO N). destruct (IH reset [] ltac:(split; [reflexivity|left; split; reflexivity]) M2) as (p' & ->). exists p'. reflexivity.
    + destruct (step_byte p cur c a HO N) as (p1 & -> & [HO1|[A _]]).
      * destruct (IH _ _ HO1 M2) as (p' & ->). exists p'. reflexivity.
      * cbn in M1. congruence.
  - cbn [serial_step]. destruct (IH reset [] ltac:(split; [reflexivity|left; split; reflexivity]) M2) as (p' & ->). exists p'. reflexivity.
Qed.
Lemma run_safe es : forall p cur, holds p cur -> serial_run p es <> None.
Proof.
  induction es as [|e es IH]; intros p cur HO; [discriminate|]. cbn [serial_run]. assert (R0 : holds reset []) by (split; [reflexivity|left; split; reflexivity]). destruct e as [c a|].
  - destruct ((c =? 10) || (c =? 13)) eqn:N.
    + rewrite (step_newline p cur c a HO N). specialize (IH reset [] R0). destruct (serial_run reset es) as [[? ?]|]; [discriminate|congruence].
    + destruct (step_byte p cur c a HO N) as (p1 & -> & [HO1|[_ ->]]).
      * specialize (IH _ _ HO1). destruct (serial_run p1 es) as [[? ?]|]; [discriminate|congruence].
      * specialize (IH reset [] R0). destruct (serial_run reset es) as [[? ?]|]; [discriminate|congruence].
  - cbn [serial_step]. specialize (IH reset [] R0). destruct (serial_run reset es) as [[? ?]|]; [discriminate|congruence].
Qed.

(** The meaning of a line *)
Lemma rtrim_spec l : ~ In 13 l -> exists k, l = rtrim l ++ repeat 32 k.
Proof.
  induction l as [|c l IH] using rev_ind; intros N; [exists O; reflexivity|]. rewrite rtrim_snoc. destruct IH as (k & E); [intros X; apply N, in_or_app; left; exact X|].
  destruct ((c =? 13) || (c =? 32)) eqn:C.
  - assert (c <> 13) by (intros ->; apply N, in_or_app; right; left; reflexivity). assert (c = 32) as -> by lia. exists (S k). replace (repeat 32 (S k)) with (repeat 32 k ++ [32]) by (symmetry; apply repeat_cons). rewrite app_assoc, <- E. reflexivity.
  - exists O. cbn. rewrite app_nil_r. reflexivity.
Qed.
Lemma rtrim_end l u : rtrim l <> u ++ [32].
Proof.
  induction l as [|c l IH] using rev_ind; intros E; [destruct u; discriminate|]. rewrite rtrim_snoc in E. destruct ((c =? 13) || (c =? 32)) eqn:C; [exact (IH E)|]. apply app_inj_tail in E. lia.
Qed.
Lemma skip_spaces_spec s : exists j, s = repeat 32 j ++ skip_spaces s /\ hd 0 (skip_spaces s) <> 32.
Proof.
  induction s as [|c s IH]; [exists O; split; [reflexivity|discriminate]|]. cbn [skip_spaces]. destruct (Z.eqb_spec c 32) as [->|C].
  - destruct IH as (j & E & F). exists (S j). split; [cbn; f_equal; exact E|exact F].
  - exists O. split; [reflexivity|exact C].
Qed.
Lemma split_word_spec s : let (w, a) := split_word s in ~ In 32 w /\ s = w ++ match a with None => [] | Some a => 32 :: a end.
Proof.
  induction s as [|c s IH]; [split; [intros []|reflexivity]|]. cbn [split_word]. destruct (Z.eqb_spec c 32) as [->|C]; [split; [intros []|reflexivity]|].
  destruct (split_word s) as [w a]. destruct IH as [N E]. split; [intros [X|X]; [congruence|exact (N X)]|]. cbn. f_equal. exact E.
Qed.
Lemma line_means l : ~ In 13 l -> ~ In 0 l -> means l (line_actions l).
Proof.
  intros N13 N0. destruct (list_eq_dec Z.eq_dec l []) as [->|NE]; [apply Nothing; reflexivity|].
  replace (line_actions l) with [action_of (until0 (rtrim l))] by (destruct l; [congruence|reflexivity]).
  destruct (rtrim_spec l N13) as (k & E). pose proof (rtrim_end l) as RE. set (t := rtrim l) in *.
  rewrite until0_id. 2:{ apply Forall_forall. intros c C ->. apply N0. rewrite E. apply in_or_app. left. exact C. }
  unfold action_of. assert (HN : nth 0 t 0 = hd 0 t) by (destruct t; reflexivity). rewrite HN. destruct (Z.eqb_spec (hd 0 t) 35) as [C|C]; [apply (Comment l t k); assumption|].
  destruct (skip_spaces_spec t) as (j & ES & HS). pose proof (split_word_spec (skip_spaces t)) as SW. destruct (split_word (skip_spaces t)) as [w a]. destruct SW as [NW EW]. destruct a as [a|].
  - apply (Call l t k j w a); auto; [rewrite ES at 1; rewrite EW; reflexivity|]. intros ->. rewrite EW in HS. cbn in HS. congruence.
  - rewrite app_nil_r in EW. apply (Bare l t k j w); auto. rewrite ES at 1. rewrite EW. reflexivity.
Qed.
(** ... is unique. *)
Lemma end_unique (t1 t2 : list Z) : forall k1 k2, t1 ++ repeat 32 k1 = t2 ++ repeat 32 k2 -> (forall u, t1 <> u ++ [32]) -> (forall u, t2 <> u ++ [32]) -> t1 = t2.
Proof.
  induction k1 as [|k1 IH]; intros k2 E N1 N2.
  - cbn in E. rewrite app_nil_r in E. destruct k2; [cbn in E; rewrite app_nil_r in E; exact E|]. exfalso. apply (N1 (t2 ++ repeat 32 k2)). rewrite E, <- app_assoc. f_equal. apply repeat_cons.
  - destruct k2; [exfalso; apply (N2 (t1 ++ repeat 32 k1)); cbn [repeat] in E; rewrite app_nil_r in E; rewrite <- E, <- app_assoc; f_equal; apply repeat_cons|].
    apply (IH k2); [|assumption|assumption]. cbn [repeat] in E. rewrite (repeat_cons k1), (repeat_cons k2), !app_assoc in E. apply app_inj_tail in E. apply E.
Qed.
Lemma start_unique j1 : forall j2 (w1 w2 : list Z), repeat 32 j1 ++ w1 = repeat 32 j2 ++ w2 -> hd 0 w1 <> 32 -> hd 0 w2 <> 32 -> w1 = w2.
Proof.
  induction j1 as [|j1 IH]; intros j2 w1 w2 E N1 N2; destruct j2; cbn [repeat app] in E.
  - exact E.
  - subst w1. cbn in N1. congruence.
  - subst w2. cbn in N2. congruence.
  - injection E as E. apply (IH j2); assumption.
Qed.
Lemma word_unique w1 : forall w2 r1 r2, w1 ++ r1 = w2 ++ r2 -> ~ In 32 w1 -> ~ In 32 w2 -> (r1 = [] \/ hd 0 r1 = 32) -> (r2 = [] \/ hd 0 r2 = 32) -> w1 = w2 /\ r1 = r2.
Proof.
  induction w1 as [|c w1 IH]; intros w2 r1 r2 E N1 N2 R1 R2; destruct w2 as [|d w2].
  - split; [reflexivity|exact E].
  - cbn [app] in E. subst r1. destruct R1 as [R1|R1]; [discriminate|]. cbn in R1. exfalso. apply N2. left. exact R1.
  - cbn [app] in E. subst r2. destruct R2 as [R2|R2]; [discriminate|]. cbn in R2. exfalso. apply N1. left. exact R2.
  - cbn [app] in E. injection E as -> E. destruct (IH w2 r1 r2 E) as [-> ->]; auto; intros X; [apply N1|apply N2]; right; exact X.
Qed.
Lemma hd_nospace w : ~ In 32 w -> hd 0 w <> 32.
Proof. destruct w; [discriminate|]. cbn. intros N E. apply N. left. exact E. Qed.
Lemma means_unique l a b : means l a -> means l b -> a = b.
Proof.
  intros A B. destruct A as [E|t k E RE C|t k j w E NE RE C S1 NW|t k j w x E RE C S1 WN NW];
  destruct B as [E'|t' k' E' RE' C'|t' k' j' w' E' NE' RE' C' S1' NW'|t' k' j' w' x' E' RE' C' S1' WN' NW']; try reflexivity; try congruence.
  all: try (exfalso; subst; match goal with
    | H : [] = _ ++ repeat 32 _ |- _ => symmetry in H; apply app_eq_nil in H; destruct H as [H _]; try (subst; discriminate)
    | H : _ ++ repeat 32 _ = [] |- _ => apply app_eq_nil in H; destruct H as [H _]; try (subst; discriminate) end).
  all: try (match goal with H : repeat 32 _ ++ _ ++ 32 :: _ = [] |- _ => apply app_eq_nil in H; destruct H as [_ H]; apply app_eq_nil in H; destruct H as [_ H]; discriminate end).
  all: assert (T : t = t') by (apply (end_unique t t' k k'); congruence); subst t'; try congruence.
  - assert (w = w') as -> by (apply (start_unique j j'); [congruence|apply hd_nospace; assumption|apply hd_nospace; assumption]). reflexivity.
  - exfalso. assert (Q : w = w' ++ 32 :: x') by (apply (start_unique j j'); [congruence|apply hd_nospace; assumption|destruct w'; [congruence|apply (hd_nospace (z :: w')); assumption]]). apply NW. rewrite Q. apply in_or_app. right. left. reflexivity.
  - exfalso. assert (Q : w ++ 32 :: x = w') by (apply (start_unique j j'); [congruence|destruct w; [congruence|apply (hd_nospace (z :: w)); assumption]|apply hd_nospace; assumption]). apply NW'. rewrite <- Q. apply in_or_app. right. left. reflexivity.
  - assert (Q : w ++ 32 :: x = w' ++ 32 :: x') by (apply (start_unique j j'); [congruence|destruct w; [congruence|apply (hd_nospace (z :: w)); assumption]|destruct w'; [congruence|apply (hd_nospace (z :: w')); assumption]]).
    destruct (word_unique _ _ _ _ Q NW NW') as [-> X]; [right; reflexivity|right; reflexivity|]. injection X as ->. reflexivity.
Qed.

Lemma lines_clean es : forall cur, ~ In 13 cur -> ~ In 0 cur -> Forall (fun e => byte_of e <> 0) es -> Forall (fun l => ~ In 13 l /\ ~ In 0 l) (lines cur es).
Proof.
  induction es as [|e es IH]; intros cur N13 N0 F; [constructor|]. inversion F as [|? ? F1 F2]; subst. cbn [lines]. destruct e as [c a|]; [|apply IH; [intros []|intros []|exact F2]].
  destruct ((c =? 10) || (c =? 13)) eqn:N; [constructor; [split; assumption|apply IH; [intros []|intros []|exact F2]]|].
  cbn in F1. apply IH; [| |exact F2]; intros X; apply in_app_or in X; destruct X as [X|[X|[]]]; [exact (N13 X)|lia|exact (N0 X)|lia].
Qed.
Lemma serial_lines es : Forall (fun e => byte_of e <> 0) es -> Forall memory_left es ->
  exists p acts, serial_run reset es = Some (p, concat acts) /\ Forall2 means (lines [] es) acts.
Proof.
  intros F M. destruct (run_lines es reset [] ltac:(split; [reflexivity|left; split; reflexivity]) M) as (p & E). exists p, (map line_actions (lines [] es)). split; [exact E|].
  pose proof (lines_clean es [] ltac:(intros []) ltac:(intros []) F) as C. clear E. induction C as [|l ls [C1 C2] C IH]; cbn [map]; [constructor|constructor; [apply line_means; assumption|exact IH]].
Qed.
