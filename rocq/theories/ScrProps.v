(** C148: screen files. *)
From Coq Require Import ZArith List Bool Lia.
From Verif Require Import SoundModel ScrModel ScrSpec ScrProofs.
Import ListNotations.
Local Open Scope Z_scope.

(** Whatever directives are written, with either line end, the layers are told what the
    directives say, in that order, and no null pointer is used. *)
Theorem C148_text : forall path sound ahead shown ds,
  shown <> [] -> Forall (fun d => writable (fst d)) ds ->
  exists s, screen path sound ahead shown (text_of ds) =
    Some (s, play (length shown) path sound 0 false ahead (nth_name shown) (map fst ds)).
Proof.
  intros path sound ahead shown ds H W. unfold screen.
  apply (text_play path sound ds (St 0 false ahead shown)); auto.
  unfold ok. cbn. destruct shown; [congruence|cbn; lia].
Qed.
(* file=a.bmp / A=battery / layer / file=b / restart / time=from_sound, b shown already *)
Example C148_text_ex :
  let ds := [(DFile [97; 46; 98; 109; 112], true); (DVariable 0 [98; 97; 116; 116; 101; 114; 121], false); (DLayer, true);
             (DFile [98], true); (DRestart, true); (DTime [102; 114; 111; 109; 95; 115; 111; 117; 110; 100], true)] in
  Forall (fun d => writable (fst d)) ds /\
  play 2 (fun v => v) 77 0 false false (nth_name [[]; [98]]) (map fst ds) =
    [Played 0 [97; 46; 98; 109; 112]; Linked 0 0 Battery; Restarted 1; Timed 1 77].
Proof.
  cbn zeta. split; [|vm_compute; reflexivity].
  repeat (apply Forall_cons; [cbn; unfold clean; repeat split; cbn; try lia; repeat (apply Forall_cons; [lia|]); apply Forall_nil|]).
  apply Forall_nil.
Qed.

(** A comment at the end of a line, and the blanks before it, change nothing. *)
Theorem C148_comment : forall path sound s l x blanks comment e rest, e = 10 \/ e = 13 ->
  (forall c, In c (l ++ [x]) -> c <> 0 /\ c <> 35 /\ c <> 10 /\ c <> 13) -> x <> 32 -> ~ (9 <= x <= 13) ->
  (forall c, In c blanks -> c = 32 \/ c = 9) -> (forall c, In c comment -> c <> 10 /\ c <> 13) ->
  (length l + 1 + length blanks + 1 + length comment < 165)%nat ->
  reader path sound s [] ((l ++ [x]) ++ blanks ++ 35 :: comment ++ e :: rest) = reader path sound s [] ((l ++ [x]) ++ e :: rest).
Proof.
  intros path sound s l x b r e rest HE HL H1 H2 HB HR HN.
  replace ((l ++ [x]) ++ b ++ 35 :: r ++ e :: rest) with (((l ++ [x]) ++ b ++ 35 :: r) ++ e :: rest)
    by (rewrite <- !app_assoc; reflexivity).
  apply comment_line; auto.
  - unfold is_nl. destruct HE; subst; reflexivity.
  - intros c I. specialize (HL c I). unfold is_nl. lia.
  - unfold is_space. lia.
  - intros c I. specialize (HR c I). unfold is_nl. lia.
  - rewrite !app_length. cbn [length]. lia.
Qed.
(* layer #x *)
Example C148_comment_ex : forall rest,
  reader (fun v => v) 0 (St 0 false false [[]; []]) [] ([108; 97; 121; 101; 114; 32; 35; 120; 10] ++ rest) =
  reader (fun v => v) 0 (St 0 false false [[]; []]) [] ([108; 97; 121; 101; 114; 10] ++ rest).
Proof.
  intros rest. apply (C148_comment _ _ _ [108; 97; 121; 101] 114 [32] [120] 10 rest); try (cbn; lia); auto; intros c I; cbn in I; lia.
Qed.

(** A line with nothing but a comment on it is skipped. *)
Theorem C148_skip : forall path sound s blanks comment e rest, e = 10 \/ e = 13 ->
  (forall c, In c blanks -> c = 32 \/ c = 9) -> (forall c, In c comment -> c <> 10 /\ c <> 13) ->
  (length blanks + 1 + length comment < 165)%nat ->
  reader path sound s [] (blanks ++ 35 :: comment ++ e :: rest) = reader path sound s [] rest.
Proof.
  intros path sound s b r e rest HE HB HR HN.
  replace (b ++ 35 :: r ++ e :: rest) with ((b ++ 35 :: r) ++ e :: rest) by (rewrite <- !app_assoc; reflexivity).
  apply comment_only; auto.
  - unfold is_nl. destruct HE; subst; reflexivity.
  - intros c I. specialize (HR c I). unfold is_nl. lia.
  - rewrite !app_length. cbn [length]. lia.
Qed.
Example C148_skip_ex : forall rest,
  reader (fun v => v) 0 (St 0 false false [[]]) [] ([32; 35; 108; 97; 121; 101; 114; 10] ++ rest) =
  reader (fun v => v) 0 (St 0 false false [[]]) [] rest.
Proof.
  intros rest. apply (C148_skip _ _ _ [32] [108; 97; 121; 101; 114] 10 rest); try (cbn; lia); auto; intros c I; cbn in I; lia.
Qed.

(** Whatever the file holds, only the layers of the screen are told anything. *)
Theorem C148_inside : forall path sound ahead shown text s calls,
  screen path sound ahead shown text = Some (s, calls) ->
  Forall (fun c => (layer_of c < length shown)%nat) calls.
Proof.
  intros path sound ahead shown text s calls H. apply reader_inside in H. destruct H as [_ H]. exact H.
Qed.
Example C148_inside_ex : exists s,
  screen (fun v => v) 0 false [[]; []] [108; 97; 121; 101; 114; 10; 65; 61; 48; 10] = Some (s, [Linked 1 0 Unknown]).
Proof. eexists. vm_compute. reflexivity. Qed.

(** As many layer lines as there are layers: what comes after them is ignored, whatever it is. *)
Theorem C148_over : forall path sound ahead shown ds tail,
  shown <> [] -> Forall (fun d => writable (fst d)) ds ->
  (length shown <= length (filter (fun d : directive * bool => match fst d with DLayer => true | _ => false end) ds))%nat ->
  screen path sound ahead shown (text_of ds ++ tail) = screen path sound ahead shown (text_of ds).
Proof.
  intros path sound ahead shown ds tail H W C. unfold screen. apply over_tail; auto.
  unfold ok. cbn. destruct shown; [congruence|cbn; lia].
Qed.
Example C148_over_ex : forall tail,
  screen (fun v => v) 0 false [[]] (text_of [(DLayer, true)] ++ tail) = screen (fun v => v) 0 false [[]] (text_of [(DLayer, true)]).
Proof. intros tail. apply C148_over; [discriminate|apply Forall_cons; [exact I|apply Forall_nil]|cbn; lia]. Qed.

(** A file that is showing already goes on where it is, unless a restart line is there. *)
Theorem C148_goes_on : forall path sound shown ds s calls,
  shown <> [] -> Forall (fun d => writable (fst d)) ds -> (forall d, In d ds -> fst d <> DRestart) ->
  screen path sound false shown (text_of ds) = Some (s, calls) -> forall l, ~ In (Restarted l) calls.
Proof.
  intros path sound shown ds s calls H W N R l.
  destruct (C148_text path sound false shown ds H W) as [s' E]. rewrite E in R. injection R as <- <-.
  apply play_quiet. intros d I. apply in_map_iff in I. destruct I as (x & <- & I). auto.
Qed.
Example C148_goes_on_ex : exists s,
  screen (fun v => v) 0 false [[97]; [98]] (text_of [(DFile [97], true); (DLayer, true); (DFile [99], true)]) = Some (s, [Played 1 [99]]).
Proof. eexists. vm_compute. reflexivity. Qed.

(** A restart line of one layer should leave the others alone: one before the layer's file line
    restarts the later layers as well, and those of the next screens. *)
Theorem C148_sticky_refuted :
  ~ (forall ds1 ds2 shown s calls, Forall (fun d => writable (fst d)) (ds1 ++ (DLayer, true) :: ds2) ->
       (forall d, In d ds2 -> fst d <> DRestart) ->
       screen (fun v => v) 0 false shown (text_of (ds1 ++ (DLayer, true) :: ds2)) = Some (s, calls) ->
       ~ In (Restarted 1) calls).
Proof.
  intros H.
  refine (H [(DRestart, true); (DFile [97], true)] [(DFile [98], true)] [[97]; [98]] _ [Restarted 0; Restarted 1] _ _ _ _).
  - repeat (apply Forall_cons; [cbn; unfold clean; repeat split; cbn; try lia; repeat (apply Forall_cons; [lia|]); apply Forall_nil|]).
    apply Forall_nil.
  - intros d [X|[]]. subst. discriminate.
  - vm_compute. reflexivity.
  - right. left. reflexivity.
Qed.
Theorem C148_next_screen_refuted :
  ~ (forall ds1 ds2 shown s1 c1 s2 c2,
       (forall d, In d ds2 -> fst d <> DRestart) ->
       screen (fun v => v) 0 false shown (text_of ds1) = Some (s1, c1) ->
       screen (fun v => v) 0 (do_restart s1) (names s1) (text_of ds2) = Some (s2, c2) ->
       forall l, ~ In (Restarted l) c2).
Proof.
  intros H.
  refine (H [(DRestart, true); (DFile [97], true)] [(DFile [97], true)] [[98]] _ [Played 0 [97]] _ [Restarted 0] _ _ _ 0%nat _).
  - intros d [X|[]]. subst. discriminate.
  - vm_compute. reflexivity.
  - vm_compute. reflexivity.
  - left. reflexivity.
Qed.

(** The last line should count without a line end as well: it is dropped. *)
Theorem C148_last_refuted :
  ~ (forall ds d shown, shown <> [] -> Forall (fun d => writable (fst d)) (ds ++ [(d, true)]) ->
       option_map snd (screen (fun v => v) 0 false shown (text_of ds ++ written d)) =
       option_map snd (screen (fun v => v) 0 false shown (text_of (ds ++ [(d, true)])))).
Proof.
  intros H. specialize (H [] (DFile [97]) [[]]). vm_compute in H.
  assert (F : Some (@nil call) = Some [Played 0 [97]]).
  { apply H; [discriminate|]. apply Forall_cons; [|apply Forall_nil].
    split; [repeat constructor|]. apply Forall_cons; [|apply Forall_nil]. repeat split; discriminate. }
  discriminate.
Qed.

(** No line should bring the reader down: these do, whatever is on the screen. *)
Theorem C148_bare_refuted : forall path sound ahead shown key rest,
  In key [[102; 105; 108; 101]; [116; 105; 109; 101]; [65]; [66]; [67]; [68]; [69]] ->
  screen path sound ahead shown (key ++ 10 :: rest) = None.
Proof.
  intros path sound ahead shown key rest H. cbn [In] in H.
  repeat destruct H as [H|H]; try contradiction; subst key; reflexivity.
Qed.

(** A comment should be as long as one likes: after 165 characters the rest of it is read as
    lines. *)
Theorem C148_long_refuted :
  ~ (forall comment, (forall c, In c comment -> c <> 10 /\ c <> 13) ->
       option_map snd (screen (fun v => v) 0 false [[]] (35 :: comment ++ [10])) = Some []).
Proof.
  intros H. specialize (H (repeat 32 164 ++ [102; 105; 108; 101; 61; 97])).
  assert (F : Some [Played 0 [97]] = Some (@nil call)).
  { rewrite <- H.
    - vm_compute. reflexivity.
    - intros c I. apply in_app_iff in I. destruct I as [I|I]; [apply repeat_spec in I; lia|cbn in I; lia]. }
  discriminate.
Qed.

Print Assumptions C148_text.
Print Assumptions C148_comment.
Print Assumptions C148_skip.
Print Assumptions C148_inside.
Print Assumptions C148_over.
Print Assumptions C148_goes_on.
Print Assumptions C148_sticky_refuted.
Print Assumptions C148_next_screen_refuted.
Print Assumptions C148_last_refuted.
Print Assumptions C148_bare_refuted.
Print Assumptions C148_long_refuted.
