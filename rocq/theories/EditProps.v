(** C123, C124: the menus that edit the styles of a preset. *)
From Coq Require Import ZArith QArith List Bool Lia ZifyBool String Ascii.
From Verif Require Import StrModel StrSpec FileModel StyleModel StyleSpec ModeModel ModeSpec DialModel EditModel EditSpec EditProofs.
Import ListNotations.
Open Scope Z_scope.

(** C123.  As long as only the argument menus are used, from any preset, in any order, an operation
    changes no style at all, or it is the one that stores and changes exactly one argument, one that the
    style asks for, of the style of the blade being edited in the current preset, to the value shown. *)
Theorem C123_one : forall table garbage blades is_time presets max_arg s0 os s o s',
  table_ok table -> (forall p b, tidy (texts s0 p b)) -> stack s0 = [Base] ->
  Forall args_only os -> play table garbage blades is_time presets max_arg s0 os = Some s ->
  args_only o -> step table garbage blades is_time presets max_arg s o = Some s' ->
  texts s' = texts s \/
  storing s o /\ exists v st n, value_text s = Some v /\ n = arg s + off s /\
    FindStyle table (texts s (cur s) (blade s)) = Some st /\
    asks (make_calls st (SkipWord (texts s (cur s) (blade s)))) n /\
    one_argument table (texts s) (texts s') (cur s) (blade s) n v.
Proof.
  intros table garbage blades is_time presets max_arg s0 os s o s' TO TD ST AO P A E.
  pose proof (start_inv table blades s0 ST TD) as I0.
  pose proof (play_inv table garbage blades is_time presets max_arg TO os s0 s I0 AO P) as I.
  destruct (step_inv table garbage blades is_time presets max_arg TO s o s' I A E) as [_ [H|[H (v & V & ONE & st & F & AS)]]]; [auto|].
  right. split; [exact H|]. exists v, st, (arg s + off s). auto.
Qed.

(** An example configuration: two blades; style "s" asks for a color, a number and a time; "builtin"
    asks for a color after its two numbers. *)
Definition txt (s : string) : list Z := map (fun c => Z.of_nat (nat_of_ascii c)) (list_ascii_of_string s).
Definition ex_table : list (list Z * style) :=
  [(txt "s", Plain [CGet 1 (txt "0,0,65535"); CGet 2 (txt "5"); CGet 3 (txt "300")]);
   (txt "builtin", Builtin (fun _ _ => [CGet 1 (txt "1,2,3")]))].
Definition ex_texts (p b : Z) : list Z :=
  if b =? 1 then (if p =? 0 then txt "s 9,9,9 7 1000" else txt "s") else if p =? 0 then txt "builtin 1 2 4,4,4" else txt "builtin 0 1".
Definition ex_start : ed :=
  Ed [Base] ex_texts 0 (0, 0, 0) 1 0 0 (-1) 0 0 0 0 0 (Smooth (0, 0) 0%Q 0%Q 0) (Smooth (0, 0) 0%Q 0%Q 0).
Definition ex_max (t : list Z) (a : Z) : Z := if a =? 3 then 0 else if a =? 2 then 10 else -1.
Definition ex_play := play ex_table [] 2 (fun a => a =? 3) 2 ex_max.
Definition ex_texts_of (o : option ed) : option (list (list Z)) :=
  match o with Some s => Some [texts s 0 1; texts s 0 2; texts s 1 1; texts s 1 2] | None => None end.
Lemma ex_tidy w : forallb (fun c => negb (is_blank c)) (skipn (List.length w - 1) w) = true -> tidy w.
Proof.
  intros H a c E. subst w. rewrite app_length in H. cbn [List.length] in H.
  replace (List.length a + 1 - 1)%nat with (List.length a) in H by lia. rewrite skipn_app, skipn_all, Nat.sub_diag in H. cbn in H.
  intros [B|B]; subst c; discriminate H.
Qed.
Example C123_ex : table_ok ex_table /\ (forall p b, tidy (texts ex_start p b)) /\ stack ex_start = [Base] /\
  (* edit blade 1: the number from 7 to 9; then its color to 1,2,3 *)
  ex_texts_of (ex_play ex_start [EditBlade 1; Pick PArgs; Turned ModeModel.Next; Sel 0%Q; Turned ModeModel.Next; Turned ModeModel.Next; Sel 0%Q;
     Turned ModeModel.Prev; Sel 0%Q; Paint (1, 2, 3); Save])
  = Some [txt "s 1,2,3 9 1000"; txt "builtin 1 2 4,4,4"; txt "s"; txt "builtin 0 1"].
Proof.
  split; [|split; [|split; [reflexivity|vm_compute; reflexivity]]].
  - assert (W : forall w, w <> [] -> forallb (fun c => negb (is_blank c)) w = true -> is_word w).
    { intros w N H. split; [exact N|]. apply Forall_forall. intros c C. rewrite forallb_forall in H. specialize (H c C).
      intros [B|B]; subst c; discriminate H. }
    assert (A : forall w, w <> [] -> forallb (fun c => negb (is_blank c)) w = true -> hd 0 w <> 126 -> arg_text w) by (intros; split; auto).
    repeat constructor; try (apply W; [discriminate|reflexivity]); try (cbn; lia); try (apply A; [discriminate|reflexivity|discriminate]); cbn; try discriminate; intros [?|?]; discriminate.
  - intros p b. apply ex_tidy. cbn [texts ex_start]. unfold ex_texts. destruct (b =? 1), (p =? 0); reflexivity.
Qed.

(** Looking at an argument, changing it and then cancelling leaves every style as it was and the
    argument list on top. *)
Theorem C123_cancel : forall table garbage blades is_time presets max_arg s0 os s a qs s',
  table_ok table -> (forall p b, tidy (texts s0 p b)) -> stack s0 = [Base] ->
  Forall args_only os -> play table garbage blades is_time presets max_arg s0 os = Some s -> stack s = [ArgList; EditStyle; Base] ->
  Forall quiet qs -> play table garbage blades is_time presets max_arg s (Sel a :: qs ++ [Cancel]) = Some s' ->
  texts s' = texts s /\ stack s' = stack s /\ cur s' = cur s /\ blade s' = blade s.
Proof.
  intros table garbage blades is_time presets max_arg s0 os s a qs s' TO TD ST AO P L Q E.
  pose proof (start_inv table blades s0 ST TD) as I0.
  pose proof (play_inv table garbage blades is_time presets max_arg TO os s0 s I0 AO P) as I.
  exact (cancel_all table garbage blades is_time presets max_arg TO s a qs s' I L Q E).
Qed.
Example C123_cancel_ex : exists s s', ex_play ex_start [EditBlade 2; Pick PArgs] = Some s /\ stack s = [ArgList; EditStyle; Base] /\
  ex_play s (Sel 0%Q :: [Paint (7, 7, 7)] ++ [Cancel]) = Some s' /\ texts s' 0 2 = txt "builtin 1 2 4,4,4" /\ off s' = 2.
Proof. eexists. eexists. split; [vm_compute; reflexivity|]. split; [reflexivity|]. split; [vm_compute; reflexivity|]. split; reflexivity. Qed.

(** Storing a number or a color leads back to the argument list, at the same place. *)
Theorem C123_back : forall table garbage blades is_time presets max_arg s0 os s o s',
  table_ok table -> (forall p b, tidy (texts s0 p b)) -> stack s0 = [Base] ->
  Forall args_only os -> play table garbage blades is_time presets max_arg s0 os = Some s ->
  storing s o -> top s = ArgNumber \/ top s = ArgColor ->
  step table garbage blades is_time presets max_arg s o = Some s' ->
  stack s' = [ArgList; EditStyle; Base] /\ list_pos s' = list_pos s.
Proof.
  intros table garbage blades is_time presets max_arg s0 os s o s' TO TD ST AO P SO TP E.
  pose proof (start_inv table blades s0 ST TD) as I0.
  pose proof (play_inv table garbage blades is_time presets max_arg TO os s0 s I0 AO P) as I.
  assert (H : (top s = ArgNumber /\ exists a, o = Sel a) \/ (top s = ArgColor /\ o = Save)).
  { unfold storing in SO. destruct TP as [TP|TP]; rewrite TP in SO; destruct o; try contradiction; eauto. }
  destruct (store_back table garbage blades is_time presets max_arg TO s o s' I E H) as (_ & K & _ & SM & _).
  split; [exact K|]. apply SM.
Qed.
(** Storing a fraction or a time leaves the argument list too: select() calls popMode twice. *)
Theorem C123_back_refuted : forall table garbage blades is_time presets max_arg s0 os s a s',
  table_ok table -> (forall p b, tidy (texts s0 p b)) -> stack s0 = [Base] ->
  Forall args_only os -> play table garbage blades is_time presets max_arg s0 os = Some s ->
  top s = ArgSmooth \/ top s = ArgTime ->
  step table garbage blades is_time presets max_arg s (Sel a) = Some s' -> stack s' = [EditStyle; Base].
Proof.
  intros table garbage blades is_time presets max_arg s0 os s a s' TO TD ST AO P TP E.
  pose proof (start_inv table blades s0 ST TD) as I0.
  pose proof (play_inv table garbage blades is_time presets max_arg TO os s0 s I0 AO P) as I.
  exact (proj2 (store_two table garbage blades is_time presets max_arg TO s a s' I E TP)).
Qed.
(** ... and a time that is opened and stored without being turned changes: the dial is set from the
    milliseconds but read as a fraction of 32768.  Here 1000 ms become 12 ms (the dial itself also moves on being opened: C121). *)
Theorem C123_time_refuted : exists s s', 
  ex_play ex_start [EditBlade 1; Pick PArgs; Turned ModeModel.Prev; Sel 0%Q; Sensor 0%Q] = Some s /\ top s = ArgTime /\
  texts s 0 1 = txt "s 9,9,9 7 1000" /\
  step ex_table [] 2 (fun a => a =? 3) 2 ex_max s (Sel 0%Q) = Some s' /\ texts s' 0 1 = txt "s 9,9,9 7 12".
Proof. eexists. eexists. split; [vm_compute; reflexivity|]. split; [reflexivity|]. split; [vm_compute; reflexivity|]. split; vm_compute; reflexivity. Qed.

(** A number argument, opened, turned and stored: the value it had plus the steps turned, around the
    number of values m. *)
Theorem C123_number : forall table garbage blades is_time presets max_arg s0 os s a ts a' s1 s' w v m,
  table_ok table -> (forall p b, tidy (texts s0 p b)) -> stack s0 = [Base] ->
  Forall args_only os -> play table garbage blades is_time presets max_arg s0 os = Some s -> stack s = [ArgList; EditStyle; Base] ->
  step table garbage blades is_time presets max_arg s (Sel a) = Some s1 -> top s1 = ArgNumber ->
  play table garbage blades is_time presets max_arg s1 (map Turned ts ++ [Sel a']) = Some s' ->
  GetArgument table (texts s (cur s) (blade s)) (arg s1 + off s) = (true, Some w) -> fst (strtol0 w) = v ->
  m = (if max_arg (texts s (cur s) (blade s)) (arg s1) <? 0 then 32768 else max_arg (texts s (cur s) (blade s)) (arg s1)) ->
  0 <= v < m -> m <= 65535 ->
  one_argument table (texts s) (texts s') (cur s) (blade s) (arg s1 + off s) (itoa ((v + turned ts) mod m)) /\
  stack s' = stack s.
Proof.
  intros table garbage blades is_time presets max_arg s0 os s a ts a' s1 s' w v m TO TD ST AO P.
  pose proof (start_inv table blades s0 ST TD) as I0.
  pose proof (play_inv table garbage blades is_time presets max_arg TO os s0 s I0 AO P) as I.
  exact (number_all table garbage blades is_time presets max_arg TO s a ts a' s1 s' w v m I).
Qed.
Example C123_number_ex : exists s s1, ex_play ex_start [EditBlade 1; Pick PArgs; Turned ModeModel.Next] = Some s /\
  ex_play s [Sel 0%Q] = Some s1 /\ top s1 = ArgNumber /\ GetArgument ex_table (texts s 0 1) (arg s1 + off s) = (true, Some (txt "7")) /\
  strtol0 (txt "7") = (7, []) /\ num_max s1 = 10 /\ num_pos s1 = 7.
Proof. eexists. eexists. split; [vm_compute; reflexivity|]. split; [vm_compute; reflexivity|]. repeat split. Qed.

(** A color argument, changed and saved, is shown again when opened again. *)
Theorem C123_color : forall table garbage blades is_time presets max_arg s0 os s a r g b a' s1 s',
  table_ok table -> (forall p b, tidy (texts s0 p b)) -> stack s0 = [Base] ->
  Forall args_only os -> play table garbage blades is_time presets max_arg s0 os = Some s -> stack s = [ArgList; EditStyle; Base] ->
  step table garbage blades is_time presets max_arg s (Sel a) = Some s1 -> top s1 = ArgColor -> ch16 r -> ch16 g -> ch16 b ->
  play table garbage blades is_time presets max_arg s1 [Paint (r, g, b); Save; Sel a'] = Some s' ->
  top s' = ArgColor /\ arg s' = arg s1 /\ shown s' = (r, g, b).
Proof.
  intros table garbage blades is_time presets max_arg s0 os s a r g b a' s1 s' TO TD ST AO P.
  pose proof (start_inv table blades s0 ST TD) as I0.
  pose proof (play_inv table garbage blades is_time presets max_arg TO os s0 s I0 AO P) as I.
  exact (color_all table garbage blades is_time presets max_arg TO s a r g b a' s1 s' I).
Qed.
Example C123_color_ex : exists s s1 s', ex_play ex_start [EditBlade 2; Pick PArgs] = Some s /\ ex_play s [Sel 0%Q] = Some s1 /\
  top s1 = ArgColor /\ shown s1 = (4, 4, 4) /\ ex_play s1 [Paint (65535, 0, 12); Save; Sel 0%Q] = Some s' /\
  shown s' = (65535, 0, 12) /\ texts s' 0 2 = txt "builtin 1 2 65535,0,12".
Proof. eexists. eexists. eexists. split; [vm_compute; reflexivity|]. split; [vm_compute; reflexivity|]. split; [reflexivity|]. split; [reflexivity|]. split; [vm_compute; reflexivity|]. split; reflexivity. Qed.
(** "Reset to default" in the color menu does not find the default of a builtin style's color: it
    asks for argument 1, the preset's number, and reads past the end of that text. *)
Theorem C123_default_refuted : exists s, ex_play ex_start [EditBlade 2; Pick PArgs; Sel 0%Q] = Some s /\ top s = ArgColor /\
  GetArgument ex_table (ResetArguments (texts s 0 2)) (arg s + off s) = (true, Some (txt "1,2,3")) /\
  ex_play s [DefaultColor] = None.
Proof. eexists. split; [vm_compute; reflexivity|]. split; [reflexivity|]. split; vm_compute; reflexivity. Qed.
(** The place in the argument list is kept when another style is edited, also if that style has
    fewer arguments; selecting then reads past the set of arguments. *)
Theorem C123_place_refuted : exists s, ex_play ex_start [EditBlade 1; Pick PArgs; Turned ModeModel.Prev; Cancel; Cancel; EditBlade 2; Pick PArgs] = Some s /\
  stack s = [ArgList; EditStyle; Base] /\ List.length (snd (info ex_table (texts s 0 2))) = 1%nat /\ list_pos s = 2 /\ ex_play s [Sel 0%Q] = None.
Proof. eexists. split; [vm_compute; reflexivity|]. repeat split. Qed.

(** Which style is the selected one: that of the preset and blade being edited when "select" is chosen. *)
Theorem C124_selected : forall table garbage blades is_time presets max_arg s s' l,
  stack s = EditStyle :: l -> step table garbage blades is_time presets max_arg s (Pick PSelect) = Some s' ->
  sel_preset s' = cur s /\ sel_blade s' = blade s /\ cur s' = cur s /\ blade s' = blade s /\
  texts s' = texts s /\ stack s' = stack s.
Proof. intros table garbage blades is_time presets max_arg s s' l L E. unfold step in E. rewrite L in E. cbn [picked] in E. injection E as <-. repeat split. Qed.
Example C124_selected_ex : exists s, ex_play ex_start [GoPreset 1; EditBlade 2; Pick PSelect] = Some s /\ sel_preset s = 1 /\ sel_blade s = 2.
Proof. eexists. split; [vm_compute; reflexivity|]. split; reflexivity. Qed.
(** C124.  "Apply settings / colors from the selected style" and "reset": exactly one style changes,
    that of the blade whose style was selected, in the current preset; it takes the arguments (or the
    colors, or none) of the selected style. *)
Theorem C124_apply : forall table garbage blades is_time presets max_arg s k s' l,
  stack s = EditStyle :: l -> k = PApplyArgs \/ k = PApplyColors \/ k = PResetArgs \/ k = PResetColors ->
  step table garbage blades is_time presets max_arg s (Pick k) = Some s' ->
  stack s' = stack s /\
  (sel_preset s = -1 -> k <> PResetArgs -> texts s' = texts s) /\
  (sel_preset s <> -1 \/ k = PResetArgs ->
   only_text (texts s) (texts s') (cur s) (sel_blade s) /\ 1 <= sel_blade s <= blades /\
   let old := texts s (cur s) (sel_blade s) in let new := texts s' (cur s) (sel_blade s) in
   let from := texts s (sel_preset s) (sel_blade s) in
   (k = PApplyArgs -> words new = name_words old ++ arg_words from) /\
   (k = PApplyColors -> colors_copied from old new) /\
   (k = PResetArgs -> words new = name_words old) /\
   (k = PResetColors -> colors_copied (txt "builtin 0 0") old new)).
Proof. intros. eapply pick_one; eauto. Qed.
Example C124_apply_ex :
  ex_texts_of (ex_play ex_start [EditBlade 1; Pick PSelect; Cancel; GoPreset 1; EditBlade 1; Pick PApplyArgs])
  = Some [txt "s 9,9,9 7 1000"; txt "builtin 1 2 4,4,4"; txt "s 9,9,9 7 1000"; txt "builtin 0 1"].
Proof. vm_compute. reflexivity. Qed.
(** Not the blade being edited: if that is another one, its style stays what it was. *)
Theorem C124_apply_refuted : forall table garbage blades is_time presets max_arg s k s' l,
  stack s = EditStyle :: l -> k = PApplyArgs \/ k = PApplyColors \/ k = PResetArgs \/ k = PResetColors ->
  step table garbage blades is_time presets max_arg s (Pick k) = Some s' -> blade s <> sel_blade s ->
  texts s' (cur s) (blade s) = texts s (cur s) (blade s).
Proof.
  intros table garbage blades is_time presets max_arg s k s' l L K E D.
  destruct (pick_one table garbage blades is_time presets max_arg s k s' l L K E) as (_ & A & B).
  destruct (Z.eq_dec (sel_preset s) (-1)) as [M|M].
  - assert (k = PResetArgs \/ k <> PResetArgs) as [H|H] by (destruct k; ((left; reflexivity) || (right; discriminate))).
    + destruct B as [O _]; [auto|]. apply O. auto.
    + rewrite (A M H). reflexivity.
  - destruct B as [O _]; [auto|]. apply O. auto.
Qed.
Example C124_apply_refuted_ex :
  ex_texts_of (ex_play ex_start [EditBlade 1; Pick PSelect; Cancel; EditBlade 2; Pick PResetArgs])
  = Some [txt "s"; txt "builtin 1 2 4,4,4"; txt "s"; txt "builtin 0 1"].
Proof. vm_compute. reflexivity. Qed.

(** "Apply colors to all blades": every other blade of the current preset takes the colors of the
    selected blade's style; nothing else changes. *)
Theorem C124_all : forall table garbage blades is_time presets max_arg s s' l,
  stack s = EditStyle :: l -> 0 <= blades ->
  step table garbage blades is_time presets max_arg s (Pick PAllBlades) = Some s' ->
  stack s' = stack s /\ 1 <= sel_blade s <= blades /\
  (forall b, 1 <= b <= blades -> b <> sel_blade s ->
     colors_copied (texts s (cur s) (sel_blade s)) (texts s (cur s) b) (texts s' (cur s) b)) /\
  (forall p b, p <> cur s \/ b = sel_blade s \/ ~ 1 <= b <= blades -> texts s' p b = texts s p b).
Proof. intros. eapply pick_all; eauto. Qed.
Example C124_all_ex :
  ex_texts_of (ex_play ex_start [EditBlade 2; Pick PSelect; Pick PAllBlades])
  = Some [txt "s 4,4,4 7 1000"; txt "builtin 1 2 4,4,4"; txt "s"; txt "builtin 0 1"].
Proof. vm_compute. reflexivity. Qed.
(** With no style selected (as after starting) it and "reset settings" use a blade number outside the
    table: undefined behaviour. *)
Theorem C124_none_refuted : forall table garbage blades is_time presets max_arg s l k,
  stack s = EditStyle :: l -> ~ 1 <= sel_blade s <= blades -> k = PAllBlades \/ k = PResetArgs ->
  step table garbage blades is_time presets max_arg s (Pick k) = None.
Proof. intros. eapply pick_undefined; eauto. Qed.
Example C124_none_ex : exists s, ex_play ex_start [EditBlade 1] = Some s /\ stack s = [EditStyle; Base] /\ sel_blade s = 0.
Proof. eexists. split; [vm_compute; reflexivity|]. split; reflexivity. Qed.

(** Choosing another style from the list does not change to that style, whichever it is: the blade
    whose style was selected keeps its style and loses all its arguments. *)
Theorem C124_style_refuted : forall table garbage blades is_time presets max_arg s a s' l,
  stack s = StyleList :: EditStyle :: l -> step table garbage blades is_time presets max_arg s (Sel a) = Some s' ->
  only_text (texts s) (texts s') (cur s) (sel_blade s) /\ 1 <= sel_blade s <= blades /\
  words (texts s' (cur s) (sel_blade s)) = name_words (texts s (cur s) (sel_blade s)) /\ stack s' = EditStyle :: l.
Proof. intros. eapply style_select; eauto. Qed.
Example C124_style_ex :
  ex_texts_of (ex_play ex_start [EditBlade 2; Pick PSelect; Pick PStyle; Turned ModeModel.Next; Sel 0%Q])
  = Some [txt "s 9,9,9 7 1000"; txt "builtin 1 2"; txt "s"; txt "builtin 0 1"].
Proof. vm_compute. reflexivity. Qed.
(** The list starts at the current style "builtin p b", but says p as the blade and b as the preset. *)
Theorem C124_place_refuted : forall table garbage blades is_time presets max_arg s s' l p b rest,
  stack s = EditStyle :: l -> words (texts s (cur s) (blade s)) = txt "builtin" :: itoa p :: itoa b :: rest ->
  0 <= p -> 0 <= b < blades -> p * blades + b < 65536 ->
  step table garbage blades is_time presets max_arg s (Pick PStyle) = Some s' ->
  style_blade blades s' = p /\ style_preset blades s' = b.
Proof. intros. eapply style_open; eauto. Qed.
Example C124_place_ex : exists s s', ex_play ex_start [GoPreset 1; EditBlade 2] = Some s /\ ex_play s [Pick PStyle] = Some s' /\
  words (texts s 1 2) = [txt "builtin"; itoa 0; itoa 1] /\ style_blade 2 s' = 0 /\ style_preset 2 s' = 1.
Proof. eexists. eexists. split; [vm_compute; reflexivity|]. split; [vm_compute; reflexivity|]. repeat split. Qed.

Print Assumptions C123_one.
Print Assumptions C123_cancel.
Print Assumptions C123_back.
Print Assumptions C123_back_refuted.
Print Assumptions C123_time_refuted.
Print Assumptions C123_number.
Print Assumptions C123_color.
Print Assumptions C123_default_refuted.
Print Assumptions C123_place_refuted.
Print Assumptions C124_apply.
Print Assumptions C124_apply_refuted.
Print Assumptions C124_all.
Print Assumptions C124_none_refuted.
Print Assumptions C124_style_refuted.
Print Assumptions C124_place_refuted.
Print Assumptions C124_selected.
