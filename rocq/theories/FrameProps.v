(** Properties of the monochrome display: drawing, text, images. *)
From Coq Require Import ZArith List Bool Lia ZifyBool ZifyNat.
From Verif Require Import FrameModel FrameSpec FrameProofs FrameConv FramePerm FrameText.
Import ListNotations.
Open Scope Z_scope.

(** C80: every drawing operation changes exactly the pixels it names. *)
Theorem C80_lines : forall W H f, screen W H f ->
  (forall x y, 0 <= x < W -> 0 <= y < H -> draws W H (set_pixel W H f x y) (fun x' y' => pixel f x' y' || ((x' =? x) && (y' =? y)))) /\
  (forall x y, 0 <= x < W -> 0 <= y < H -> get_pixel W H f x y = Some (pixel f x y)) /\
  (forall x y1 y2, 0 <= x < W -> 0 <= y1 < y2 -> y2 <= H ->
     draws W H (draw_vline W H f x y1 y2) (fun x' y => pixel f x' y || ((x' =? x) && between y1 y y2))) /\
  (forall x1 x2 y, 0 <= x1 <= x2 -> x2 <= W -> 0 <= y < H ->
     draws W H (draw_hline W H f x1 x2 y) (fun x y' => pixel f x y' || (between x1 x x2 && (y' =? y)))) /\
  (forall x1 x2 y1 y2, 0 <= x1 <= x2 -> x2 <= W -> 0 <= y1 < y2 -> y2 <= H ->
     draws W H (draw_rect W H f x1 x2 y1 y2) (fun x y => pixel f x y || (between x1 x x2 && between y1 y y2))).
Proof.
  intros W H f SC. split; [intros; apply set_pixel_ok; assumption|]. split; [intros; apply get_pixel_ok; assumption|]. split; [intros; apply draw_vline_ok; assumption|].
  split; [intros; apply draw_hline_ok; assumption|intros; apply draw_rect_ok; assumption].
Qed.

(** C80, whole screen: clearing, inverting and mirroring. *)
Theorem C80_screen : forall W H f, 0 <= W -> height H -> screen W H f ->
  draws W H (Some (clear f)) (fun _ _ => false) /\
  (is_clear W f = true <-> shows W H f (fun _ _ => false)) /\
  draws W H (invert W H f) (fun x y => negb (pixel f x y)) /\
  draws W H (Some (flip_x W f)) (fun x y => pixel f (W - 1 - x) y) /\
  (H <> 64 -> draws W H (flip_y W H f) (fun x y => pixel f x (H - 1 - y))).
Proof.
  intros W H f HW HH SC. assert (HP : 0 <= H) by (destruct HH as [->|[->|[->| ->]]]; lia). split; [apply clear_ok; exact HP|]. split; [apply is_clear_ok; assumption|].
  split; [apply invert_ok; assumption|]. split; [apply flip_x_ok; assumption|]. intros. apply flip_y_ok; assumption.
Qed.

(** C80 for ClearRect: it clears the columns it names, but from the top of the screen (row 0) on. *)
Theorem C80_clear_rect : forall W H f x1 x2 y1 y2, screen W H f -> 0 <= x1 <= x2 -> x2 <= W -> 0 <= y1 < y2 -> y2 <= H ->
  draws W H (clear_rect W H f x1 x2 y1 y2) (fun x y => pixel f x y && negb (between x1 x x2 && between 0 y y2)).
Proof. intros. apply clear_rect_ok; assumption. Qed.
(** So the claim is false for rectangles that do not start at row 0. *)
Theorem C80_clear_rect_refuted : exists W H f x1 x2 y1 y2, screen W H f /\ 0 <= x1 <= x2 /\ x2 <= W /\ 0 <= y1 < y2 /\ y2 <= H /\
  ~ draws W H (clear_rect W H f x1 x2 y1 y2) (fun x y => pixel f x y && negb (between x1 x x2 && between y1 y y2)).
Proof.
  exists 1, 8, (fun _ => 1), 0, 1, 1, 2. split; [intros x X; cbn; lia|]. do 4 (split; [lia|]). intros (f' & E & _ & S). vm_compute in E. injection E as <-. specialize (S 0 0 ltac:(lia) ltac:(lia)). vm_compute in S. discriminate.
Qed.
(** Mirroring a 64-row screen top to bottom shifts an int by 32. *)
Theorem C80_flip_64_refuted : forall W f, 0 < W -> flip_y W 64 f = None.
Proof. intros W f HW. unfold flip_y. destruct (Z.to_nat W) eqn:E; [lia|]. reflexivity. Qed.

Example C80_ex : let f := fun _ => 129 in screen 4 8 f /\
  option_map (fun f => map f [0; 1; 2; 3]) (draw_rect 4 8 f 1 3 2 4) = Some [129; 141; 141; 129] /\
  option_map (fun f => map f [0; 1; 2; 3]) (clear_rect 4 8 (fun _ => 255) 1 3 2 4) = Some [255; 240; 240; 255] /\
  option_map (fun f => map f [0; 1; 2; 3]) (flip_y 4 8 (fun x => x + 1)) = Some [128; 64; 192; 32] /\ height 8.
Proof. split; [intros x X; cbn; lia|]. repeat split; try (vm_compute; reflexivity). left. reflexivity. Qed.

(** C81: a text lights exactly the pixels of its glyphs that fall on the screen; nothing else
    changes and no memory outside of the screen is touched. *)
Theorem C81_text : forall maxh W H font str f x y, 0 <= W -> screen W H f -> ~ In 127 str ->
  (forall c, In c str -> 32 <= c <= 126 -> (Z.to_nat (c - 32) < length font)%nat) ->
  (forall g gx gy, In (g, gx, gy) (placed font x y str) -> drawable maxh H g /\ - H < gy + yoffset g < H) ->
  draws W H (draw_text maxh W H font f x y str) (fun x' y' => pixel f x' y' || existsb (fun p => lit_by p x' y') (placed font x y str)).
Proof. intros. apply draw_text_ok; assumption. Qed.
Theorem C81_glyph : forall maxh W H f g x y, 0 <= W -> screen W H f -> drawable maxh H g -> - H < y + yoffset g < H ->
  draws W H (draw maxh W H f g x y) (fun x' y' => pixel f x' y' || lit_by (g, x, y) x' y').
Proof. intros. apply draw_ok; assumption. Qed.
(** The fonts have 95 glyphs (space to tilde); the character 127 reads beyond them. *)
Theorem C81_delete_refuted : forall maxh W H font f x y, length font = 95%nat -> draw_text maxh W H font f x y [127] = None.
Proof.
  intros maxh W H font f x y L. cbn [draw_text]. change (127 =? 10) with false. change ((32 <=? 127) && (127 <=? 127)) with true. cbn match.
  replace (nth_error font (Z.to_nat (127 - 32))) with (@None glyph); [reflexivity|]. symmetry. apply nth_error_None. rewrite L. apply Nat.leb_le. reflexivity.
Qed.
(** A glyph below the screen (the third line of a message on a 32-row screen) shifts too far. *)
Theorem C81_below_refuted : forall W H f g, 0 < W -> 0 < H -> screen W H f -> drawable 32 H g -> 0 < columns g ->
  draw 32 W H f g (- xoffset g) (H - yoffset g) = None.
Proof.
  intros W H f g W0 H0 SC (CS & GR) C. unfold draw. cbv zeta. replace (- xoffset g + xoffset g) with 0 by lia. replace (H - yoffset g + yoffset g) with H by lia.
  change (Z.max 0 (- 0)) with 0. destruct (Z.to_nat (Z.min (columns g) (W - 0) - 0)) as [|n] eqn:E; [lia|].
  assert (Q : forall t, draw2 W H t f 0 0 H (data g) (S n) = None).
  { intros t. cbn [draw2]. cbv zeta. replace (0 <? H) with true by lia. unfold shl. replace (H <? H) with false by lia. rewrite andb_false_r. reflexivity. }
  destruct CS as [CS|[(CS & _)|(CS & _)]]; rewrite CS; apply Q.
Qed.
(** A table entry for a glyph with 64-bit columns is stored with a column size that Draw ignores. *)
Theorem C81_tall_refuted : forall maxh W H f skip xo yo n d x y, draw maxh W H f (glyph_entry skip xo yo n 8 d) x y = Some f.
Proof. intros. reflexivity. Qed.

Example C81_ex : let g := glyph_entry 3 0 (-2) 2 1 (fun i => i + 5) in let font := [g; g] in
  screen 4 8 (fun _ => 0) /\ drawable 32 8 g /\ placed font (-1) 4 [32; 10; 33] = [(g, -1, 4); (g, 0, 20)] /\
  placed font (-1) 4 [32; 33] = [(g, -1, 4); (g, 2, 4)] /\
  option_map (fun f => map f [0; 1; 2; 3]) (draw_text 32 4 8 font (fun _ => 0) (-1) 4 [32; 33]) = Some [24; 0; 20; 24].
Proof. cbv zeta. split; [intros x X; cbn; lia|]. split; [split; [left; reflexivity|vm_compute; discriminate]|]. split; [reflexivity|]. split; [reflexivity|]. vm_compute. reflexivity. Qed.

(** C82: an image as wide as the screen is shown pixel by pixel as it is in the file; upside down
    if the file stores its rows bottom to top ([iv]), inverted if [xo]. *)
Theorem C82_landscape : forall W H iv xo bytes l l', height H -> 0 < W -> W mod H = 0 -> (forall i, 0 <= bytes i < 256) ->
  choose_layout W H W l = Some l' ->
  draws W H (convert_to_native W H l' iv xo (load H bytes)) (fun x y => xorb xo (image W bytes x (if iv then H - 1 - y else y))).
Proof.
  intros W H iv xo bytes l l' HH W0 WM BY C. unfold choose_layout in C. rewrite Z.eqb_refl in C. injection C as <-. apply native_landscape_ok; assumption.
Qed.
(** The conversion for images as wide as the screen is high turns them by a quarter ... *)
Theorem C82_portrait : forall W H bytes, 0 <= W -> height H -> (forall i, 0 <= bytes i < 256) ->
  draws W H (convert_portrait W H (load H bytes)) (fun x y => image H bytes (H - 1 - y) x).
Proof. intros. apply portrait_ok; assumption. Qed.
(** ... but is never used: the layout is not recorded, and on a cleared screen the image is shown
    with each group of eight pixels of a row mirrored. *)
Theorem C82_portrait_refuted : forall W H bytes, height H -> W <> H -> (forall i, 0 <= bytes i < 256) ->
  choose_layout W H H LAYOUT_NATIVE = Some LAYOUT_NATIVE /\
  (forall l, choose_layout W H H l = Some LAYOUT_PORTRAIT -> l = LAYOUT_PORTRAIT) /\
  draws W H (convert_to_native W H LAYOUT_NATIVE false false (load H bytes)) (fun x y => image H bytes (8 * (y / 8) + (7 - y mod 8)) x).
Proof.
  intros W H bytes HH N BY. unfold choose_layout. replace (H =? W) with false by lia. rewrite Z.eqb_refl. split; [reflexivity|]. split; [intros l E; injection E as E; exact E|]. apply native_portrait; assumption.
Qed.
(** A single lit pixel of a 16-pixel wide image then appears in the wrong row. *)
Example C82_ex : let bytes := fun i => if i =? 0 then 128 else 0 in
  height 8 /\ 16 mod 8 = 0 /\ image 16 bytes 0 0 = true /\ image 16 bytes 1 0 = false /\
  option_map (fun f => map f [0; 1; 8]) (convert_to_native 16 8 LAYOUT_LANDSCAPE false false (load 8 bytes)) = Some [1; 0; 0] /\
  option_map (fun f => map f [0; 1]) (convert_to_native 2 16 LAYOUT_PORTRAIT false false (load 16 bytes)) = Some [32768; 0] /\
  option_map (fun f => map f [0; 1]) (convert_to_native 2 16 LAYOUT_NATIVE false false (load 16 bytes)) = Some [128; 0].
Proof. cbv zeta. split; [left; reflexivity|]. repeat split; vm_compute; reflexivity. Qed.

Print Assumptions C80_lines.
Print Assumptions C80_screen.
Print Assumptions C80_clear_rect.
Print Assumptions C80_clear_rect_refuted.
Print Assumptions C80_flip_64_refuted.
Print Assumptions C81_text.
Print Assumptions C81_glyph.
Print Assumptions C81_delete_refuted.
Print Assumptions C81_below_refuted.
Print Assumptions C81_tall_refuted.
Print Assumptions C82_landscape.
Print Assumptions C82_portrait.
Print Assumptions C82_portrait_refuted.
