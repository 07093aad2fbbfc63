(** C139: images drawn in the air. *)
From Coq Require Import List ZArith Bool QArith Lia.
From Verif Require Import PovModel PovSpec PovProofs.
Import ListNotations.
Local Open Scope Z_scope.

(** The decoder reads the format: bytes written as pieces give what the pieces
    mean, whatever follows them. *)
Theorem C139_format : forall ps data tail, means [] ps data ->
  rle_decode (flat_map written ps ++ tail) (length data) = Some data.
Proof. exact decode_pieces. Qed.

Example C139_format_ex :
  means [] [Bytes [7; 9]; Again 2 3; Times 2 5] [7; 9; 7; 9; 7; 5; 5].
Proof.
  apply means_cons with (b := [7; 9]); [cbn; lia | reflexivity |].
  apply means_cons with (b := [7; 9; 7; 9; 7]); [cbn; lia | |].
  - cbn. repeat split; try lia.
    intros [|[|[|j]]] J; try reflexivity. lia.
  - apply means_cons with (b := [7; 9; 7; 9; 7; 5; 5]); [cbn; lia | reflexivity |].
    constructor.
Qed.

(** The encoder writes the format. *)
Theorem C139_encode : forall data, repeats_plain data ->
  exists ps, rle_encode_internal data = flat_map written ps /\ means [] ps data.
Proof. exact encode_pieces. Qed.

Theorem C139_round_trip : forall data, repeats_plain data ->
  exists output, rle_encode data = Some output /\
    forall tail, rle_decode (output ++ tail) (length data) = Some data.
Proof.
  intros data H. exists (rle_encode_internal data). split.
  - now apply encode_some.
  - intros. now apply round_trip.
Qed.

(** Every column of at most 256 bytes is fine. *)
Theorem C139_short : forall data, (length data <= 256)%nat ->
  exists output, rle_encode data = Some output /\
    forall tail, rle_decode (output ++ tail) (length data) = Some data.
Proof. intros data H. apply C139_round_trip. now apply short_plain. Qed.

Example C139_round_trip_ex :
  rle_encode [0; 0; 0; 0; 7; 9; 1; 7; 9; 1; 7; 9; 4] =
  Some [130; 0; 2; 7; 9; 1; 255; 2; 5; 0; 4].
Proof. reflexivity. Qed.

(** A column of one colour, 87 or more pixels of three bytes, is not: the length
    256 of the repeated stretch does not fit into its byte, and the tool
    aborts. *)
Theorem C139_color_refuted :
  rle_encode (concat (repeat [200; 100; 50] 144)) = None.
Proof. vm_compute. reflexivity. Qed.

(** The encoder stays inside the buffer the tools give it (twice the column and
    two), aborting or not. *)
Theorem C139_size : forall data,
  (length (rle_encode_internal data) <= 2 * length data + 2)%nat.
Proof. intros. pose proof (encode_size data). lia. Qed.

(** And in the one it asks for itself: one byte more than the column for every 128 bytes of
    it, and two. *)
Theorem C139_tight : forall data,
  (length (rle_encode_internal data) <= length data + 2 + length data / 128)%nat.
Proof. intros. pose proof (encode_tight data). lia. Qed.
Example C139_tight_ex : length (rle_encode_internal [1; 2; 3; 4; 5]) = 6%nat.
Proof. reflexivity. Qed.

(** Every column of an image decodes from its place in the tables. *)
Theorem C139_image : forall columns blob offsets,
  make_image columns = Some (blob, offsets) ->
  length offsets = length columns /\
  forall k data, nth_error columns k = Some data ->
    rle_decode (skipn (nth k offsets 0%nat) blob) (length data) = Some data.
Proof. exact image_decodes. Qed.

Example C139_image_ex :
  make_image [[1; 2; 3]; [0; 0; 0]; [1; 2; 3]; [3; 3; 3]; [0; 5; 5]] =
  Some ([2; 1; 2; 3; 129; 0; 129; 3; 2; 0; 5; 5], [0; 4; 0; 6; 8]%nat).
Proof. reflexivity. Qed.

Theorem C139_made : forall columns,
  (forall data, In data columns -> repeats_plain data) ->
  exists image, make_image columns = Some image.
Proof. intros. now apply image_made. Qed.

(** A column that is there already costs no image data; sharing never costs. *)
Theorem C139_shared : forall columns data image,
  make_image columns = Some image -> In data columns ->
  exists image', make_image (columns ++ [data]) = Some image' /\
    fst image' = fst image.
Proof. exact shared_column. Qed.

Theorem C139_smaller : forall columns blob offsets,
  make_image columns = Some (blob, offsets) ->
  (length blob <=
   fold_right (fun d n => length (rle_encode_internal d) + n) 0 columns)%nat.
Proof. intros columns blob offsets H. exact (tables_size _ _ _ H). Qed.

(** The tool that numbers colours: the numbers name the pixels' colours, no
    colour twice, at most 256; it succeeds when there are no more. *)
Theorem C139_colors : forall columns map datas,
  quantize_all [] columns = Some (map, datas) ->
  NoDup map /\ (length map <= 256)%nat /\
  Forall2 (Forall2 (fun c x =>
    0 <= c < Z.of_nat (length map) /\ nth (Z.to_nat c) map 0 = x)) datas columns.
Proof.
  intros columns map datas H.
  destruct (quantize_all_spec _ _ _ _ (NoDup_nil _) ltac:(cbn; lia) H)
    as (A & B & _ & C). auto.
Qed.

Theorem C139_colors_fit : forall columns palette, (length palette <= 256)%nat ->
  (forall p, In p columns -> incl p palette) ->
  quantize_all [] columns <> None.
Proof.
  intros columns palette L H.
  destruct (quantize_all_some palette columns [] L (NoDup_nil _)
              ltac:(intros x []) H) as [r ->]. discriminate.
Qed.

Example C139_colors_ex :
  quantize_all [] [[700; 800]; [800; 900]] = Some ([700; 800; 900], [[0; 1]; [1; 2]]).
Proof. reflexivity. Qed.

(** What StylePOV shows while the blade points between its two angles: the column
    that far into the image, stretched over the blade. *)
Theorem C139_show : forall lo hi mirror columns image height leds s degrees,
  columns <> [] -> 1 <= height ->
  (forall d, In d columns -> Z.of_nat (length d) = height) ->
  make_image columns = Some image ->
  (0 <= part_of lo hi degrees)%Q -> (part_of lo hi degrees <= 1)%Q ->
  exists s' c,
    pov_frame lo hi false mirror image height leds s degrees = Some s' /\
    floor_of (Z.of_nat c)
      (part_of lo hi degrees * inject_Z (Z.of_nat (length columns) - 1)) /\
    forall led, 0 <= led < leds ->
      pov_color height s' led =
        nth_error (nth c columns []) (Z.to_nat (led * height / leds)) /\
      (Z.to_nat (led * height / leds) < length (nth c columns []))%nat.
Proof. exact show_column. Qed.

Example C139_show_ex :
  let image := ([2; 1; 2; 3; 129; 0; 2; 4; 5; 6], [0; 4; 6]%nat) in
  make_image [[1; 2; 3]; [0; 0; 0]; [4; 5; 6]] = Some image /\
  exists s, pov_frame (-45) 45 false true image 3 6 (mk_pov None []) 45 = Some s /\
    map (pov_color 3 s) [0; 1; 2; 3; 4; 5] =
    [Some 4; Some 4; Some 5; Some 5; Some 6; Some 6].
Proof. split; [reflexivity|]. eexists. split; reflexivity. Qed.

(** A column is picked exactly between the two angles. *)
Theorem C139_window : forall lo hi mirror columns degrees, 1 <= columns ->
  match style_column lo hi false mirror columns degrees with
  | Some c =>
      (0 <= part_of lo hi degrees /\ part_of lo hi degrees <= 1)%Q /\
      floor_of c (part_of lo hi degrees * inject_Z (columns - 1)) /\
      0 <= c < columns
  | None => (part_of lo hi degrees < 0 \/ 1 < part_of lo hi degrees)%Q
  end.
Proof. exact once_column. Qed.

(** The repeated image without mirroring: the same with whole turns removed. *)
Theorem C139_repeat : forall lo hi columns degrees, 1 <= columns ->
  exists c k f, style_column lo hi true false columns degrees = Some c /\
    (part_of lo hi degrees == inject_Z k + f)%Q /\ (0 <= f)%Q /\ (f < 1)%Q /\
    floor_of c (f * inject_Z (columns - 1)) /\ 0 <= c < columns.
Proof. exact repeat_column. Qed.

Example C139_repeat_ex :
  style_column (-45) 45 true false 100 60 = Some 16 /\
  style_column (-45) 45 true false 100 (-60) = Some 82.
Proof. split; reflexivity. Qed.

(** Repeated and mirrored, the style reads the table before its start as soon as
    the blade points below its first angle. *)
Theorem C139_mirror_refuted : forall columns, 4 <= columns ->
  exists c, style_column (-45) 45 true true columns (-90) = Some c /\ c < 0.
Proof.
  intros columns C. unfold style_column. cbv zeta.
  change (Qle_bool _ 1) with true. cbn [negb]. eexists. split; [reflexivity|].
  unfold to_int. set (n := columns - 1). assert (3 <= n) by lia. clearbody n.
  match goal with |- Z.quot ?a ?b < 0 =>
    let b' := eval vm_compute in b in change b with b' end.
  destruct n as [|n|n]; [lia | | lia].
  cbn. apply Z.opp_pos_neg. rewrite <- Z.quot_opp_l by lia.
  rewrite Z.quot_div_nonneg by lia. apply Z.div_str_pos. lia.
Qed.

(** ... and between its two angles it never shows the second half of the image. *)
Theorem C139_half_refuted : forall lo hi columns degrees, 1 <= columns ->
  (0 <= part_of lo hi degrees)%Q -> (part_of lo hi degrees <= 1)%Q ->
  exists c, style_column lo hi true true columns degrees = Some c /\
    2 * c <= columns - 1.
Proof. exact half_column. Qed.

Example C139_half_ex :
  style_column (-45) 45 true true 101 45 = Some 50 /\
  style_column (-45) 45 false true 101 45 = Some 100.
Proof. split; reflexivity. Qed.

(** Outside its two angles the blade is not dark: it keeps showing the column
    shown last, or, before any, divides by a number never set. *)
Theorem C139_dark_refuted :
  let image := ([2; 1; 2; 3; 129; 0; 2; 4; 5; 6], [0; 4; 6]%nat) in
  exists s s', 
    pov_frame (-45) 45 false true image 3 3 (mk_pov None []) 45 = Some s /\
    pov_frame (-45) 45 false true image 3 3 s 46 = Some s' /\
    map (pov_color 3 s') [0; 1; 2] = [Some 4; Some 5; Some 6] /\
    pov_frame (-45) 45 false true image 3 3 (mk_pov None []) 46 =
      Some (mk_pov None []) /\
    pov_color 3 (mk_pov None []) 0 = None.
Proof. do 2 eexists. repeat split. Qed.

(** ContinuousPOV always picks a column of the image, whatever the clock and the
    swing speed; never the last one. *)
Theorem C139_continuous : forall degrees columns t last speed angle, 2 <= columns ->
  let '(a, c) := continuous degrees columns t last speed angle in
  (0 <= a /\ a < 1)%Q /\ floor_of c (a * inject_Z (columns - 1)) /\
  0 <= c < columns - 1.
Proof. exact continuous_range. Qed.

(** It moves by the angle swept since the last frame, less whole images. *)
Theorem C139_sweep : forall degrees columns t last speed angle,
  0 < degrees -> 0 <= (t - last) mod 2 ^ 32 <= 1000000 ->
  exists k, (fst (continuous degrees columns t last speed angle) + inject_Z k ==
    angle + speed * (inject_Z ((t - last) mod 2 ^ 32) / 1000000)
            / inject_Z degrees)%Q.
Proof.
  intros degrees columns t last speed angle D H. unfold continuous. cbv zeta.
  destruct (Z.ltb_spec 1000000 ((t - last) mod 2 ^ 32)); [lia|]. cbn [fst].
  set (x := (angle + speed * inject_Z ((t - last) mod 2 ^ 32) / 1000000
               / inject_Z degrees)%Q).
  exists (Qround.Qfloor x). unfold fract.
  setoid_replace (x - inject_Z (Qround.Qfloor x) + inject_Z (Qround.Qfloor x))%Q
    with x by ring.
  unfold x. field.
  unfold Qeq. cbn. lia.
Qed.

Example C139_continuous_ex :
  snd (continuous 90 101 10001000 10000000 45000 0) = 50 /\
  snd (continuous 90 101 (2 ^ 32 + 500 - 2 ^ 32) (2 ^ 32 - 500) 45000 (1 # 4)) = 75.
Proof. split; vm_compute; reflexivity. Qed.

Print Assumptions C139_format.
Print Assumptions C139_encode.
Print Assumptions C139_round_trip.
Print Assumptions C139_short.
Print Assumptions C139_color_refuted.
Print Assumptions C139_size.
Print Assumptions C139_tight.
Print Assumptions C139_image.
Print Assumptions C139_made.
Print Assumptions C139_shared.
Print Assumptions C139_smaller.
Print Assumptions C139_colors.
Print Assumptions C139_colors_fit.
Print Assumptions C139_show.
Print Assumptions C139_window.
Print Assumptions C139_repeat.
Print Assumptions C139_mirror_refuted.
Print Assumptions C139_half_refuted.
Print Assumptions C139_dark_refuted.
Print Assumptions C139_continuous.
Print Assumptions C139_sweep.
