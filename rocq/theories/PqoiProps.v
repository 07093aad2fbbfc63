(** C37-C40, C69: compressed images. *)
From Coq Require Import ZArith List Bool Lia ZifyBool ZifyNat.
From Verif Require Import Machine PqoiModel PqoiSpec PqoiProofs PqoiStream PqoiAlpha.
Import ListNotations.
Open Scope Z_scope.

(** C37: decoding what the encoder wrote, from the same codec state and with anything
    before the output and after the input, gives back the pixels, consumes exactly the
    encoded bytes and ends in the same codec state. *)
Theorem C37_lossless : forall c before_ image after, codec_ok c -> Forall is_pixel image ->
  let '(c', bytes) := encodePixels c image in
  DecodeBlock c before_ (bytes ++ after) (length image) = Some (c', image, after) /\ codec_ok c'.
Proof.
  intros c b image after C P. pose proof (block_ok c b image after C P) as B. destruct (encodePixels_ok c b image after C P) as (_ & O & _). destruct (encodePixels c image). auto.
Qed.
(** C37: the bytes are bytes and fit into three per pixel. *)
Theorem C37_size : forall c image, codec_ok c -> Forall is_pixel image ->
  Forall is_byte (snd (encodePixels c image)) /\ (length (snd (encodePixels c image)) <= 3 * length image)%nat.
Proof. intros c image C P. destruct (encodePixels_ok c [] image [] C P) as (_ & _ & A & B). auto. Qed.
(** C37: image files without transparency. *)
Theorem C37_file : forall p past, picture_ok p -> alphas p = [] -> decode_file (encode_file p past) = Some p.
Proof.
  intros p past P A. destruct (file_ok p past P) as (ds & D & E & _). rewrite D, (E A). destruct p as [w0 h0 ps al]. cbn in *. subst. reflexivity.
Qed.
Definition sample : list Z := [2; 2; 2; 33; 1; 33; 1; 33; 1].
Example C37_ex : codec_ok codec0 /\ Forall is_pixel sample /\  snd (encodePixels codec0 [2; 2; 2]) = [2; 128] /\
  decode_file (encode_file (Picture 3 3 sample []) (fun _ => 0)) = Some (Picture 3 3 sample []).
Proof. split; [reflexivity|]. split; [repeat constructor; unfold is_pixel; lia|]. split; vm_compute; reflexivity. Qed.

(** C38: while an image arrives in any pieces and rows are filled from any pieces of what
    has arrived, every row shown is that row of the image. *)
Theorem C38_rows : forall width memory image es more, (4 <= length memory)%nat -> Forall is_pixel image ->
  arrived es ++ more = snd (encodePixels codec0 image) ->
  exists d, play width memory es = Some d /\ rows d = cut (length (rows d)) width image /\ Forall (fun r => length r = width) (rows d).
Proof.
  intros width memory image es more M P A. destruct (play_inv width memory es M) as (d & E & I). exists d. split; [exact E|].
  destruct (shown_prefix width memory image es more d P A I) as (q & Q & _). destruct I as (_ & _ & _ & _ & R & _). split; [|exact R].
  rewrite Q. unfold shown. rewrite <- app_assoc. symmetry. apply cut_concat. exact R.
Qed.
(** C38: nothing is withheld: once all bytes have arrived, filling from them completes the
    next row, if the image has one more. *)
Theorem C38_progress : forall width memory image es d n, (4 <= length memory)%nat -> Forall is_pixel image ->
  arrived es = snd (encodePixels codec0 image) -> play width memory es = Some d -> (length (waiting d) <= n)%nat ->
  (S (length (rows d)) * width <= length image)%nat ->
  exists d', play width memory (es ++ [Fill n]) = Some d' /\ chunk_full (row d') width = true.
Proof.
  intros width memory image es d n M P A E N L. destruct (play_inv width memory es M) as (d0 & E0 & I). rewrite E in E0. inversion E0; subst d0. clear E0.
  destruct (dinv_step width memory _ d (Fill n) I) as (d' & S & J & F & RR). exists d'. split; [unfold play in *; rewrite fold_left_app; cbn [fold_left]; rewrite E; exact S|].
  unfold chunk_full. apply Nat.leb_le. destruct (F N) as [X|(X1 & X2)]; [exact X|].
  assert (A' : arrived (es ++ [Fill n]) ++ [] = snd (encodePixels codec0 image)) by (rewrite arrived_app, !app_nil_r; exact A).
  rewrite app_nil_r in J. rewrite <- A in A'. 
  assert (J' : dinv width memory (arrived (es ++ [Fill n])) d') by (rewrite arrived_app, app_nil_r; exact J).
  destruct (shown_prefix width memory image (es ++ [Fill n]) [] d' P) as (q & Q1 & Q2); [rewrite <- A; exact A'|exact J'|].
  rewrite X1, !app_nil_r in Q2. assert (QN : q = []) by (inversion Q2 as [|? ? ? ? ? ? ? ? ? Y]; [reflexivity|congruence]).
  rewrite QN, app_nil_r in Q1. rewrite Q1 in L. unfold shown in L. rewrite app_length in L. destruct J as (_ & _ & _ & _ & R & _). rewrite RR in *.
  assert (LC : length (concat (rows d)) = (length (rows d) * width)%nat).
  { clear - R. induction R as [|r rs R0 RS IH]; [reflexivity|]. cbn. rewrite app_length. lia. }
  lia.
Qed.
(** C38: for any bytes, valid or not, the pixels shown do not depend on the schedule: of two
    schedules with the same input one shows a beginning of what the other shows. *)
Theorem C38_any_input : forall width memory es es', (4 <= length memory)%nat -> arrived es = arrived es' ->
  exists d d', play width memory es = Some d /\ play width memory es' = Some d' /\
  let shown d := concat (rows d) ++ filled (row d) in
  (exists q, shown d = shown d' ++ q) \/ (exists q, shown d' = shown d ++ q).
Proof.
  intros width memory es es' M A. destruct (play_inv width memory es M) as (d & E & I & _). destruct (play_inv width memory es' M) as (d' & E' & I' & _). exists d, d'.
  split; [exact E|]. split; [exact E'|]. rewrite A in I. destruct (decodes_det _ _ _ _ _ _ I _ _ _ I') as [(q & Q & _)|(q & Q & _)]; unfold shown in Q; cbv zeta; eauto.
Qed.
Example C38_ex : arrived [Arrive [2]; Fill 1; Fill 5; Arrive [128; 9; 20]; Fill 2; Fill 3; NextRow []; Fill 1; Fill 100; Arrive [126]; Fill 7; NextRow [1; 2; 3]; Fill 0; NextRow []] ++ [] = snd (encodePixels codec0 [2; 2; 2; 33; 1; 2; 2; 33; 1]) /\
  option_map rows (play 3 [9; 9; 9; 9] [Arrive [2]; Fill 1; Fill 5; Arrive [128; 9; 20]; Fill 2; Fill 3; NextRow []; Fill 1; Fill 100; Arrive [126]; Fill 7; NextRow [1; 2; 3]; Fill 0; NextRow []]) =
  Some [[2; 2; 2]; [33; 1; 2]; [2; 33; 1]].
Proof. vm_compute. auto. Qed.

(** C39: for every input, valid or not, reading until [n] pixels are written writes at most
    32 more, and stops before only when the input is used up; a row stays within its
    buffer. *)
Theorem C39_overrun : forall s hist n, (s_state s = AT_LUMA -> 160 <= previous_byte s <= 191) -> (4 <= length hist)%nat ->
  exists s' out, streaming_read s hist n = Some (s', out) /\ (length out <= n + 32)%nat /\ ((n <= length out)%nat \/ s_in s' = []).
Proof. intros s hist n W L. destruct (read_spec s hist n W L) as (s' & out & A & _ & _ & B & C). exists s', out. split; [exact A|]. split; [exact C|]. tauto. Qed.
Theorem C39_rows : forall width memory es, (4 <= length memory)%nat ->
  exists d, play width memory es = Some d /\ (length (filled (row d)) <= width + 32)%nat.
Proof. intros width memory es M. destruct (play_inv width memory es M) as (d & E & I). exists d. split; [exact E|]. apply I. Qed.
Theorem C39_block : forall c hist bytes n c' out rest, DecodeBlock c hist bytes n = Some (c', out, rest) -> (n <= length out <= n + 32)%nat.
Proof. intros c hist bytes n c' out rest H. apply block_decodes in H. lia. Qed.
Example C39_ex : exists s' out, streaming_read (Streaming codec0 AT_START 0 [159; 159]) [1; 2; 3; 4] 34 = Some (s', out) /\ length out = 66%nat.
Proof. eexists. eexists. split; vm_compute; reflexivity. Qed.
(** Finding: the plain decoder is given the end of its input but does not look at it, and
    translucent segments of a damaged file overrun their 64 pixel array. *)
Theorem C39_alpha_refuted : exists bytes out c' rest, DecodeBlock codec0 [] bytes 64 = Some (c', out, rest) /\ (length out = 64 + 32)%nat.
Proof. eexists ([159; 156; 159]). eexists. eexists. eexists. split; vm_compute; reflexivity. Qed.
Theorem C39_input_end_refuted : exists bytes, DecodeBlock codec0 [] bytes 1 = None.
Proof. exists [0; 5]. reflexivity. Qed.

(** C40: rows with transparency: alphas come back exactly and pixels unless invisible, with
    anything after them, and the encoding fits into five bytes per pixel (the size of the
    buffer the encoder allocates). *)
Theorem C40_alphas : forall c image alphas_ past after, codec_ok c -> Forall is_pixel image -> length image = length alphas_ ->
  let '(c', bytes) := encodePixelsWithAlpha c image alphas_ past in
  exists decoded, DecodeBlockWithAlphas c (bytes ++ after) (length image) = Some (c', decoded, alphas_, after) /\
  sees_all decoded image alphas_ /\ codec_ok c' /\ (length bytes <= 5 * length image)%nat.
Proof.
  intros c image al past after C P L. unfold encodePixelsWithAlpha. pose proof (encode_alphas_ok (length al) c [] image al past after C P L (le_n _)) as H.
  destruct (encode_alphas _ c image al past) as (c', bytes). destruct H as (ds & A & B & D & E). exists ds. split; [|auto].
  unfold DecodeBlockWithAlphas. destruct (sees_all_length _ _ _ B) as (X & _). rewrite <- X. apply adecodes_run; [exact A|lia].
Qed.
(** C40: image files with transparency. *)
Theorem C40_file : forall p past, picture_ok p -> alphas p <> [] ->
  exists decoded, decode_file (encode_file p past) = Some (Picture (w p) (h p) decoded (alphas p)) /\ sees_all decoded (pixels p) (alphas p).
Proof. intros p past P A. destruct (file_ok p past P) as (ds & D & _ & E). exists ds. auto. Qed.
(** C40: putting an encoded layer over a row of pixels blends every pixel. *)
Theorem C40_layer : forall c layer alphas_ past below after, codec_ok c -> layer_ok layer alphas_ -> Forall is_pixel below ->
  length layer = length alphas_ -> length below = length layer ->
  Apply c (snd (encodePixelsWithAlpha c layer alphas_ past) ++ after) below = Some (fst (encodePixelsWithAlpha c layer alphas_ past), blend_all below layer alphas_, after).
Proof.
  intros c ps al past below after C LO B L LB. unfold encodePixelsWithAlpha, Apply. pose proof (apply_ok (length al) (length below) c [] ps al past below after C LO B L LB (le_n _) ltac:(lia)) as H.
  destruct (encode_alphas _ c ps al past). exact H.
Qed.
Example C40_ex : let al := [0; 0; 0; 32; 32; 5; 9; 8; 32] in
  decode_file (encode_file (Picture 3 3 sample al) (fun _ => 1)) = Some (Picture 3 3 [2; 2; 2; 0; 0; 33; 1; 33; 1] al).
Proof. vm_compute. reflexivity. Qed.
Example C40_layer_ex : let al := [0; 0; 32; 32; 16; 16; 7; 3] in let ps := [1; 33; 0; 0; 32; 33; 2; 64] in
  layer_ok ps al /\ Apply codec0 (snd (encodePixelsWithAlpha codec0 ps al 99)) (repeat 0x1234 8) = Some (fst (encodePixelsWithAlpha codec0 ps al 99), [1; 33; 4660; 4660; 2346; 2347; 102; 97], []).
Proof. split; [repeat constructor; vm_compute; intuition discriminate|]. vm_compute. reflexivity. Qed.

(** C69: blending is exact in every color channel, no channel spills into another, as long
    as the pixel is premultiplied, which the encoder's premultiply makes sure of. *)
Theorem C69_blend : forall below p a, is_pixel below -> is_pixel p -> 0 <= a <= 32 -> premultiplied p a ->
  alphaBlend below p a = rgb (red below * a / 32 + red p) (green below * a / 32 + green p) (blue below * a / 32 + blue p) /\
  red below * a / 32 + red p <= 31 /\ green below * a / 32 + green p <= 63 /\ blue below * a / 32 + blue p <= 31.
Proof.
  intros below p a B P A M. split; [apply blend_exact; assumption|]. destruct M as (M1 & M2 & M3). destruct (rgb_split below B) as (_ & X & Y & Z0).
  assert (red below * a / 32 <= 31 * a / 32) by (apply Z.div_le_mono; nia). assert (green below * a / 32 <= 63 * a / 32) by (apply Z.div_le_mono; nia).
  assert (blue below * a / 32 <= 31 * a / 32) by (apply Z.div_le_mono; nia). lia.
Qed.
Theorem C69_premultiply : forall p a, is_pixel p -> 0 <= a <= 32 -> is_pixel (premultiply p a) /\ premultiplied (premultiply p a) a.
Proof. exact premultiply_ok. Qed.
Example C69_ex : premultiply 0xFFFF 16 = 0x8410 /\ alphaBlend 0xFFFF (premultiply 0xFFFF 16) 16 = 0xFFFF /\ alphaBlend 0 (premultiply 0xF800 8) 8 = 0xC000.
Proof. vm_compute. auto. Qed.

Print Assumptions C37_lossless. Print Assumptions C37_size. Print Assumptions C37_file. Print Assumptions C38_rows. Print Assumptions C38_progress. Print Assumptions C38_any_input.
Print Assumptions C39_overrun. Print Assumptions C39_rows. Print Assumptions C39_block. Print Assumptions C40_alphas. Print Assumptions C40_file. Print Assumptions C40_layer.
Print Assumptions C69_blend. Print Assumptions C69_premultiply.
Print Assumptions C39_alpha_refuted.
Print Assumptions C39_input_end_refuted.
