(** What compressing images must preserve. *)
From Coq Require Import ZArith List Bool.
From Verif Require Import Machine PqoiModel.
Import ListNotations.
Open Scope Z_scope.

Definition is_pixel (p : Z) : Prop := 0 <= p < 65536.
Definition is_byte (b : Z) : Prop := 0 <= b < 256.
(** A codec state: 64 remembered pixels. *)
Definition codec_ok (c : codec) : Prop := length (stash c) = 64%nat.

(** Color channels of a 565 pixel. *)
Definition red (p : Z) : Z := p / 2048.
Definition green (p : Z) : Z := p / 32 mod 64.
Definition blue (p : Z) : Z := p mod 32.
Definition rgb (r g b : Z) : Z := r * 2048 + g * 32 + b.
(** A layer pixel [p] with [a] 32nds of the background showing through: per channel
    background * a / 32 + p. *)
Definition blended (below p a : Z) : Z :=
  rgb (red below * a / 32 + red p) (green below * a / 32 + green p) (blue below * a / 32 + blue p).
(** Premultiplied: what is added leaves room for what shows through. *)
Definition premultiplied (p a : Z) : Prop :=
  red p <= 31 - 31 * a / 32 /\ green p <= 63 - 63 * a / 32 /\ blue p <= 31 - 31 * a / 32.

(** * A display showing an image that arrives piecewise *)
Definition play (width : nat) (memory : list Z) (es : list event) : option display :=
  fold_left (step width) es (Some (Display streaming0 [] [] (chunk_init memory))).
Definition arrived (es : list event) : list Z := concat (map (fun e => match e with Arrive bs => bs | _ => [] end) es).
(** The rows of an image. *)
Fixpoint cut (n width : nat) (l : list Z) : list (list Z) :=
  match n with O => [] | S n => firstn width l :: cut n width (skipn width l) end.

(** What a viewer sees: alphas exactly, pixels unless invisible. *)
Definition sees (decoded pixel_ alpha : Z) : Prop := decoded = pixel_ \/ (alpha = 32 /\ decoded = 0).
Inductive sees_all : list Z -> list Z -> list Z -> Prop :=
| SA_nil : sees_all [] [] []
| SA_cons d p a ds ps al : sees d p a -> sees_all ds ps al -> sees_all (d :: ds) (p :: ps) (a :: al).
(** Every pixel of a row blended with a layer. *)
Fixpoint blend_all (below ps al : list Z) : list Z :=
  match below, ps, al with b :: below, p :: ps, a :: al => blended b p a :: blend_all below ps al | _, _, _ => [] end.
(** A layer as the encoder expects it. *)
Definition layer_ok (ps al : list Z) : Prop := Forall (fun pa => is_pixel (fst pa) /\ 0 <= snd pa <= 32 /\ premultiplied (fst pa) (snd pa)) (combine ps al).

(** An image file's content: width times height pixels, and as many alphas or none. *)
Definition picture_ok (p : picture) : Prop :=
  0 <= w p < 2 ^ 31 /\ 0 <= h p < 2 ^ 31 /\ w p * h p < 2 ^ 31 /\ Z.of_nat (length (pixels p)) = w p * h p /\ Forall is_pixel (pixels p) /\
  (alphas p = [] \/ length (alphas p) = length (pixels p)).
