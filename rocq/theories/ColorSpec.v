(** What color operations must do. *)
From Coq Require Import ZArith List Bool.
From Verif Require Import ColorModel.
Import ListNotations.
Open Scope Z_scope.

Definition each (P : Z -> Prop) (c : color) : Prop := P (r c) /\ P (g c) /\ P (b c).
Definition each2 (P : Z -> Z -> Prop) (c d : color) : Prop := P (r c) (r d) /\ P (g c) (g d) /\ P (b c) (b d).
Definition each3 (P : Z -> Z -> Z -> Prop) (c d e : color) : Prop :=
  P (r c) (r d) (r e) /\ P (g c) (g d) (g e) /\ P (b c) (b d) (b e).
Definition is8 (c : color) : Prop := each (fun x => 0 <= x <= 255) c.
Definition is16 (c : color) : Prop := each (fun x => 0 <= x <= 65535) c.
Definition between (x a o : Z) : Prop := Z.min a o <= x <= Z.max a o.

(** A mixing function with full fraction [top]: stays between, hits both ends, moves
    towards the second color as the fraction grows. *)
Definition proper_mix (ok : color -> Prop) (top : Z) (mix : color -> color -> Z -> color) : Prop :=
  forall a o, ok a -> ok o ->
    mix a o 0 = a /\ mix a o top = o /\
    (forall x, 0 <= x <= top -> each3 between (mix a o x) a o) /\
    (forall x y, 0 <= x -> x <= y -> y <= top -> each3 between (mix a o y) (mix a o x) o).

(** Layers: channels in 16 bits, alpha at most 32768 (opaque), and for premultiplied
    colors no channel brighter than its alpha allows. *)
Definition opaque_ok (o : opaque) : Prop := is16 (oc o).
Definition um_ok (a : rgba_um) : Prop := is16 (uc a) /\ 0 <= ua a <= 32768.
Definition pm_ok (a : rgba) : Prop := each (fun c => 0 <= c /\ c * 32768 <= 65535 * pa a) (pc a) /\ 0 <= pa a <= 32768.

(** [x] is within [d] of y / 2^n. *)
Definition near (d x y n : Z) : Prop := - d * 2 ^ n < x * 2 ^ n - y < d * 2 ^ n.

(** Byte orders as spelled: which letters, first to last. *)
Inductive letter := LR | LG | LB | LW | Lr | Lg | Lb. (* capital W = white in addition; lower case = what white leaves *)
Definition spelled : list (Z * list letter) :=
  [(0x321, [LB; LG; LR]); (0x312, [LB; LR; LG]); (0x231, [LG; LB; LR]); (0x213, [LG; LR; LB]); (0x132, [LR; LB; LG]); (0x123, [LR; LG; LB]);
   (0x3214, [LB; LG; LR; LW]); (0x3124, [LB; LR; LG; LW]); (0x2314, [LG; LB; LR; LW]); (0x2134, [LG; LR; LB; LW]); (0x1324, [LR; LB; LG; LW]); (0x1234, [LR; LG; LB; LW]);
   (0x4321, [LW; LB; LG; LR]); (0x4312, [LW; LB; LR; LG]); (0x4231, [LW; LG; LB; LR]); (0x4213, [LW; LG; LR; LB]); (0x4132, [LW; LR; LB; LG]); (0x4123, [LW; LR; LG; LB]);
   (0x7654, [Lb; Lg; Lr; LW]); (0x7564, [Lb; Lr; Lg; LW]); (0x6754, [Lg; Lb; Lr; LW]); (0x6574, [Lg; Lr; Lb; LW]); (0x5764, [Lr; Lb; Lg; LW]); (0x5674, [Lr; Lg; Lb; LW]);
   (0x4765, [LW; Lb; Lg; Lr]); (0x4756, [LW; Lb; Lr; Lg]); (0x4675, [LW; Lg; Lb; Lr]); (0x4657, [LW; Lg; Lr; Lb]); (0x4576, [LW; Lr; Lb; Lg]); (0x4567, [LW; Lr; Lg; Lb])].
Definition amount (c : color) (l : letter) : Z :=
  let w := Z.min (r c) (Z.min (g c) (b c)) in
  match l with LR => r c | LG => g c | LB => b c | LW => w | Lr => r c - w | Lg => g c - w | Lb => b c - w end.
(** The bytes sent for a color: most significant digit first. *)
Definition sent (c : color) (o : Z) : list Z := map (fun i => getByte c o (num_bytes o - 1 - Z.of_nat i)) (seq 0 (Z.to_nat (num_bytes o))).
(** A color whose channels are the three bytes sent for [c]. *)
Definition as_color (l : list Z) : color := Color (nth 0 l 0) (nth 1 l 0) (nth 2 l 0).
