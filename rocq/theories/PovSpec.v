(** What the compressed images mean, without the coder or the styles. *)
From Coq Require Import List ZArith QArith.
Import ListNotations.
Local Open Scope Z_scope.

(** A compressed column is a row of pieces: bytes as they are, one byte several
    times, or a stretch that repeats what stands [d] bytes before it. *)
Inductive piece :=
| Bytes (l : list Z)
| Times (n : nat) (v : Z)
| Again (d len : nat).

Definition piece_ok (p : piece) : Prop :=
  match p with
  | Bytes l => (1 <= length l <= 128)%nat
  | Times n _ => (2 <= n <= 128)%nat
  | Again d len => (1 <= d <= 256 /\ 1 <= len <= 255)%nat
  end.

(** How a piece is written. *)
Definition written (p : piece) : list Z :=
  match p with
  | Bytes l => Z.of_nat (length l) - 1 :: l
  | Times n v => [126 + Z.of_nat n; v]
  | Again d len => [255; Z.of_nat d - 1; Z.of_nat len]
  end.

(** What a piece adds to what is already there. *)
Definition adds (before : list Z) (p : piece) (after : list Z) : Prop :=
  match p with
  | Bytes l => after = before ++ l
  | Times n v => after = before ++ repeat v n
  | Again d len =>
      (d <= length before)%nat /\
      length after = (length before + len)%nat /\
      firstn (length before) after = before /\
      forall j, (j < len)%nat ->
        nth (length before + j) after 0 = nth (length before + j - d) after 0
  end.

Inductive means : list Z -> list piece -> list Z -> Prop :=
| means_nil : forall l, means l [] l
| means_cons : forall a p b ps c, piece_ok p -> adds a p b -> means b ps c ->
    means a (p :: ps) c.

Definition bytes (l : list Z) : Prop := forall x, In x l -> 0 <= x < 256.

(** Every stretch of 256 bytes that repeats at a distance of at most 256 is one
    byte 256 times. Holds of every column of at most 256 bytes. *)
Definition repeats_plain (data : list Z) : Prop :=
  forall i d, (1 <= d <= 256)%nat -> (d <= i)%nat ->
    (i + 256 <= length data)%nat ->
    (forall j, (j < 256)%nat -> nth (i + j) data 0 = nth (i + j - d) data 0) ->
    forall j, (j < 256)%nat -> nth (i + j) data 0 = nth i data 0.

(** The whole number below [x]. *)
Definition floor_of (c : Z) (x : Q) : Prop :=
  (inject_Z c <= x /\ x < inject_Z c + 1)%Q.

(** How far between [lo] and [hi] the angle is: 0 at [lo], 1 at [hi]. *)
Definition part_of (lo hi : Z) (degrees : Q) : Q :=
  ((degrees - inject_Z lo) / (inject_Z hi - inject_Z lo))%Q.
