(** What a serial line means; what an RFID frame is. *)
From Coq Require Import ZArith List Bool.
From Verif Require Import SerialModel.
Import ListNotations.
Open Scope Z_scope.

(** The lines completed by a stream: either newline character ends a line, a lost connection drops
    the line begun ([cur]). *)
Fixpoint lines (cur : list Z) (es : list event) : list (list Z) :=
  match es with
  | [] => []
  | Disconnect :: es => lines [] es
  | Byte c _ :: es => if (c =? 10) || (c =? 13) then cur :: lines [] es else lines (cur ++ [c]) es
  end.
(** An empty line means nothing.  Otherwise, without the blanks at its end, the line is a comment if it
    starts with #, or blanks, a word without blanks, and, if something follows, one blank and the
    argument. *)
Inductive means (line : list Z) : list action -> Prop :=
| Nothing : line = [] -> means line []
| Comment t k : line = t ++ repeat 32 k -> (forall u, t <> u ++ [32]) -> hd 0 t = 35 -> means line [Echo t]
| Bare t k j w : line = t ++ repeat 32 k -> line <> [] -> (forall u, t <> u ++ [32]) -> hd 0 t <> 35 ->
    t = repeat 32 j ++ w -> ~ In 32 w -> means line [Do w None]
| Call t k j w a : line = t ++ repeat 32 k -> (forall u, t <> u ++ [32]) -> hd 0 t <> 35 ->
    t = repeat 32 j ++ w ++ 32 :: a -> w <> [] -> ~ In 32 w -> means line [Do w (Some a)].

Definition byte_of (e : event) : Z := match e with Byte c _ => c | Disconnect => 1 end.
Definition memory_left (e : event) : Prop := match e with Byte _ a => a = true | Disconnect => True end.

(** An upper case hexadecimal digit and its value. *)
Definition hex (c d : Z) : Prop := 0 <= d < 16 /\ c = if d <? 10 then 48 + d else 55 + d.
Definition number16 (ds : list Z) : Z := fold_left (fun a d => 16 * a + d) ds 0.
(** The exclusive or of the bytes, two digits each. *)
Fixpoint xor_bytes (ds : list Z) : Z :=
  match ds with a :: b :: ds => Z.lxor (16 * a + b) (xor_bytes ds) | _ => 0 end.
(** A tag's message: start byte, ten digits, the exclusive or of the five bytes, end byte. *)
Definition tag (ds : list Z) (msg : list Z) : Prop :=
  length ds = 10%nat /\ exists cs, Forall2 hex cs ds /\ msg = [2] ++ cs ++ [xor_bytes ds] ++ [3].
