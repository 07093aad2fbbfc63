(** What must arrive at a strip of pixels. *)
From Coq Require Import ZArith List Bool PeanoNat.
From Verif Require Import ColorModel WireModel.
Import ListNotations.
Open Scope Z_scope.

(** A byte on the wire: its bits, highest first, each as the pulse for one or for zero. *)
Definition bits_of (byte : Z) : list bool := map (fun i => Z.testbit byte (Z.of_nat i)) [7; 6; 5; 4; 3; 2; 1; 0]%nat.
Definition pulse_bytes (zero one byte : Z) : list Z := map (fun b : bool => if b then one else zero) (bits_of byte).

(** The first [n] bytes of a transmission: possibly a leading zero, the pixels, then zeros. *)
Definition on_wire (proxy : bool) (pixels : list (list Z)) (n : nat) : list Z :=
  firstn n ((if proxy then [0] else []) ++ concat pixels ++ repeat 0 n).

(** The half-transfer and transfer-done interrupts of a buffer of two halves of [h] bytes are served
    in time: the handler of the i-th event runs after that event and before the next one. *)
Fixpoint timely (h t i : nat) (ts : list tick) : Prop :=
  match ts with
  | [] => True
  | Tx :: ts => (t < (i + 2) * h)%nat /\ timely h (S t) i ts
  | Irq :: ts => ((i + 1) * h <= t < (i + 2) * h)%nat /\ timely h t (S i) ts
  end.
Definition irqs (ts : list tick) : nat := length (filter (fun t => match t with Irq => true | Tx => false end) ts).

(** ** Frames *)
(** The blades take turns (C54): who is drawing what, the frame announced but not yet queued, and
    the frames announced so far. A frame is announced with every pixel drawn. *)
Record draft := Draft { drawer : option (nat * (nat -> option color)); pending : option nat; frames : list (nat * list color) }.
Definition draft0 : draft := Draft None None [].
Definition draft_step (leds : nat -> nat) (d : draft) (o : ring_op) : option draft :=
  match o with
  | Begin i => match pending d with None => Some (Draft (Some (i, fun _ => None)) None (frames d)) | Some _ => None end
  | Set_ i k c =>
    match drawer d with
    | Some (j, canvas) => if Nat.eqb i j && (k <? leds i)%nat then Some (Draft (Some (j, upd canvas k (Some c))) (pending d) (frames d)) else None
    | None => None
    end
  | EndAdd i =>
    match drawer d with
    | Some (j, canvas) =>
      if Nat.eqb i j && forallb (fun k => match canvas k with Some _ => true | None => false end) (seq 0 (leds i))
      then Some (Draft None (Some i) (frames d ++ [(i, map (fun k => match canvas k with Some c => c | None => Color 0 0 0 end) (seq 0 (leds i)))]))
      else None
    | None => None
    end
  | EndQueue i => match pending d with Some j => if Nat.eqb i j then Some (Draft (drawer d) None (frames d)) else None | None => None end
  | _ => Some d
  end.
(** A history in which the blades keep to their turns and no step is taken before its wait is over. *)
Fixpoint play (leds : nat -> nat) (size : nat) (s : ring) (d : draft) (os : list ring_op) : option (ring * draft * list (nat * color)) :=
  match os with
  | [] => Some (s, d, [])
  | o :: os =>
    if ready leds size s o then
      match draft_step leds d o with
      | None => None
      | Some d => let '(s, x) := ring_step leds size s o in
                  match play leds size s d os with None => None | Some (s, d, xs) => Some (s, d, x ++ xs) end
      end
    else None
  end.
Definition tagged (f : nat * list color) : list (nat * color) := map (fun c => (fst f, c)) (snd f).
Definition dones (os : list ring_op) : nat := length (filter (fun o => match o with Done => true | _ => false end) os).
