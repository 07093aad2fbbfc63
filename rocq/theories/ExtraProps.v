(** C142: the straight line through the last motion samples. *)
From Coq Require Import List ZArith Bool QArith Lia ZifyBool ZifyNat.
From Verif Require Import ExtraModel ExtraSpec ExtraProofs.
Import ListNotations.
Local Open Scope Q_scope.

(** When it may be asked for a value: something has been pushed, the clock has not gone
    back, and the points it may still measure time from are less than 2^32 us old. *)
Definition askable (size : nat) (ops : list op) (now : Z) : Prop :=
  points ops <> [] /\ in_order (points ops) /\
  (forall p, In p (points ops) -> (snd p <= now)%Z) /\
  (forall p, In p (lastn (1023 + size) (points ops)) -> (now < snd p + 2 ^ 32)%Z).

(** Whatever was pushed and asked before, and however often the 32-bit clock went round,
    the answer is on the least squares line through the last [size] samples. *)
Theorem C142_line : forall size e ops now, (1 <= size <= 1024)%nat ->
  empty size e -> askable size ops now ->
  on_line (lastn size (points ops)) now
          (snd (get (fold_left step ops e) (now mod 2 ^ 32))).
Proof.
  intros size e ops now SZ E (A & B & C & D).
  apply (get_value size _ (points ops) now); auto; [lia|].
  apply (inv_run ops size e [] SZ). apply inv_empty; auto. lia.
Qed.

(** The slope is the slope of that line. *)
Theorem C142_slope : forall size e ops now, (1 <= size <= 1024)%nat ->
  empty size e -> askable size ops now ->
  steep (lastn size (points ops)) (slope (fold_left step ops e)).
Proof.
  intros size e ops now SZ E (A & B & C & D).
  apply (get_value size _ (points ops) now); auto; [lia|].
  apply (inv_run ops size e [] SZ). apply inv_empty; auto. lia.
Qed.

(** Samples that lie on a line, at two times at least, are continued along it. *)
Theorem C142_exact : forall size e ops now a b p q, (1 <= size <= 1024)%nat ->
  empty size e -> askable size ops now ->
  (forall r, In r (lastn size (points ops)) -> fst r == a + b * inject_Z (snd r)) ->
  In p (lastn size (points ops)) -> In q (lastn size (points ops)) -> snd p <> snd q ->
  snd (get (fold_left step ops e) (now mod 2 ^ 32)) == a + b * inject_Z now.
Proof.
  intros size e ops now a b p q SZ E A H P Q' NE.
  apply (on_line_exact (lastn size (points ops))); auto.
  - intros N. now rewrite N in P.
  - exact (spread_two _ p q P Q' NE).
  - now apply C142_line.
Qed.

(** Samples that are all the same stay the same, even at a single time. *)
Theorem C142_steady : forall size e ops now a, (1 <= size <= 1024)%nat ->
  empty size e -> askable size ops now ->
  (forall r, In r (lastn size (points ops)) -> fst r == a) ->
  snd (get (fold_left step ops e) (now mod 2 ^ 32)) == a.
Proof.
  intros size e ops now a SZ E A H.
  apply (on_line_const (lastn size (points ops)) now); auto.
  - intros N. pose proof (lastn_length (points ops) size) as L. rewrite N in L.
    destruct A as [A _]. destruct (points ops); [contradiction|]. cbn [length] in L. lia.
  - now apply C142_line.
Qed.

(** Older samples are forgotten without a trace, however big they were. *)
Theorem C142_forget : forall size e e' ops ops' now, (1 <= size <= 1024)%nat ->
  empty size e -> empty size e' -> askable size ops now -> askable size ops' now ->
  lastn size (points ops) = lastn size (points ops') ->
  snd (get (fold_left step ops e) (now mod 2 ^ 32)) ==
  snd (get (fold_left step ops' e') (now mod 2 ^ 32)).
Proof.
  intros size e e' ops ops' now SZ E E' A A' L.
  apply (on_line_same (lastn size (points ops)) now).
  - now apply C142_line.
  - rewrite L. now apply C142_line.
Qed.

(** It is ready exactly when [size] samples have been pushed. *)
Theorem C142_ready : forall size e ops, (1 <= size <= 1024)%nat -> empty size e ->
  (ready (fold_left step ops e) = true <-> (size <= length (points ops))%nat).
Proof.
  intros size e ops SZ E.
  rewrite (inv_ready size _ (points ops)).
  - apply Nat.leb_le.
  - apply (inv_run ops size e [] SZ). apply inv_empty; auto. lia.
Qed.

(** The newest is the one pushed last. *)
Theorem C142_newest : forall size e ops, (1 <= size <= 1024)%nat -> empty size e ->
  points ops <> [] ->
  newest (fold_left step ops e) = fst (last (points ops) (0, 0%Z)).
Proof.
  intros size e ops SZ E N. apply (inv_newest size); auto; [lia|].
  apply (inv_run ops size e [] SZ). apply inv_empty; auto. lia.
Qed.

(** Clearing makes the value given the only sample, whatever came before. *)
Theorem C142_clear : forall size e x time, (1 <= size)%nat -> length (data e) = size ->
  (entry e < size)%nat ->
  exists e', empty size e' /\ clear e x (time mod 2 ^ 32) = step e' (Push x time).
Proof.
  intros size e x time SZ L N.
  exists (Extra (data e) (entry e) 0 (Start (ln e) (time mod 2 ^ 32))).
  split; [|reflexivity]. repeat split; auto.
Qed.

(** It can be asked, and everything above applies: a rising value over a clock that goes
    round between the samples. *)
Definition three : extra := Extra (repeat (Datum 7 7) 3) 0 0 line0.
Definition rise : list op :=
  [Push 100 0%Z; Push 1 4294967290; Get 4294967291; Push 2 4294967296; Push 3 4294967302].

Example C142_three_empty : empty 3 three.
Proof. repeat split; auto. Qed.

Example C142_rise_askable : askable 3 (Push 5 4294967280 :: tl rise) 4294967308.
Proof.
  repeat split.
  - discriminate.
  - intros i j H. cbn [points rise tl flat_map app length] in H.
    destruct i as [|[|[|[|i]]]], j as [|[|[|[|j]]]]; try lia; vm_compute; discriminate.
  - intros p. cbn. intros [<-|[<-|[<-|[<-|[]]]]]; cbn; lia.
  - intros p. cbn. intros [<-|[<-|[<-|[<-|[]]]]]; cbn; lia.
Qed.

Example C142_rise_points :
  lastn 3 (points (Push 5 4294967280 :: tl rise)) =
  [(1, 4294967290%Z); (2, 4294967296%Z); (3, 4294967302%Z)].
Proof. reflexivity. Qed.

Example C142_rise_value :
  Qeq_bool (snd (get (fold_left step (Push 5 4294967280 :: tl rise) three)
                     (4294967308 mod 2 ^ 32))) 4 = true.
Proof. vm_compute. reflexivity. Qed.

Print Assumptions C142_line.
Print Assumptions C142_slope.
Print Assumptions C142_exact.
Print Assumptions C142_steady.
Print Assumptions C142_forget.
Print Assumptions C142_ready.
Print Assumptions C142_newest.
Print Assumptions C142_clear.
