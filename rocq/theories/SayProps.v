(** Properties of spoken numbers. *)
From Coq Require Import ZArith List Bool Lia ZifyBool ZifyNat.
From Verif Require Import SayModel SaySpec SayProofs.
Import ListNotations.
Open Scope Z_scope.

(** Every number from 0 to 2^31-1 is spoken so that the words heard mean that number, each with an
    existing sound, and all of its words fit into the empty queue. *)
Theorem C86_number : forall n, 0 <= n < 2 ^ 31 ->
  exists l, say_whole 5 n = Some l /\ heard l = Some n /\ queue_all 0 l = l.
Proof.
  intros n N. destruct (say_heard n N) as (l & E & H). exists l. split; [exact E|]. split; [exact H|]. apply queue_fits. pose proof (say_16 n l N E). lia.
Qed.
(** A number with two decimals is the whole number, "point" and its two digits. *)
Theorem C86_decimal : forall h, 0 <= h < 100 * 2 ^ 31 ->
  exists l, heard l = Some (h / 100) /\ say_number 5 h false = Some l /\
    say_number 5 h true = Some (l ++ [Point] ++ digit_word (h mod 100 / 10) ++ digit_word (h mod 10)).
Proof.
  intros h H. destruct (say_decimal h H) as (l & E & D). exists l. assert (Q : 0 <= h / 100 < 2 ^ 31) by (split; [apply Z.div_pos; lia|apply Z.div_lt_upper_bound; lia]).
  destruct (say_heard _ Q) as (l' & E' & HH). rewrite E in E'. injection E' as <-. split; [exact HH|]. split; [|exact D]. unfold say_number. rewrite E. reflexivity.
Qed.
(** A negative number is never spoken: one of its words has a negative sound number. *)
Theorem C86_negative_refuted : forall n l, n < 0 -> say_whole 5 n = Some l -> heard l = None.
Proof. apply say_negative_heard. Qed.
(** The sound of a color is the file "colors/rrggbb.wav". *)
Theorem C86_color : forall r g b, 0 <= r < 256 -> 0 <= g < 256 -> 0 <= b < 256 ->
  color_file r g b = [99; 111; 108; 111; 114; 115; 47] ++ map lower_hex [r / 16; r mod 16; g / 16; g mod 16; b / 16; b mod 16] ++ [46; 119; 97; 118].
Proof. apply color_file_ok. Qed.

(** 2345: two thousand three hundred forty five; 12.07; -5; the color 0x0aff10. *)
Example C86_ex : say_whole 5 2345 = Some [Mnum 1; Thousand; Mnum 2; Hundred; Tens 40; Mnum 4] /\
  option_map (@length sound) (say_whole 5 1777777777) = Some 16%nat /\
  say_number 5 1207 true = Some [Mnum 11; Point; SZero; Mnum 6] /\
  say_whole 5 (-5) = Some [Mnum (-6)] /\
  color_file 10 255 16 = [99; 111; 108; 111; 114; 115; 47; 48; 97; 102; 102; 49; 48; 46; 119; 97; 118].
Proof. repeat split; vm_compute; reflexivity. Qed.

Print Assumptions C86_number.
Print Assumptions C86_decimal.
Print Assumptions C86_negative_refuted.
Print Assumptions C86_color.
