(** C03, C06: saved text and numbers read back. *)
From Coq Require Import ZArith List Bool Lia.
From Verif Require Import StrModel FileModel FileSpec FileProofs.
Import ListNotations.
Open Scope Z_scope.

(** C03: in the file "key=value<newline>rest" the reader finds the key (lower-cased), then
    '=', then the value without its leading spaces, and stops at the newline that ends
    the line: the rest is untouched. *)
Theorem C03_key_value_round_trip : forall key value rest,
  key <> [] -> (length key <= 32)%nat ->
  Forall (fun c => 97 <= c <= 122 \/ 65 <= c <= 90 \/ 48 <= c <= 57 \/ c = 95 \/ c = 46) key ->
  let (k, f) := readVariable (write_key_value key value ++ rest) in
  k = map toLower key /\ peek f = 61 /\
  readString (skipspace (tl f)) = (drop_spaces value, 10 :: rest).
Proof. exact key_value_round_trip. Qed.
(* key "Style", value " a<newline>b\c" : the newline and backslash survive *)
Example C03_ex :
  let (k, f) := readVariable (write_key_value [83;116;121;108;101] [32;97;10;98;92;99] ++ [120]) in
  k = [115;116;121;108;101] /\ readString (skipspace (tl f)) = ([97;10;98;92;99], [10;120]).
Proof. vm_compute. auto. Qed.

(** The written value occupies exactly one line, whatever the value. *)
Theorem C03_one_line : forall key value,
  Forall (fun c => c <> 10) key ->
  exists body, write_key_value key value = body ++ [10] /\ Forall (fun c => c <> 10) body.
Proof. exact one_line. Qed.
Example C03_one_line_ex :
  write_key_value [110] [10; 10] = [110; 61; 92; 110; 92; 110; 10].
Proof. reflexivity. Qed.

(** C06 *)
Theorem C06_int_round_trip : forall v rest,
  no_digit rest -> readIntValue (itoa v ++ rest) = (v, rest).
Proof. exact read_int_itoa. Qed.
Example C06_ex : readIntValue (itoa (-2147483648) ++ [10; 50]) = (-2147483648, [10; 50]).
Proof. vm_compute. reflexivity. Qed.

(** C06 for a whole line: name=number is read back as that number, up to the newline. *)
Theorem C06_key_int_round_trip : forall key v rest,
  key <> [] -> (length key <= 32)%nat ->
  Forall (fun c => 97 <= c <= 122 \/ 65 <= c <= 90 \/ 48 <= c <= 57 \/ c = 95 \/ c = 46) key ->
  let (k, f) := readVariable (write_key_int key v ++ rest) in
  k = map toLower key /\ peek f = 61 /\
  readIntValue (skipspace (tl f)) = (v, 10 :: rest).
Proof. exact key_int_round_trip. Qed.
Example C06_key_ex :
  let (k, f) := readVariable (write_key_int [118] (-77) ++ [120]) in
  readIntValue (skipspace (tl f)) = (-77, [10; 120]).
Proof. vm_compute. reflexivity. Qed.

(** Non-negative decimals are read back cut to two decimals. *)
Theorem C06_float_round_trip : forall d rest,
  0 <= mant d -> no_digit rest -> peek rest <> 46 ->
  readFloatValue (float_text d ++ rest) = (two_decimals d, rest).
Proof. exact read_float_text. Qed.
(* 3.1415 -> 3.14 *)
Example C06_float_ex : readFloatValue (float_text (Dec 31415 4) ++ [10]) = (Dec 314 2, [10]).
Proof. vm_compute. reflexivity. Qed.
(** Negative decimals are not: -0.5 is written "-1.-50" and read back as -1. *)
Theorem C06_negative_float_refuted : exists d,
  readFloatValue (float_text d ++ [10]) <> (two_decimals d, [10]) /\
  mant (fst (readFloatValue (float_text d ++ [10]))) = -1 /\ d = Dec (-5) 1.
Proof. exists (Dec (-5) 1). repeat split; vm_compute; congruence. Qed.

Print Assumptions C03_key_value_round_trip.
Print Assumptions C03_one_line.
Print Assumptions C06_int_round_trip.
Print Assumptions C06_key_int_round_trip.
Print Assumptions C06_float_round_trip.
Print Assumptions C06_negative_float_refuted.
