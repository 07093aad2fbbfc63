(** C09 setting style arguments, C10 copying style arguments. *)
From Coq Require Import ZArith List Bool Lia.
From Verif Require Import StrModel StrSpec ArgModel ArgSpec StyleModel StyleSpec StyleProofs.
Import ListNotations.
Open Scope Z_scope.

(** C09.  For a style string without trailing blank that names a known style, setting
    an argument (not one that selects the style) to a usable text [v] gives a string
    of the same style in which argument n reads as v and all others as before, unless
    the 512-byte buffer overflows. *)
Theorem C09_SetArgument : forall table s st n v garbage r,
  table_ok table -> tidy s -> FindStyle table s = Some st -> settable st n -> arg_text v ->
  SetArgument table s n v garbage = SetOk r ->
  tidy r /\ FindStyle table r = Some st /\ GetArgument table r n = (true, Some v) /\
  forall a, 0 <= a -> a <> n -> GetArgument table r a = GetArgument table s a.
Proof. exact SetArgument_get. Qed.

(* a table with one style "xy" that asks for arguments 1 (default "p") and 3 ("q") *)
Definition ex_table : list (list Z * style) :=
  [([120; 121], Plain [CGet 1 [112]; CShift 1; CGet 2 [113]])].
Example C09_ex : let s := [120; 121; 32; 126; 32; 98] in
  table_ok ex_table /\ tidy s /\ FindStyle ex_table s <> None /\ arg_text [118] /\
  SetArgument ex_table s 3 [118] [] = SetOk [120; 121; 32; 112; 32; 98; 32; 118] /\
  GetArgument ex_table s 3 = (true, Some [113]).
Proof.
  assert (W : forall c, c <> 32 -> c <> 9 -> ~ blank c) by (intros c ? ? [?|?]; congruence).
  cbn zeta. repeat split; try discriminate; try (vm_compute; congruence);
    try (repeat constructor; try apply W; try discriminate; try lia).
  - intros a c E. destruct a as [|? [|? [|? [|? [|? [|? a]]]]]]; cbn in E; inversion E; subst;
      try (apply W; discriminate). destruct a; discriminate.
Qed.

(** The finding: a result of 512 bytes or more overflows the buffer on the stack. *)
Theorem C09_overflow_refuted : exists table s st n v garbage,
  table_ok table /\ tidy s /\ FindStyle table s = Some st /\ settable st n /\ arg_text v /\
  SetArgument table s n v garbage = SetOverflow.
Proof. exact SetArgument_overflow. Qed.

(** The finding: after a trailing blank the new argument lands one position early. *)
Theorem C09_trailing_blank_refuted : exists table s st n v r,
  table_ok table /\ FindStyle table s = Some st /\ settable st n /\ arg_text v /\
  SetArgument table s n v [] = SetOk r /\ GetArgument table r n <> (true, Some v).
Proof. exact SetArgument_trailing_blank. Qed.

(** C10.  CopyArguments(from, to): the buffer is exactly large enough and the result
    has to's style name with from's arguments. *)
Theorem C10_CopyArguments : forall from to,
  fits (CopyArguments from to) /\
  words (written (CopyArguments from to)) = name_words to ++ arg_words from.
Proof. exact Copy_all. Qed.
Example C10_CopyArguments_ex :
  (* from "builtin 1 2 z", to "xy q" *)
  written (CopyArguments [98;117;105;108;116;105;110;32;49;32;50;32;122] [120;121;32;113]) =
  [120;121;32;122].
Proof. reflexivity. Qed.

Theorem C10_ResetArguments : forall s, words (ResetArguments s) = name_words s.
Proof. exact Reset_words. Qed.

(** CopyArguments(from, to, n): the first n arguments of from, the rest of to... *)
Theorem C10_CopyArgumentsAfter_text : forall from to n,
  words (written (CopyArgumentsAfter from to n)) =
  name_words to ++ firstn (Z.to_nat n) (arg_words from) ++ skipn (Z.to_nat n) (arg_words to).
Proof. exact CopyAfter_words. Qed.
(** ... but the buffer can be too small: the sizes are taken from the wrong strings. *)
Theorem C10_CopyArgumentsAfter_refuted : exists from to n, 0 <= n /\
  ~ fits (CopyArgumentsAfter from to n).
Proof. exact CopyAfter_overflow. Qed.
(** and when [from] has fewer than n arguments, the kept arguments change position. *)
Theorem C10_CopyArgumentsAfter_position_refuted : exists from to n,
  nth_error (arg_words to) n <> None /\
  nth_error (arg_words (written (CopyArgumentsAfter from to (Z.of_nat n)))) n <>
  nth_error (arg_words to) n.
Proof. exact CopyAfter_position. Qed.

(** CopyArguments(from, to, list): fits exactly; every argument in the list (and the
    style name) comes from [to], the others from [from], missing ones become "~". *)
Theorem C10_CopyArgumentsKeep : forall from to args,
  tidy from -> tidy to -> words to <> [] ->
  let r := CopyArgumentsKeep from to args in
  fits r /\
  words (written r) = name_words to ++
    merge (fun i _ _ => existsb (Z.eqb i) args) 1
          (Nat.max (length (arg_words from)) (length (arg_words to))) (arg_words from) (arg_words to).
Proof. exact CopyKeep_all. Qed.
(* from "xy a b c", to "zz 1", keeping 1 and 3 of to *)
Example C10_Keep_ex :
  written (CopyArgumentsKeep [120;121;32;97;32;98;32;99] [122;122;32;49] [1; 3]) =
  [122;122;32;49;32;98;32;126].
Proof. reflexivity. Qed.

(** CopyColorArguments: an argument comes from [from] exactly if either side's is a
    color (contains a comma). *)
Theorem C10_CopyColorArguments : forall from to,
  tidy from -> tidy to -> words to <> [] ->
  (forall w, In w (name_words from ++ name_words to) -> ~ In 44 w) ->
  let r := CopyColorArguments from to in
  fits r /\
  words (written r) = name_words to ++
    merge (fun _ f t => negb (contains 44 f || contains 44 t)) 1
          (Nat.max (length (arg_words from)) (length (arg_words to))) (arg_words from) (arg_words to).
Proof. exact CopyColor_all. Qed.
(* from "xy 1,2,3 b", to "zz 9 8": the color replaces 9, 8 stays *)
Example C10_Color_ex :
  written (CopyColorArguments [120;121;32;49;44;50;44;51;32;98] [122;122;32;57;32;56]) =
  [122;122;32;49;44;50;44;51;32;56].
Proof. reflexivity. Qed.

Print Assumptions C09_SetArgument.
Print Assumptions C09_overflow_refuted.
Print Assumptions C10_CopyArguments.
Print Assumptions C10_ResetArguments.
Print Assumptions C10_CopyArgumentsAfter_text.
Print Assumptions C10_CopyArgumentsAfter_refuted.
Print Assumptions C10_CopyArgumentsAfter_position_refuted.
Print Assumptions C10_CopyArgumentsKeep.
Print Assumptions C10_CopyColorArguments.
Print Assumptions C09_trailing_blank_refuted.
