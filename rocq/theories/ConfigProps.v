(** C07: reading a config file assigns exactly what the file says. *)
From Coq Require Import ZArith List Bool Lia.
From Verif Require Import StrModel StrSpec FileModel FileSpec ConfigModel ConfigSpec ConfigProofs.
Import ListNotations.
Open Scope Z_scope.

(** For every list of well-formed lines (blank, comment, junk starting with a
    non-name character, assignment, this build's "installed" line), every variable ends
    with the value of the last line assigning it, or its default. *)
Theorem C07_Read : forall install vs ls,
  install_ok install -> Forall line_ok ls ->
  Read install vs (file_text install ls) (Defaults vs) = (READ_OK, map (value_after ls) vs).
Proof. exact Read_file. Qed.

(** ... and nothing after a line "end" is used. *)
Theorem C07_Read_end : forall install vs ls ws rest,
  install_ok install -> Forall line_ok ls -> Forall white ws ->
  (match rest with [] => True | c :: _ => ~ name_letter c end) ->
  Read install vs (file_text install ls ++ ws ++ txt_end ++ rest) (Defaults vs) =
  (READ_END, map (value_after ls) vs).
Proof. exact Read_file_end. Qed.

(* variables a (default 7) and B (default 5); file:
   # x
   A = 12.5 ;
   (blank)
   b=3
   a=-4
   end
   b=9                    *)
Definition C07_vars : vars := [([97], Dec 7 0); ([66], Dec 5 0)].
Definition C07_lines : list line :=
  [LComment [32] [120]; LAssign [9] [65] [32] [32] (Number false [49;50] (Some [53])) [32; 59]; LBlank [];
   LAssign [] [98] [] [] (Number false [51] None) []; LAssign [] [97] [] [] (Number true [52] None) []].
Example C07_ex : install_ok [74; 97] /\ Forall line_ok C07_lines /\
  map (value_after C07_lines) C07_vars = [Dec (-4) 0; Dec 3 0] /\
  Read [74; 97] C07_vars (file_text [74; 97] C07_lines ++ [] ++ txt_end ++ [10; 98; 61; 57; 10]) (Defaults C07_vars) =
  (READ_END, [Dec (-4) 0; Dec 3 0]).
Proof.
  split; [|split; [|split; vm_compute; reflexivity]].
  - unfold install_ok, in_line, white. repeat match goal with |- Forall _ _ => constructor | |- _ /\ _ => split end; lia.
  - unfold C07_lines.
    repeat match goal with |- Forall _ _ => constructor end; cbn [line_ok];
      unfold var_name, number_ok, digit_string, in_line, white, name_letter, same_nocase; cbn [ipart fpart length];
      repeat match goal with
      | |- Forall _ _ => constructor
      | |- _ /\ _ => split
      end; try lia; try discriminate; exact I.
Qed.

(** Round trip through the writer, whatever bytes follow in the file. *)
Theorem C07_write_read : forall install vs vals junk,
  install_ok install -> vars_ok vs -> length vals = length vs -> Forall (fun d => 0 <= mant d) vals ->
  Read install vs (config_text install vs vals ++ junk) (Defaults vs) =
  (READ_END, map two_decimals vals).
Proof. exact config_round_trip. Qed.
Example C07_write_read_ex :
  Read [74; 97] C07_vars (config_text [74; 97] C07_vars [Dec 1234 3; Dec 0 0] ++ [97; 61; 49; 10]) (Defaults C07_vars)
  = (READ_END, [Dec 123 2; Dec 0 2]).
Proof. vm_compute. reflexivity. Qed.

(** A file written by another build is refused. *)
Theorem C07_other_build : forall install other vs vals junk,
  install_ok install -> install_ok other -> length install = length other -> other <> install ->
  fst (Read install vs (config_text other vs vals ++ junk) (Defaults vs)) = READ_FAIL.
Proof. exact other_build. Qed.
Example C07_other_build_ex :
  fst (Read [74; 97] C07_vars (config_text [74; 98] C07_vars [Dec 1 0; Dec 2 0]) (Defaults C07_vars)) = READ_FAIL.
Proof. vm_compute. reflexivity. Qed.

(** Findings: a line holding only a word makes the reader skip the following line,
    and so does a line with nothing after '='. *)
(* "foo" newline "a=3" newline: a keeps its default *)
Theorem C07_word_line_refuted : exists word,
  Forall name_letter word /\
  Read [74] C07_vars (word ++ [10] ++ [97; 61; 51] ++ [10]) (Defaults C07_vars) = (READ_OK, Defaults C07_vars).
Proof. exists [102; 111; 111]. split; [unfold name_letter; repeat (apply Forall_cons; [lia|]); constructor | vm_compute; reflexivity]. Qed.
(* "B=" newline "a=3" newline: a keeps its default, B becomes 0 *)
Theorem C07_empty_value_refuted : exists name,
  Forall name_letter name /\
  Read [74] C07_vars (name ++ [61; 10] ++ [97; 61; 51] ++ [10]) (Defaults C07_vars) = (READ_OK, [Dec 7 0; Dec 0 0]).
Proof. exists [66]. split; [unfold name_letter; repeat (apply Forall_cons; [lia|]); constructor | vm_compute; reflexivity]. Qed.

Print Assumptions C07_Read.
Print Assumptions C07_Read_end.
Print Assumptions C07_write_read.
Print Assumptions C07_other_build.
Print Assumptions C07_word_line_refuted.
Print Assumptions C07_empty_value_refuted.
