(** common/config_file.h: reading and writing settings as text. *)
From Coq Require Import ZArith List Bool.
From Verif Require Import StrModel FileModel.
Import ListNotations.
Open Scope Z_scope.

(** The settings of a ConfigFile: names (as in CONFIG_VARIABLE2, config_file.h:216)
    with their default values, and the current values in the same order.
    Simplification: all variables hold decimals (the code's float / int / bool). *)
Definition vars := list (list Z * dec).

Definition txt_end : list Z := [101; 110; 100].
Definition txt_installed : list Z := [105; 110; 115; 116; 97; 108; 108; 101; 100].
Definition list_eqb (a b : list Z) : bool := if list_eq_dec Z.eq_dec a b then true else false.

(** config_file.h:36-46, 126-134 SetVariable: every variable whose name matches
    without case gets the value. *)
Definition SetVariable (vs : vars) (vals : list dec) (variable : list Z) (v : dec) : list dec :=
  map (fun x => if sp_eq (fst (fst x)) variable then v else snd x) (combine vs vals).
(** config_file.h:30-34 SetDefaultOP *)
Definition Defaults (vs : vars) : list dec := map snd vs.

Inductive status := READ_FAIL | READ_OK | READ_END.

(** config_file.h:92-123 the body of Read's loop for an open file; the loop runs while
    bytes are available and ends with skipline.  Fuel: the number of bytes. *)
Fixpoint read_lines (fuel : nat) (install : list Z) (vs : vars) (f : list Z) (vals : list dec)
  : status * list dec :=
  match fuel, f with
  | _, [] => (READ_OK, vals)
  | O, _ => (READ_OK, vals)
  | S n, _ =>
    let f := skipwhite f in
    if peek f =? HASH then read_lines n install vs (skipline f) vals
    else
      let (variable, f) := readVariable f in
      if list_eqb variable txt_end then (READ_END, vals)
      else
        let f := skipwhite f in
        if negb (peek f =? EQS) then read_lines n install vs (skipline f) vals
        else
          let f := skipwhite (tl f) in
          if list_eqb variable txt_installed then
            match expect install f with
            | None => (READ_FAIL, vals)
            | Some f => read_lines n install vs (skipline f) vals
            end
          else
            let (v, f) := readFloatValue f in
            read_lines n install vs (skipline f) (SetVariable vs vals variable v)
  end.
Definition Read (install : list Z) (vs : vars) (f : list Z) (vals : list dec) : status * list dec :=
  read_lines (length f) install vs f vals.

(** config_file.h:164-174 WriteToDir(dir, basename, ext): the bytes between opening
    and closing the file. *)
Definition config_text (install : list Z) (vs : vars) (vals : list dec) : list Z :=
  write_key_value txt_installed install ++
  flat_map (fun x => write_key_float (fst (fst x)) (snd x)) (combine vs vals) ++
  write_key_value txt_end [49].
