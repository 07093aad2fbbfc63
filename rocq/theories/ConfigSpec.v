(** What the text of a config file means. *)
From Coq Require Import ZArith List Bool.
From Verif Require Import StrModel StrSpec FileModel FileSpec ConfigModel.
Import ListNotations.
Open Scope Z_scope.

(** A number as written in the file: optional minus, digits, optional fraction. *)
Record number := Number { minus : bool; ipart : list Z; fpart : option (list Z) }.
Definition number_text (n : number) : list Z :=
  (if minus n then [45] else []) ++ ipart n ++
  match fpart n with Some f => 46 :: f | None => [] end.
Definition number_ok (n : number) : Prop :=
  digit_string (ipart n) /\
  match fpart n with Some f => Forall (fun c => 48 <= c <= 57) f | None => True end.
Definition number_value (n : number) : dec :=
  let m := digits_value (ipart n ++ match fpart n with Some f => f | None => [] end) in
  Dec (if minus n then - m else m) (match fpart n with Some f => length f | None => 0%nat end).

(** Lines of a config file (without the newline). *)
Inductive line :=
| LBlank (ws : list Z)
| LComment (ws body : list Z)                        (* # anything *)
| LJunk (ws : list Z) (c : Z) (body : list Z)        (* starts with some other character *)
| LAssign (ws name ws1 ws2 : list Z) (n : number) (rest : list Z)   (* name = number rest *)
| LInstalled (ws ws1 ws2 rest : list Z).             (* installed = <this build> rest *)

Definition white (c : Z) : Prop := c = 32 \/ c = 9 \/ c = 13.
Definition in_line (s : list Z) : Prop := Forall (fun c => c <> 10) s.
(** A setting's name: 1 to 32 letters, digits, '_' or '.'. *)
Definition name_letter (c : Z) : Prop :=
  65 <= c <= 90 \/ 97 <= c <= 122 \/ 48 <= c <= 57 \/ c = 95 \/ c = 46.
Definition var_name (n : list Z) : Prop :=
  n <> [] /\ (length n <= 32)%nat /\ Forall name_letter n /\
  ~ same_nocase n txt_end /\ ~ same_nocase n txt_installed.

Definition line_ok (l : line) : Prop :=
  match l with
  | LBlank ws => Forall white ws
  | LComment ws body => Forall white ws /\ in_line body
  | LJunk ws c body => Forall white ws /\ in_line body /\ ~ white c /\ c <> 10 /\
      ~ name_letter c /\ c <> 35 /\ c <> 61
  | LAssign ws name ws1 ws2 n rest =>
      Forall white ws /\ Forall white ws1 /\ Forall white ws2 /\ var_name name /\
      number_ok n /\ in_line rest /\
      (match rest with [] => True | c :: _ => ~ 48 <= c <= 57 /\ c <> 46 end)
  | LInstalled ws ws1 ws2 rest =>
      Forall white ws /\ Forall white ws1 /\ Forall white ws2 /\ in_line rest
  end.
Definition line_text (install : list Z) (l : line) : list Z :=
  match l with
  | LBlank ws => ws
  | LComment ws body => ws ++ 35 :: body
  | LJunk ws c body => ws ++ c :: body
  | LAssign ws name ws1 ws2 n rest => ws ++ name ++ ws1 ++ [61] ++ ws2 ++ number_text n ++ rest
  | LInstalled ws ws1 ws2 rest => ws ++ txt_installed ++ ws1 ++ [61] ++ ws2 ++ install ++ rest
  end.
Definition file_text (install : list Z) (ls : list line) : list Z :=
  flat_map (fun l => line_text install l ++ [10]) ls.

(** The value the lines give to a name: that of the last line assigning it. *)
Definition assigns (name : list Z) (l : line) : option dec :=
  match l with
  | LAssign _ n _ _ v _ =>
    if list_eq_dec Z.eq_dec (lower_str n) (lower_str name) then Some (number_value v) else None
  | _ => None
  end.
Fixpoint last_value (name : list Z) (ls : list line) : option dec :=
  match ls with
  | [] => None
  | l :: ls => match last_value name ls with Some v => Some v | None => assigns name l end
  end.
Definition value_after (ls : list line) (v0 : list Z * dec) : dec :=
  match last_value (fst v0) ls with Some v => v | None => snd v0 end.

(** The build's install time: a text with no newline, not starting with a blank. *)
Definition install_ok (i : list Z) : Prop :=
  in_line i /\ Forall (fun c => c <> 9 /\ c <> 92) i /\
  match i with [] => False | c :: _ => ~ white c end.

(** A well-formed set of variables: proper names, all different (ignoring case). *)
Definition vars_ok (vs : vars) : Prop :=
  Forall (fun v => var_name (fst v)) vs /\ NoDup (map (fun v => lower_str (fst v)) vs).
