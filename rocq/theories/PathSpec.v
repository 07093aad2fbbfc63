(** What paths and directory lists must do. *)
From Coq Require Import ZArith List Bool.
From Verif Require Import StrModel.
Import ListNotations.
Open Scope Z_scope.

(** A component of a path: not empty, no slash, no 0. *)
Definition component (c : str) : Prop := c <> [] /\ ~ In 47 c /\ ~ In 0 c.
(** A path made of components. *)
Fixpoint path (cs : list str) : str :=
  match cs with [] => [] | [c] => c | c :: cs => c ++ [47] ++ path cs end.
(** All the directories on the way: the first one, the first two, ... *)
Definition ways (cs : list str) : list (list str) := map (fun n => firstn n cs) (seq 1 (length cs)).
(** A path in front of a name. *)
Definition in_dir (dir name : str) : str :=
  match dir with [] => name | _ => if last dir 0 =? 47 then dir ++ name else dir ++ [47] ++ name end.

(** A font directory as the user writes it: not empty, without ; and 0, and not ending with a slash;
    a trailing slash may be added to all but the last. *)
Definition dir_name (d : str) : Prop := d <> [] /\ ~ In 59 d /\ ~ In 0 d /\ last d 0 <> 47.
Fixpoint dir_list (ds : list (str * bool)) : str :=
  match ds with
  | [] => []
  | [(d, _)] => d
  | (d, sl) :: ds => d ++ (if sl then [47] else []) ++ [59] ++ dir_list ds
  end.
