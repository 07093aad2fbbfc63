(** Model of PathHelper (common/lsfs.h:8-66), LSFS::mkdir (common/lsfs.h:379-386), the list of
    current directories (ProffieOS.ino:415-441) and the part of chdir that fills it
    (props/prop_base.h:254-286).  A buffer is the list of its bytes; writing past its end is
    undefined behaviour, [None]. *)
From Coq Require Import ZArith List Bool PeanoNat.
From Verif Require Import StrModel.
Import ListNotations.
Open Scope Z_scope.

Definition buffer := list Z.
(** The C string at the start of the buffer. *)
Fixpoint cstr (b : buffer) : str := match b with [] => [] | c :: b => if c =? 0 then [] else c :: cstr b end.
Definition strlen (b : buffer) : nat := length (cstr b).
Definition poke (b : buffer) (i : nat) (v : Z) : option buffer :=
  if (i <? length b)%nat then Some (firstn i b ++ v :: skipn (S i) b) else None.
(** strcpy(b + at, s) *)
Definition paste (b : buffer) (at_ : nat) (s : str) : option buffer :=
  if (at_ + length s + 1 <=? length b)%nat then Some (firstn at_ b ++ s ++ 0 :: skipn (at_ + length s + 1) b) else None.
Definition strcat (b : buffer) (s : str) : option buffer := paste b (strlen b) s.

(** lsfs.h:9-14 Append(name); 15-22 Append(name, ext). *)
Definition slash (b : buffer) : option buffer :=
  if negb (strlen b =? 0)%nat && negb (nth (strlen b - 1) b 0 =? 47) then strcat b [47] else Some b.
Definition append (b : buffer) (name : str) : option buffer :=
  match slash b with None => None | Some b => strcat b name end.
Definition append_ext (b : buffer) (name ext : str) : option buffer :=
  match slash b with
  | None => None
  | Some b => match strcat b name with
              | None => None
              | Some b => match strcat b [46] with None => None | Some b => strcat b ext end
              end
  end.
(** 23-25 Set(path) *)
Definition set (b : buffer) (path : str) : option buffer := paste b 0 path.
(** 43-47 IsRoot *)
Definition is_root (b : buffer) : bool := match cstr b with [] => true | [c] => c =? 47 | _ => false end.
(** strrchr(path, '/') *)
Fixpoint strrchr (s : str) : option nat :=
  match s with
  | [] => None
  | c :: s => match strrchr s with
              | Some i => Some (S i)
              | None => if c =? 47 then Some O else None
              end
  end.
(** 48-55 Dirname; 56-58 UndoDirname *)
Definition dirname (b : buffer) : option (buffer * bool) :=
  match strrchr (cstr b) with
  | Some i => match poke b i 0 with None => None | Some b => Some (b, negb (is_root b)) end
  | None => Some (b, false)
  end.
Definition undo_dirname (b : buffer) : option buffer := poke b (strlen b) 47.
(** 379-386 mkdir: the directories asked for, in order.  [fuel] bounds the recursion: every level
    shortens the path. *)
Fixpoint mkdir (fuel : nat) (b : buffer) : option (buffer * list str) :=
  match fuel with
  | O => None
  | S fuel =>
    match dirname b with
    | None => None
    | Some (b, true) =>
      match mkdir fuel b with
      | None => None
      | Some (b, made) => match undo_dirname b with None => None | Some b => Some (b, made ++ [cstr b]) end
      end
    | Some (b, false) => Some (b, [cstr b])
    end
  end.

(** ProffieOS.ino:418-423 next_current_directory: a pointer is an index into the buffer; [None] is
    undefined behaviour, [Some None] the null pointer. *)
Definition next_dir (b : buffer) (p : nat) : option (option nat) :=
  let p := (p + strlen (skipn p b) + 1)%nat in
  if (p <? length b)%nat then Some (if nth p b 0 =? 0 then None else Some p) else None.
(** 424-431 last_current_directory *)
Fixpoint last_dir_from (fuel : nat) (b : buffer) (p : nat) : option nat :=
  match fuel with
  | O => None
  | S fuel => match next_dir b p with
              | None => None
              | Some None => Some p
              | Some (Some q) => last_dir_from fuel b q
              end
  end.
Definition last_dir (b : buffer) : option nat := last_dir_from (length b) b 0.
(** 432-440 previous_current_directory *)
Fixpoint back (b : buffer) (p : nat) : nat :=
  match p with
  | O => O
  | S q => if nth p b 0 =? 0 then S p else back b q
  end.
Definition previous_dir (b : buffer) (p : nat) : option (option nat) :=
  match p with
  | O => Some None
  | S O => None                  (* points before the buffer *)
  | S (S q) => Some (Some (back b q))
  end.
(** The loops over directories: "for (dir = current_directory; dir; dir = next(dir))" and
    "for (dir = last(); dir; dir = previous(dir))": the strings visited. *)
Fixpoint forward (fuel : nat) (b : buffer) (p : nat) : option (list str) :=
  match fuel with
  | O => None
  | S fuel => match next_dir b p with
              | None => None
              | Some None => Some [cstr (skipn p b)]
              | Some (Some q) => match forward fuel b q with None => None | Some l => Some (cstr (skipn p b) :: l) end
              end
  end.
Fixpoint backward (fuel : nat) (b : buffer) (p : nat) : option (list str) :=
  match fuel with
  | O => None
  | S fuel => match previous_dir b p with
              | None => None
              | Some None => Some [cstr (skipn p b)]
              | Some (Some q) => match backward fuel b q with None => None | Some l => Some (cstr (skipn p b) :: l) end
              end
  end.
(** prop_base.h:272-285: what chdir writes, for a C string (so that the character after the last is
    the terminating 0). *)
Fixpoint packed (d : str) : list Z :=
  match d with
  | [] => [0; 0]
  | c :: d' =>
    if (c =? 47) && (match d' with [] => true | c2 :: _ => c2 =? 59 end) then packed d'
    else if c =? 59 then 0 :: packed d'
    else c :: packed d'
  end.
(** 255-258 and 272-285; [Some None]: refused. *)
Definition chdir (b : buffer) (d : str) : option (option buffer) :=
  if (1 <? length d)%nat && (last d 0 =? 47) then Some None
  else if (length (packed d) <=? length b)%nat then Some (Some (packed d ++ skipn (length (packed d)) b)) else None.
