(** Model of modes/mode.h, modes/menu_base.h, modes/menu_list.h and common/typelist.h: nesting of
    modes, the position in a menu, and which entry a position belongs to. *)
From Coq Require Import ZArith List Bool PeanoNat.
From Verif Require Import ArithModel.
Import ListNotations.
Open Scope Z_scope.

(** mode.h: modes are singletons (getPtr), here numbered.  8-15 their calls; 16 [previous]. *)
Inductive call := Activate (m : nat) (onreturn : bool) | Deactivate (m : nat).
Record modes := Modes { current : option nat;            (* 19 current_mode, null if None *)
                        previous : nat -> option nat }.
Inductive mode_op := Push (m : nat) | Pop.
(** 21-34 pushMode, popMode.  The calls are recorded; a mode that itself pushes or pops while it is
    activated does so last, so that too is a sequence of these steps.  Calling the null mode is
    undefined behaviour: [None]. *)
Definition mode_step (s : modes) (o : mode_op) : option (modes * list call) :=
  match o with
  | Push m =>
    let s := Modes (current s) (fun x => if Nat.eqb x m then current s else previous s x) in
    Some (Modes (Some m) (previous s), [Activate m false])
  | Pop =>
    match current s with
    | None => None
    | Some m =>
      match previous s m with
      | None => None
      | Some p => Some (Modes (Some p) (previous s), [Deactivate m; Activate p true])
      end
    end
  end.
Fixpoint mode_play (s : modes) (os : list mode_op) : option (modes * list (list call)) :=
  match os with
  | [] => Some (s, [])
  | o :: os => match mode_step s o with
               | None => None
               | Some (s, c) => match mode_play s os with None => None | Some (s, cs) => Some (s, c :: cs) end
               end
  end.
(** After start-up (props/prop_base.h pushes the prop's own mode first, with current_mode null). *)
Definition modes0 (base : nat) : modes := Modes (Some base) (fun _ => None).

(** menu_base.h:30-37: the position (a uint16_t) after next() and prev(), for a menu of [size]
    entries; division by zero is [None]. *)
Inductive turn := Next | Prev.
Definition menu_step (size pos : Z) (t : turn) : option Z :=
  if size =? 0 then None
  else Some (match t with Next => MOD (pos + 1) size | Prev => MOD (pos - 1) size end mod 65536).
Fixpoint menu_play (size pos : Z) (ts : list turn) : option Z :=
  match ts with
  | [] => Some pos
  | t :: ts => match menu_step size pos t with None => None | Some pos => menu_play size pos ts end
  end.

(** menu_list.h: an entry occupies [size] positions; here it is identified by [name]. *)
Record entry := Entry { name : nat; size : nat }.
(** 79-94 MenuEntryConcat *)
Inductive tree := Leaf (e : entry) | Concat (a b : tree).
Fixpoint tree_size (t : tree) : nat :=
  match t with Leaf e => size e | Concat a b => tree_size a + tree_size b end.
(** say(entry), select(entry): the entry that is called and the argument it gets.  [nat]
    subtraction: the code only subtracts when entry >= A::size. *)
Fixpoint tree_call (t : tree) (n : nat) : nat * nat :=
  match t with
  | Leaf e => (name e, n)
  | Concat a b => if (n <? tree_size a)%nat then tree_call a n else tree_call b (n - tree_size a)
  end.
(** typelist.h:44-66 HeadTypeList, TailTypeList; a type list that is too short is a compile error. *)
Fixpoint head_list {A} (n : nat) (l prefix : list A) : option (list A) :=
  match n with
  | O => Some prefix
  | S n => match l with [] => None | x :: l => head_list n l (prefix ++ [x]) end
  end.
Fixpoint tail_list {A} (n : nat) (l : list A) : option (list A) :=
  match n with
  | O => Some l
  | S n => match l with [] => None | x :: l => tail_list n l end
  end.
(** menu_list.h:96-106 MenuListHelper.  [fuel] bounds template instantiation depth; [None] is a
    compile error (the empty list splits forever). *)
Fixpoint menu_list (fuel : nat) (l : list entry) : option tree :=
  match fuel with
  | O => None
  | S fuel =>
    match l with
    | [e] => Some (Leaf e)
    | [e1; e2] => Some (Concat (Leaf e1) (Leaf e2))
    | _ =>
      let n := Nat.div (length l) 2 in
      match head_list n l [], tail_list n l with
      | Some a, Some b => match menu_list fuel a, menu_list fuel b with
                          | Some a, Some b => Some (Concat a b)
                          | _, _ => None
                          end
      | _, _ => None
      end
    end
  end.
