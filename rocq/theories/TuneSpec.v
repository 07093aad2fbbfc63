(** What the setting menus should do. *)
From Coq Require Import ZArith QArith List Bool.
From Verif Require Import TuneModel.
Import ListNotations.
Local Open Scope Z_scope.

(** Steps forth less steps back. *)
Definition net (l : list bool) : Z := fold_right (fun d n => (if d : bool then 1 else -1) + n) 0 l.
(** The memory holds what the card holds, or the defaults. *)
Definition in_step (s : lens) : Prop := forall b, mem s b = if card s then disk s b else -1.
(** The length a blade should have, by what is stored. *)
Definition real (n stored : Z) : Z := if stored =? -1 then n else stored.
