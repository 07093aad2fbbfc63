(** Specification for the style editing menus. *)
From Coq Require Import ZArith List Bool.
From Verif Require Import StrSpec FileModel StyleModel StyleSpec DialModel EditModel.
Import ListNotations.
Open Scope Z_scope.

(** Argument n of the text is one that building the style asks for: the sum of the shifts before the
    question is added to the number asked for. *)
Fixpoint shifts (cs : list call) : Z :=
  match cs with [] => 0 | CShift k :: cs => k + shifts cs | _ :: cs => shifts cs end.
Definition asks (cs : list call) (n : Z) : Prop :=
  exists before k d after, cs = before ++ CGet k d :: after /\ n = k + shifts before.

(** Between two tables of styles (preset, blade -> text) exactly one text differs, that of blade b in
    preset p; it still names the same style; its argument n reads as v, the others as before. *)
Definition one_argument (table : list (list Z * style)) (old new : Z -> Z -> list Z) (p b n : Z) (v : list Z) : Prop :=
  (forall p' b', (p' <> p \/ b' <> b) -> new p' b' = old p' b') /\
  FindStyle table (new p b) = FindStyle table (old p b) /\
  GetArgument table (new p b) n = (true, Some v) /\
  forall a, 0 <= a -> a <> n -> GetArgument table (new p b) a = GetArgument table (old p b) a.

(** The result of giving [to] the colors (arguments with a comma) of [from], in words; the
    conditions are those of C10. *)
Definition colors_copied (from to r : list Z) : Prop :=
  tidy from -> tidy to -> words to <> [] ->
  (forall w, In w (name_words from ++ name_words to) -> ~ In 44 w) ->
  words r = name_words to ++
    merge (fun _ f t => negb (existsb (Z.eqb 44) f || existsb (Z.eqb 44) t)) 1
          (Nat.max (length (arg_words from)) (length (arg_words to))) (arg_words from) (arg_words to).

(** One text changed. *)
Definition only_text (old new : Z -> Z -> list Z) (p b : Z) : Prop :=
  forall p' b', (p' <> p \/ b' <> b) -> new p' b' = old p' b'.

(** The operations, as long as of EditStyleMenu only its first entry is used; those that neither select,
    save nor cancel; the mode on top; the operation that stores. *)
Definition args_only (o : op) : Prop := match o with Pick PArgs => True | Pick _ => False | _ => True end.
Definition quiet (o : op) : Prop :=
  match o with Turned _ | Sensor _ | Button _ | Paint _ | DefaultColor => True | _ => False end.
Definition top (s : ed) : mode := hd Base (stack s).
(** The time shown for position x of the time dial, (x / 32768)^2 * 30 s, in milliseconds. *)
Definition millis (x : Z) : Z := x * x * 30000 / (32768 * 32768).
(** The text that the mode on top would store: what it last said or shows. *)
Definition value_text (s : ed) : option (list Z) :=
  match top s with
  | ArgNumber => Some (itoa (num_pos s))
  | ArgSmooth => Some (itoa (snd (store (smooth_d s))))
  | ArgTime => Some (itoa (millis (snd (store (time_d s)))))
  | ArgColor => Some (color_text (shown s))
  | _ => None
  end.

Definition storing (s : ed) (o : op) : Prop :=
  match top s, o with
  | ArgNumber, Sel _ | ArgSmooth, Sel _ | ArgTime, Sel _ | ArgColor, Save => True
  | _, _ => False
  end.

(** A color channel. *)
Definition ch16 (x : Z) : Prop := 0 <= x < 65536.
