(** What crash-safe saving means. *)
From Coq Require Import ZArith List Bool.
From Verif Require Import FileModel FileSpec ConfigModel ConfigSpec SaveModel.
Import ListNotations.
Open Scope Z_scope.

(** One cell holding the settings.  A completed save replaces its contents; a save cut
    off replaces them or leaves them alone, as a whole; every start loads exactly the
    contents. *)
Inductive atomic : list dec -> list event -> list (option (list dec)) -> Prop :=
| atomic_nil cell : atomic cell [] []
| atomic_boot cell es os : atomic cell es os -> atomic cell (Boot :: es) (Some cell :: os)
| atomic_save cell vals es os : atomic (map two_decimals vals) es os ->
    atomic cell (Save vals :: es) (None :: os)
| atomic_cut cell cell' vals missing es os :
    cell' = cell \/ cell' = map two_decimals vals ->
    atomic cell' es os -> atomic cell (Cut vals missing :: es) (Some cell' :: os).

(** The saves of a history store one non-negative value per variable. *)
Definition event_ok (vs : vars) (e : event) : Prop :=
  match e with
  | Boot => True
  | Save vals | Cut vals _ => length vals = length vs /\ Forall (fun d => 0 <= mant d) vals
  end.
Definition saved (e : event) : option (list dec) :=
  match e with Boot => None | Save v | Cut v _ => Some v end.

(** The card holds no save made by this build (empty card, hand-written files, or
    files of another build). *)
Definition not_ours (install : list Z) (o : disk_file) : Prop :=
  (forall i, 0 <= get o i < 256) /\ exists i, 0 <= i < 20 /\ get o (32 + i) <> nth (Z.to_nat i) install 0.
Definition build_ok (install : list Z) : Prop :=
  install_ok install /\ length install = 20%nat /\ Forall (fun c => 0 < c < 256) install.
