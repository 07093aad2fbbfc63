(** What a saved list of presets is. *)
From Coq Require Import ZArith List Bool.
From Verif Require Import FileModel FileSpec ConfigModel ConfigSpec PresetModel.
Import ListNotations.
Open Scope Z_scope.

(** A preset of a saber with [nb] blades. *)
Definition preset_ok (nb : nat) (p : preset) : Prop :=
  length (styles p) = nb /\ 0 <= variation p < 2 ^ 32.
(** What comes back: leading spaces of the texts are dropped, nothing else changes. *)
Definition trimmed (p : preset) : preset :=
  Preset (drop_spaces (font p)) (drop_spaces (track p)) (map drop_spaces (styles p)) (drop_spaces (name p)) (variation p).

(** The file holding a list of presets. *)
Definition presets_text (install : list Z) (ps : list preset) : list Z :=
  write_key_value txt_installed install ++ flat_map Write ps ++ txt_end ++ [LF].

(** Editing the list: drop the preset number [origin] (if there is one), then insert
    [cur] at [position] (if that is a place in the remaining list). *)
Definition remove_at {A} (n : Z) (l : list A) : list A :=
  if n <? 0 then l else firstn (Z.to_nat n) l ++ skipn (S (Z.to_nat n)) l.
Definition insert_at {A} (n : Z) (x : A) (l : list A) : list A :=
  if (0 <=? n) && (n <=? Z.of_nat (length l)) then firstn (Z.to_nat n) l ++ x :: skipn (Z.to_nat n) l else l.

(** Reading a file preset by preset (starting with anything in the preset [p]) until
    the reader reports the end. *)
Fixpoint read_all (fuel : nat) (p : preset) (num : Z) (f : reader) : option (list (preset * Z)) :=
  match fuel with
  | O => None
  | S fuel =>
    match Read p num f with
    | Overflow => None
    | Got false _ _ _ => Some []
    | Got true p num f =>
      match read_all fuel p num f with Some l => Some ((p, num) :: l) | None => None end
    end
  end.
(** A list with its positions 0, 1, 2, ... *)
Definition numbered {A} (l : list A) : list (A * Z) := combine l (map Z.of_nat (seq 0 (length l))).

(** The list editor that a user sees: a list of presets, the one in use, its number. *)
Record editor := Editor { plist : list preset; inuse : preset; number : Z }.
Definition clean (p : preset) : Prop := trimmed p = p.
Definition store (e : editor) (p : preset) (origin pos : Z) : editor :=
  Editor (insert_at pos p (remove_at origin (plist e))) p pos.
(** Choosing preset [k]: a number in the list; -1 is the last one; one past the end is
    the first; otherwise a compiled-in preset. *)
Definition choose (nb : nat) (rom : list preset) (l : list preset) (k : Z) : option (preset * Z) :=
  let n := Z.of_nat (length l) in
  if (0 <=? k) && (k <? n) then
    match nth_error l (Z.to_nat k) with Some p => Some (p, k) | None => None end
  else if (k =? -1) && (0 <? n) then Some (last l (empty_preset nb), n - 1)
  else if k =? n then match l with p :: _ => Some (p, 0) | [] => Some (empty_preset nb, -1) end
  else SetRom rom k.
Definition edit_list (nb : nat) (rom : list preset) (s : editor) (e : edit) : option editor :=
  let p := inuse s in
  let keep p := Some (store s p (number s) (number s)) in
  match e with
  | Select k => match choose nb rom (plist s) k with Some (p, n) => Some (Editor (plist s) p n) | None => None end
  | SetFont x => keep (Preset x (track p) (styles p) (name p) (variation p))
  | SetTrack x => keep (Preset (font p) x (styles p) (name p) (variation p))
  | SetName x => keep (Preset (font p) (track p) (styles p) x (variation p))
  | SetStyle b x => if (b <? length (styles p))%nat
                    then keep (Preset (font p) (track p) (firstn b (styles p) ++ x :: skipn (S b) (styles p)) (name p) (variation p))
                    else None
  | SetVariation v => keep (Preset (font p) (track p) (styles p) (name p) v)
  | Move pos => Some (store s p (number s) pos)
  | Duplicate pos => Some (store s p (-1) pos)
  | Delete => Some (store s p (number s) (-1))
  end.
Fixpoint edit_all (nb : nat) (rom : list preset) (s : editor) (es : list edit) : option editor :=
  match es with
  | [] => Some s
  | e :: es => match edit_list nb rom s e with Some s => edit_all nb rom s es | None => None end
  end.
(** Texts without leading spaces, variations in 32 bits. *)
Definition edit_ok (e : edit) : Prop :=
  match e with
  | SetFont x | SetTrack x | SetName x | SetStyle _ x => drop_spaces x = x
  | SetVariation v => 0 <= v < 2 ^ 32
  | _ => True
  end.
