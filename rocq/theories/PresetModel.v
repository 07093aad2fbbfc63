(** Saved presets: common/current_preset.h.  [nb] is NUM_BLADES. *)
From Coq Require Import ZArith List Bool.
From Verif Require Import StrModel FileModel ConfigModel.
Import ListNotations.
Open Scope Z_scope.

(** current_preset.h:15-21, the text fields and the variation (a uint32_t). *)
Record preset := Preset { font : list Z; track : list Z; styles : list (list Z); name : list Z; variation : Z }.

Definition txt_new_preset : list Z := [110;101;119;95;112;114;101;115;101;116].
Definition txt_name : list Z := [110;97;109;101].
Definition txt_font : list Z := [102;111;110;116].
Definition txt_track : list Z := [116;114;97;99;107].
Definition txt_variation : list Z := [118;97;114;105;97;116;105;111;110].
Definition txt_style : list Z := [115;116;121;108;101].

(** uint32_t to the int that itoa takes, and back. *)
Definition to_int (v : Z) : Z := if v <? 2 ^ 31 then v else v - 2 ^ 32.
Definition to_uint (v : Z) : Z := v mod 2 ^ 32.

(** current_preset.h:198-218 Write *)
Definition Write (p : preset) : list Z :=
  txt_new_preset ++ [LF] ++
  write_key_value txt_font (font p) ++
  write_key_value txt_track (track p) ++
  flat_map (write_key_value txt_style) (styles p) ++
  write_key_value txt_name (name p) ++
  write_key_value txt_variation (itoa (to_int (variation p))).

(** strtol(s, nullptr, 10) on a 32-bit long.  Simplification: no leading white space
    or '+', no saturation (the text was written by itoa from an int). *)
Definition strtol (s : list Z) : Z := fst (readIntValue s).

Fixpoint set_nth (n : nat) (x : list Z) (l : list (list Z)) : option (list (list Z)) :=
  match l, n with
  | [], _ => None
  | _ :: l, O => Some (x :: l)
  | y :: l, S n => match set_nth n x l with Some l => Some (y :: l) | None => None end
  end.

(** An open file: position and the bytes from there on. *)
Record reader := Reader { tell : Z; rest : list Z }.
Definition moved (f : reader) (r : list Z) : reader :=
  Reader (tell f + Z.of_nat (length (rest f) - length r)) r.

(** Result of Read: [Overflow] when a style line would be stored past current_style_. *)
Inductive read_result :=
| Got (ok : bool) (p : preset) (preset_num : Z) (f : reader)
| Overflow.

(** current_preset.h:122-195, the loop of Read.  Fuel: number of bytes plus one. *)
Fixpoint read_loop (fuel : nat) (preset_count : Z) (current_style : nat) (p : preset) (num : Z) (f : reader)
  : read_result :=
  let finish :=
    if preset_count =? 1 then Got true p (num + 1) f else Got false p num f in
  match fuel with
  | O => finish
  | S fuel =>
    match rest f with
    | [] => finish
    | _ =>
      let next cnt cs p r := read_loop fuel cnt cs p num (moved f (skipline r)) in
      let r := skipspace (rest f) in
      if peek r =? HASH then next preset_count current_style p r
      else
        let line_begin := moved f r in
        let (variable, r) := readVariable r in
        match variable with
        | [] => next preset_count current_style p r
        | _ =>
          if list_eqb variable txt_new_preset then
            if preset_count + 1 =? 2 then Got true p (num + 1) line_begin
            else next (preset_count + 1) current_style p r
          else if list_eqb variable txt_end then
            if preset_count =? 0 then Got false p num line_begin
            else if preset_count =? 1 then Got true p (num + 1) line_begin
            else Got false p num line_begin
          else if preset_count =? 0 then next preset_count current_style p r
          else if negb (peek r =? EQS) then next preset_count current_style p r
          else
            let r := skipspace (tl r) in
            if list_eqb variable txt_name then
              let (s, r) := readString r in
              next preset_count current_style (Preset (font p) (track p) (styles p) s (variation p)) r
            else if list_eqb variable txt_font then
              let (s, r) := readString r in
              next preset_count current_style (Preset s (track p) (styles p) (name p) (variation p)) r
            else if list_eqb variable txt_track then
              let (s, r) := readString r in
              next preset_count current_style (Preset (font p) s (styles p) (name p) (variation p)) r
            else if list_eqb variable txt_variation then
              let (s, r) := readString r in
              next preset_count current_style (Preset (font p) (track p) (styles p) (name p) (to_uint (strtol s))) r
            else if list_eqb variable txt_style then
              let (s, r) := readString r in
              match set_nth current_style s (styles p) with
              | None => Overflow
              | Some ss => next preset_count (S current_style) (Preset (font p) (track p) ss (name p) (variation p)) r
              end
            else next preset_count current_style p r
        end
    end
  end.

(** current_preset.h:116-196 Read; install_time is 20 characters, so the test on line
    119 is Tell() <= 21 + 11. *)
Definition Read (p : preset) (num : Z) (f : reader) : read_result :=
  read_loop (S (length (rest f))) 0 0 p (if tell f <=? 32 then -1 else num) f.

(** current_preset.h:325-358 Load, after the file has been opened: the loop.  Fuel: number
    of bytes plus one (each successful Read consumes some). *)
Fixpoint load_loop (fuel : nat) (start : reader) (want n : Z) (p : preset) (num : Z) (f : reader)
  : option (bool * preset * Z) :=
  match fuel with
  | O => None
  | S fuel =>
    match Read p num f with
    | Overflow => None
    | Got true p num f =>
      if n =? want then Some (true, p, num) else load_loop fuel start want (n + 1) p num f
    | Got false p num f =>
      if negb (n =? 0) && (want =? -1) then Some (true, p, num)
      else if n =? want then
        match Read p (-1) start with
        | Overflow => None
        | Got _ p num _ => Some (true, p, num)
        end
      else Some (false, p, num)
    end
  end.
Definition Load (p : preset) (f : reader) (want : Z) : option (bool * preset * Z) :=
  load_loop (S (S (length (rest f)))) f want 0 p (-1) f.

(** current_preset.h:388-414 SaveAtLocked: the text written to the new file. *)
Fixpoint save_loop (fuel : nat) (cur : preset) (preset_num position opos : Z) (tmp : preset) (tmp_num : Z) (f : reader)
  : option (list Z) :=
  match fuel with
  | O => None
  | S fuel =>
    match Read tmp tmp_num f with
    | Overflow => None
    | Got false _ _ _ => Some []
    | Got true tmp tmp_num f =>
      if negb (tmp_num =? preset_num) then
        let opos := opos + 1 in
        let '(ins, opos) := if position =? opos then (Write cur, opos + 1) else ([], opos) in
        match save_loop fuel cur preset_num position opos tmp tmp_num f with
        | Some t => Some (Write tmp ++ ins ++ t)
        | None => None
        end
      else save_loop fuel cur preset_num position opos tmp tmp_num f
    end
  end.
Definition empty_preset (nb : nat) : preset := Preset [] [] (repeat [] nb) [] 0.
Definition SaveAt (nb : nat) (install : list Z) (cur : preset) (preset_num position : Z) (f : reader) : option (list Z) :=
  match save_loop (S (S (length (rest f)))) cur preset_num position (if position =? 0 then 1 else 0)
                  (empty_preset nb) (-1) f with
  | Some t =>
    Some (write_key_value txt_installed install ++
          (if position =? 0 then Write cur else []) ++ t ++ txt_end ++ [LF])
  | None => None
  end.

(** An editing session over the saved presets: the text of the current save file, the
    preset in use and its number (common/current_preset.h:23-31 members). *)
Record session := Session { file : list Z; cur : preset; num : Z }.

(** What the user does to presets (props/prop_base.h:1525-1575 serial commands and
    1763-1796 editing hooks, which call the CurrentPreset functions in the same way). *)
Inductive edit :=
| Select (k : Z)               (* SetPreset(k) *)
| SetFont (s : list Z)         (* font = s; Save() *)
| SetTrack (s : list Z)        (* track = s; Save() *)
| SetName (s : list Z)         (* name = s; Save() *)
| SetStyle (blade : nat) (s : list Z) (* current_style_[blade] = s; Save() *)
| SetVariation (v : Z)         (* variation = v; Save() *)
| Move (pos : Z)               (* SaveAt(pos) *)
| Duplicate (pos : Z)          (* preset_num = -1; SaveAt(pos) *)
| Delete.                      (* SaveAt(-1) *)

(** current_preset.h:94-110 Set, for a number that the C remainder maps into the list
    of compiled-in presets; other numbers read outside it (None). *)
Definition SetRom (rom : list preset) (k : Z) : option (preset * Z) :=
  let n := Z.of_nat (length rom) in
  let i := Z.rem (n + k) n in
  if (0 <? n) && (0 <=? i) then
    match nth_error rom (Z.to_nat i) with Some p => Some (p, i) | None => None end
  else None.

(** current_preset.h:388-428 SaveAt.  The old file is read from offset [t] (512 with
    a header, 0 or 32 for plain files); simplification: the choice between presets.ini
    and presets.tmp is modelled in SaveModel.v, here the last saved text is read. *)
Definition saveAt (nb : nat) (install : list Z) (t : Z) (s : session) (pos : Z) : option session :=
  match SaveAt nb install (cur s) (num s) pos (Reader t (file s)) with
  | Some f => Some (Session f (cur s) pos)
  | None => None
  end.
Definition do_edit (nb : nat) (install : list Z) (t : Z) (rom : list preset) (s : session) (e : edit) : option session :=
  let p := cur s in
  let save p := saveAt nb install t (Session (file s) p (num s)) (num s) in
  match e with
  | Select k =>
    match Load (empty_preset nb) (Reader t (file s)) k with
    | None => None
    | Some (true, p, n) => Some (Session (file s) p n)
    | Some (false, _, _) =>
      match SetRom rom k with Some (p, n) => Some (Session (file s) p n) | None => None end
    end
  | SetFont x => save (Preset x (track p) (styles p) (name p) (variation p))
  | SetTrack x => save (Preset (font p) x (styles p) (name p) (variation p))
  | SetName x => save (Preset (font p) (track p) (styles p) x (variation p))
  | SetStyle b x =>
    match set_nth b x (styles p) with
    | None => None
    | Some ss => save (Preset (font p) (track p) ss (name p) (variation p))
    end
  | SetVariation v => save (Preset (font p) (track p) (styles p) (name p) v)
  | Move pos => saveAt nb install t s pos
  | Duplicate pos => saveAt nb install t (Session (file s) p (-1)) pos
  | Delete => saveAt nb install t s (-1)
  end.
Fixpoint do_edits (nb : nat) (install : list Z) (t : Z) (rom : list preset) (s : session) (es : list edit) : option session :=
  match es with
  | [] => Some s
  | e :: es => match do_edit nb install t rom s e with Some s => do_edits nb install t rom s es | None => None end
  end.
