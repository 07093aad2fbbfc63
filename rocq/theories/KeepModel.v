(** Saved presets over a saber's life: the two preset files of each save directory, the object
    that remembers which of them is current, the serial commands and menus that edit presets,
    colour changes, changing the blade and power cuts (common/current_preset.h,
    props/prop_base.h, modes/preset_modes.h, common/file_reader.h FileSelector).
    What the text of a file holds is modelled in PresetModel.v (C04, C05), its bytes and its
    checksum in SaveModel.v (C01, C02); here a file holds a list of presets. *)
From Coq Require Import ZArith List Bool.
Import ListNotations.
Open Scope Z_scope.

(** Font, track, styles and name as one value, and the variation. *)
Record preset := Preset { body : Z; variation : Z }.
(** A file: absent or of no use; a plain text without header; one with a header of this
    installation: its iteration, whether the checksum is right, the presets in it. *)
Inductive file := NoFile | Plain (ps : list preset) | Safe (it : Z) (ok : bool) (ps : list preset).
Inductive ext := CONFIG_UNKNOWN | CONFIG_INI | CONFIG_TMP.
(** A save directory: presets.ini, presets.tmp, the preset number in curstate *)
Record dir := Dir { ini : file; tmp : file; curstate : Z }.
(** current_preset.h:11-22: read_from_ext_, iteration_, read_from_save_dir_, the preset, preset_num *)
Record obj := Obj { read_from_ext_ : ext; iteration_ : Z; read_from : option nat; cur : preset; num : Z }.
Definition no_preset : preset := Preset 0 0.
Definition obj0 : obj := Obj CONFIG_UNKNOWN 0 None no_preset 0.

(** The configuration: the compiled-in presets and the save directory of each blade (blade_config.h:6-19),
    whether SAVE_PRESET and SAVE_COLOR_CHANGE are defined. [junk]: what is read outside the presets array. *)
Record cfg := Cfg { rom : nat -> list preset; dir_of : nat -> nat; save_preset : bool; save_color : bool; junk : preset }.

(** file_reader.h:537-539 iteration *)
Definition iteration (f : file) : Z := match f with Safe i _ _ => i | _ => 0 end.
(** What Read (current_preset.h:113-189) finds in an open file, one after the other *)
Definition contents (f : file) : list preset := match f with NoFile => [] | Plain ps => ps | Safe _ _ ps => ps end.
(** current_preset.h:256-270 TryValidator, TryPlain: the new read_from_ext_ and iteration_ *)
Definition TryValidator (x : ext) (f : file) : option (ext * Z * list preset) :=
  match f with Safe i true ps => Some (x, i, ps) | _ => None end.
Definition TryPlain (x : ext) (f : file) : option (ext * Z * list preset) :=
  match f with Plain ps => Some (x, 0, ps) | _ => None end.
Definition orelse {A} (a b : option A) : option A := match a with Some _ => a | None => b end.
(** file_reader.h:548-563 FileSelector and current_preset.h:286-290 *)
Definition search (d : dir) : option (ext * Z * list preset) :=
  let older := iteration (ini d) <? iteration (tmp d) in
  let '(xa, a) := if older then (CONFIG_TMP, tmp d) else (CONFIG_INI, ini d) in
  let '(xb, b) := if older then (CONFIG_INI, ini d) else (CONFIG_TMP, tmp d) in
  orelse (TryValidator xa a) (orelse (TryValidator xb b) (orelse (TryPlain CONFIG_INI (ini d)) (TryPlain CONFIG_TMP (tmp d)))).
(** current_preset.h:272-303 OpenPresets2, OpenPresets. [k]: the save directory (GetSaveDir,
    ProffieOS.ino:657-661; different directories have different pointers). *)
Definition set_src (o : obj) (x : ext) (i : Z) (k : nat) : obj := Obj x i (Some k) (cur o) (num o).
Definition same (a : option nat) (k : nat) : bool := match a with Some n => Nat.eqb n k | None => false end.
Definition OpenPresets (d : dir) (k : nat) (o : obj) : option (list preset) * obj :=
  let o := if same (read_from o) k then o else set_src o CONFIG_UNKNOWN 0 k in
  let find :=
    match search d with
    | Some (x, i, ps) => (Some ps, set_src o x i k)
    | None => (None, o)
    end in
  if iteration_ o =? 0 then find
  else match read_from_ext_ o with
  | CONFIG_INI => (Some (contents (ini d)), o)
  | CONFIG_TMP => (Some (contents (tmp d)), o)
  | CONFIG_UNKNOWN => find
  end.

Definition set_cur (o : obj) (p : preset) (n : Z) : obj := Obj (read_from_ext_ o) (iteration_ o) (read_from o) p n.
(** current_preset.h:94-110 Set. A negative remainder reads outside the array (C61). *)
Definition SetRom (c : cfg) (b : nat) (o : obj) (k : Z) : obj :=
  let n := Z.of_nat (length (rom c b)) in
  let i := Z.rem (n + k) n in
  set_cur o (if 0 <=? i then Preset (body (nth (Z.to_nat i) (rom c b) (junk c))) 0 else junk c) i.
(** current_preset.h:325-358 Load; the fields read before it fails are not modelled: Set or the
    next Load overwrites them. *)
Definition Load (d : dir) (k : nat) (o : obj) (want : Z) : bool * obj :=
  let '(f, o) := OpenPresets d k o in
  match f with
  | None => (false, o)
  | Some ps =>
    let n := Z.of_nat (length ps) in
    if (0 <=? want) && (want <? n) then (true, set_cur o (nth (Z.to_nat want) ps no_preset) want)
    else if (want =? -1) && (0 <? n) then (true, set_cur o (last ps no_preset) (n - 1))
    else if want =? n then
      match ps with
      | p :: _ => (true, set_cur o p 0)
      | [] => (true, set_cur o (cur o) (-1))
      end
    else (false, set_cur o (cur o) (-1))
  end.
(** current_preset.h:431-436 SetPreset *)
Definition SetPreset (c : cfg) (b : nat) (d : dir) (o : obj) (k : Z) : obj :=
  let o := set_cur o no_preset (num o) in
  let '(ok, o) := Load d (dir_of c b) o k in
  if ok then o else SetRom c b o k.

(** current_preset.h:396-416: the new file. [i]: tmp.preset_num *)
Fixpoint copy (p : preset) (origin position opos i : Z) (ps : list preset) : list preset :=
  match ps with
  | [] => []
  | q :: ps =>
    if i =? origin then copy p origin position opos (i + 1) ps
    else
      let opos := opos + 1 in
      if position =? opos then q :: p :: copy p origin position (opos + 1) (i + 1) ps
      else q :: copy p origin position opos (i + 1) ps
  end.
Definition rewrite_list (p : preset) (origin position : Z) (ps : list preset) : list preset :=
  if position =? 0 then p :: copy p origin position 1 0 ps else copy p origin position 0 0 ps.

(** What a power cut can leave of a file that is being written: as it was, of no use, its old
    header over other data, or complete (C01). *)
Inductive harm := Untouched | Useless | Mixed (ps : list preset) | Complete.
Definition harmed (h : harm) (old new : file) : file :=
  match h with
  | Untouched => old
  | Useless => NoFile
  | Mixed ps => match old with Safe i _ _ => Safe i false ps | _ => NoFile end
  | Complete => new
  end.
Definition set_file (d : dir) (x : ext) (f : file) : dir :=
  match x with CONFIG_TMP => Dir (ini d) f (curstate d) | _ => Dir f (tmp d) (curstate d) end.
Definition get_file (d : dir) (x : ext) : file := match x with CONFIG_TMP => tmp d | _ => ini d end.
Definition set_curstate (d : dir) (k : Z) : dir := Dir (ini d) (tmp d) k.

(** current_preset.h:305-322 CreateINI and 360-417 SaveAtLocked. [h1], [h2]: what becomes of the two files
    written. A compiled-in preset is written with variation 0. *)
Definition compiled (c : cfg) (b : nat) : list preset := map (fun p => Preset (body p) 0) (rom c b).
Definition SaveAt (c : cfg) (b : nat) (h1 h2 : harm) (d : dir) (o : obj) (position : Z) : dir * obj :=
  let k := dir_of c b in
  let '(f, o) := OpenPresets d k o in
  let '(d, f, o) :=
    match f with
    | Some ps => (d, ps, o)
    | None =>
      let i := iteration_ o + 1 in
      let d := set_file d CONFIG_INI (harmed h1 (ini d) (Safe i true (compiled c b))) in
      let '(f, o) := OpenPresets d k (set_src o (read_from_ext_ o) i k) in
      (d, match f with Some ps => ps | None => [] end, o)
    end in
  match h1 with
  | Complete =>
    let x := match read_from_ext_ o with CONFIG_INI => CONFIG_TMP | _ => CONFIG_INI end in
    let i := iteration_ o + 1 in
    let d := set_file d x (harmed h2 (get_file d x) (Safe i true (rewrite_list (cur o) (num o) position f))) in
    (d, set_cur (set_src o x i k) (cur o) position)
  | _ => (d, o)
  end.

(** The saber: the disk, the blade in use (current_config), the prop's current_preset_,
    SaberBase's current variation, menu_selected_preset *)
Record state := State { disk : nat -> dir; blade : nat; main : obj; shown : Z; selected : Z }.
Definition at_ (s : state) (c : cfg) : dir := disk s (dir_of c (blade s)).
Definition upd (g : nat -> dir) (k : nat) (d : dir) : nat -> dir := fun n => if Nat.eqb n k then d else g n.
Definition put (c : cfg) (s : state) (d : dir) (o : obj) : state :=
  State (upd (disk s) (dir_of c (blade s)) d) (blade s) o (shown s) (selected s).
Definition set_shown (s : state) (v : Z) := State (disk s) (blade s) (main s) v (selected s).
Definition set_selected (s : state) (v : Z) := State (disk s) (blade s) (main s) (shown s) v.
Definition set_blade (s : state) (b : nat) := State (disk s) b (main s) (shown s) (selected s).

(** current_preset.h:423-429 SaveAt, Save *)
Definition save_at (c : cfg) (s : state) (pos : Z) : state :=
  let '(d, o) := SaveAt c (blade s) Complete Complete (at_ s c) (main s) pos in put c s d o.
Definition save_as (c : cfg) (s : state) (p : preset) : state :=
  save_at c (put c s (at_ s c) (set_cur (main s) p (num (main s)))) (num (main s)).
(** prop_base.h:339-346 *)
Definition SaveColorChangeIfNeeded (c : cfg) (s : state) : state :=
  let p := cur (main s) in
  if save_color c && negb (variation p =? shown s) then save_as c s (Preset (body p) (shown s)) else s.
(** prop_base.h:399-420, 391-396: the preset and the variation. What it does to the blades is in PowerModel.v. *)
Definition PropSetPreset (c : cfg) (s : state) (k : Z) : state :=
  let s := SaveColorChangeIfNeeded c s in
  let o := SetPreset c (blade s) (at_ s c) (main s) k in
  set_shown (put c s (at_ s c) o) (if save_color c then variation (cur o) else 0).
(** prop_base.h:688-696 SaveState *)
Definition SaveState (c : cfg) (s : state) (k : Z) : state := put c s (set_curstate (at_ s c) k) (main s).
Definition SaveStateIf (c : cfg) (s : state) (k : Z) : state := if save_preset c then SaveState c s k else s.
(** prop_base.h:625-663 FindBlade, ResumePreset *)
Definition FindBlade (c : cfg) (s : state) (b : nat) : state :=
  let s := set_blade s b in
  PropSetPreset c s (if save_preset c then curstate (at_ s c) else 0).

(** What another CurrentPreset object finds (prop_base.h:1521-1529 list_presets, preset_modes.h:35, 97) *)
Definition look (c : cfg) (s : state) (k : Z) : obj := SetPreset c (blade s) (at_ s c) obj0 k.
Fixpoint list_presets (fuel : nat) (c : cfg) (s : state) (o : obj) (i : Z) : list preset :=
  match fuel with
  | O => []
  | S fuel =>
    let o := SetPreset c (blade s) (at_ s c) o i in
    if num o =? i then cur o :: list_presets fuel c s o (i + 1) else []
  end.

(** Operations.
    - Boot b: power comes back, with blade b. Blade b: the blade is changed (FindBladeAgain).
    - Set_ to Rotate: commands and buttons that choose a preset.
    - Edit: set_font, set_track, set_name, set_style (prop_base.h:1532-1554), SetStyle, SetTrack. Reload: SetFont (1772-1777).
    - Move to Delete: commands (1556-1572).
    - Vary: the colour is changed. Poll: PollSaveColorChange, the amplifier being off.
    - M…: the entries of the preset menu (preset_modes.h). MDelete: the menu that asks whether to
      delete is entered and, if it does not close again, confirmed.
    - List: list_presets; its length is bounded by [fuel]. Show: show_current_preset.
    - CutEdit, CutMove: power is lost during such a save. *)
Inductive op :=
| Boot (b : nat) | Blade (b : nat) | Set_ (k : Z) | Change (k : Z) | Next | Prev | First | Rotate
| Edit (x : Z) | Reload (x : Z) | Move (pos : Z) | Duplicate (pos : Z) | Delete
| Vary (v : Z) | Poll
| MUp | MDown | MSelect | MInsert | MDelete
| List_ (fuel : nat) | Show
| CutEdit (x : Z) (h1 h2 : harm) (b : nat) | CutMove (pos : Z) (h1 h2 : harm) (b : nat).
Inductive out := Presets (ps : list preset) | Current (p : preset) (n : Z) | Selected | Buzz | NoneSelected | Inserted | CantDelete.

(** Power is lost and comes back: only the disk stays. *)
Definition boot (c : cfg) (g : nat -> dir) (b : nat) : state := FindBlade c (State g b obj0 0 (-1)) b.
Definition with_num (s : state) (n : Z) : state :=
  State (disk s) (blade s) (set_cur (main s) (cur (main s)) n) (shown s) (selected s).

Definition step (c : cfg) (s : state) (e : op) : state * list out :=
  let here := num (main s) in
  match e with
  | Boot b => (boot c (disk s) b, [])
  | Blade b => (FindBlade c s b, [])
  | Set_ k => (PropSetPreset c (SaveState c s k) k, [])
  | Change k => if k =? here then (s, []) else (PropSetPreset c (SaveState c s k) k, [])
  | Next => (PropSetPreset c (SaveStateIf c s (here + 1)) (here + 1), [])
  | Prev => (PropSetPreset c (SaveStateIf c s (here - 1)) (here - 1), [])
  | First => (PropSetPreset c (SaveStateIf c s 0) 0, [])
  (* prop_base.h:502-514 *)
  | Rotate =>
    let '(_, o) := Load (at_ s c) (dir_of c (blade s)) (main s) (-1) in
    (PropSetPreset c (save_at c (put c s (at_ s c) o) 0) 0, [])
  | Edit x => (save_as c s (Preset x (variation (cur (main s)))), [])
  | Reload x => let s := save_as c s (Preset x (variation (cur (main s)))) in (PropSetPreset c s (num (main s)), [])
  | Move pos => (save_at c s pos, [])
  | Duplicate pos => (save_at c (with_num s (-1)) pos, [])
  | Delete => (save_at c s (-1), [])
  | Vary v => (set_shown s v, [])
  | Poll => (SaveColorChangeIfNeeded c s, [])
  (* preset_modes.h:76-85 *)
  | MUp => let s := set_selected s (-1) in if 0 <? here then (save_at c s (here - 1), [Selected]) else (s, [Buzz])
  (* 93-105 *)
  | MDown =>
    let s := set_selected s (-1) in
    if num (look c s (here + 1)) =? here + 1 then (save_at c s (here + 1), [Selected]) else (s, [Buzz])
  (* 131-134 *)
  | MSelect => (set_selected s here, [Selected])
  (* 142-160; the copy is saved by another object *)
  | MInsert =>
    if selected s =? -1 then (s, [NoneSelected])
    else
      let o := look c s (selected s) in
      let '(d, _) := SaveAt c (blade s) Complete Complete (at_ s c) (set_cur o (cur o) (-1000)) here in
      let s := PropSetPreset c (SaveState c (put c s d (main s)) here) here in
      (if here <=? selected s then set_selected s (selected s + 1) else s, [Inserted])
  (* 28-46, 58-63 *)
  | MDelete =>
    if (here =? 0) && (num (look c s 1) =? 0) then (s, [CantDelete]) else (save_at c s (-1), [Selected])
  | List_ fuel => (s, [Presets (list_presets fuel c s obj0 0)])
  | Show => (s, [Current (cur (main s)) here])
  | CutEdit x h1 h2 b =>
    let '(d, _) := SaveAt c (blade s) h1 h2 (at_ s c) (set_cur (main s) (Preset x (variation (cur (main s)))) here) here in
    (boot c (upd (disk s) (dir_of c (blade s)) d) b, [])
  | CutMove pos h1 h2 b =>
    let '(d, _) := SaveAt c (blade s) h1 h2 (at_ s c) (main s) pos in
    (boot c (upd (disk s) (dir_of c (blade s)) d) b, [])
  end.
