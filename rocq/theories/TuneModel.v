(** Menus that change a setting: modes/settings_menues.h, color_change_modes.h,
    top_menu_wrapper.h, bool_setting.h. *)
From Coq Require Import ZArith QArith List Bool.
From Verif Require Import ArithModel.
Import ListNotations.
Local Open Scope Z_scope.

(** ** The blade length menu *)

(** props/prop_base.h:52-70 savestate_ (only the blade lengths, by blade number), its file
    "curstate" ([disk]; [card] says whether there is a card to read and write: what a save and
    a read do is in SaveModel), the number of LEDs of each blade in the config (GetMaxBladeLength,
    prop_base.h:665-669, 0 for other numbers), the lengths the running styles were made for, and
    the members of modes/settings_menues.h:77-118 and menu_base.h:36. *)
Record lens := Lens { mem : Z -> Z; disk : Z -> Z; card : bool; leds : Z -> Z; made : Z -> Z;
                      saved_len : Z; pos : Z }.
Definition upd (f : Z -> Z) (i v : Z) : Z -> Z := fun j => if j =? i then v else f j.
Definition u16 (x : Z) : Z := x mod 65536.
Section Length.
(** NUM_BLADES and mode.h:38 menu_current_blade. *)
Variable blades : Z.
Variable blade : Z.
Definition is_blade : bool := (1 <=? blade) && (blade <=? blades).
(** prop_base.h:665-686.  The macros try the blades one by one. *)
Definition GetMaxBladeLength (s : lens) : Z := if is_blade then leds s blade else 0.
Definition GetBladeLength (s : lens) : Z := if is_blade then mem s blade else -1.
Definition SetBladeLength (s : lens) (v : Z) : lens :=
  if is_blade then Lens (upd (mem s) blade v) (disk s) (card s) (leds s) (made s) (saved_len s) (pos s) else s.
(** prop_base.h:688-690 SaveState; config_file.h:179-189 *)
Definition SaveState (s : lens) : lens :=
  if card s then Lens (mem s) (mem s) (card s) (leds s) (made s) (saved_len s) (pos s) else s.
(** config_file.h:245-255 ReadINIFromDir: every variable gets its default (-1,
    prop_base.h:59) first. *)
Definition ReadState (s : lens) : lens :=
  Lens (if card s then disk s else fun _ => -1) (disk s) (card s) (leds s) (made s) (saved_len s) (pos s).
(** prop_base.h:375-395, 421-430 UpdateStyle.  Simplification: of the styles only the length. *)
Definition UpdateStyle (s : lens) : lens :=
  let s := ReadState s in
  Lens (mem s) (disk s) (card s) (leds s)
       (fun b => if negb (mem s b =? -1) && negb (mem s b =? leds s b) then mem s b else leds s b)
       (saved_len s) (pos s).

(** settings_menues.h:80-89 mode_activate *)
Definition activate (s : lens) : lens :=
  let len := GetBladeLength s in
  let maxlen := GetMaxBladeLength s in
  let len1 := if len =? -1 then maxlen else len in
  SetBladeLength (Lens (mem s) (disk s) (card s) (leds s) (made s) len (u16 (len1 - 1))) maxlen.
(** 97-99 size, 113 getLength *)
Definition size (s : lens) : Z := u16 (GetMaxBladeLength s).
Definition getLength (s : lens) : Z := pos s + 1.
(** menu_base.h:29-34 next and prev; a size of 0 divides by zero. *)
Definition turned (s : lens) (forth : bool) : option lens :=
  if size s =? 0 then None
  else Some (Lens (mem s) (disk s) (card s) (leds s) (made s) (saved_len s)
                  (u16 (MOD (if forth then pos s + 1 else pos s - 1) (size s)))).
(** settings_menues.h:63-73 ShowLengthStyle: is this LED white? *)
Definition lit (s : lens) (led : Z) : bool := led =? getLength s - 1.
(** 90-93, 100-109 select and exit, with the popMode and mode_deactivate that follow. *)
Definition select (s : lens) : lens := UpdateStyle (SaveState (SetBladeLength s (getLength s))).
Definition exit (s : lens) : lens := UpdateStyle (SetBladeLength s (saved_len s)).
Fixpoint turns (s : lens) (l : list bool) : option lens :=
  match l with
  | [] => Some s
  | d :: l => match turned s d with None => None | Some s => turns s l end
  end.
End Length.

(** ** The color change modes *)

(** common/saber_base.h:539-575: the variation and the color change mode; the changes told to the
    blade styles are counted. *)
Inductive cc := CNone | CStepped | CSmooth.
Record vari := Vari { variation : Z; mode : cc; entered : Z; exited : Z; changes : Z; v_saved : Z }.
Definition SetColorChangeMode (s : vari) (m : cc) : vari :=
  match m with
  | CNone => Vari (variation s) m (entered s) (exited s + 1) (changes s) (v_saved s)
  | _ => match mode s with
         | CNone => Vari (variation s) m (entered s + 1) (exited s) (changes s) (v_saved s)
         | _ => Vari (variation s) m (entered s) (exited s) (changes s) (v_saved s)
         end
  end.
Definition UpdateVariation (s : vari) (delta : Z) : vari :=
  Vari (u32 (variation s + delta)) (mode s) (entered s) (exited s) (changes s + 1) (v_saved s).
Definition SetVariation (s : vari) (v : Z) : vari :=
  Vari (u32 v) (mode s) (entered s) (exited s) (changes s) (v_saved s).
(** modes/color_change_modes.h:30: saved_ is an int. *)
Definition to_int (x : Z) : Z := if x <? 2147483648 then x else x - 4294967296.
(** color_change_modes.h:12-27 SteppedVariationMode *)
Definition sv_activate (s : vari) : vari :=
  SetColorChangeMode (Vari (variation s) (mode s) (entered s) (exited s) (changes s) (to_int (variation s))) CStepped.
Definition sv_turned (s : vari) (forth : bool) : vari := UpdateVariation s (if forth then 1 else -1).
Definition sv_exit (s : vari) : vari := SetColorChangeMode (SetVariation s (v_saved s)) CNone.
Definition sv_select (s : vari) : vari := SetColorChangeMode s CNone.

(** ** The clash threshold menu *)

(** modes/settings_menues.h:131-166 with CLASH_THRESHOLD_GAMMA 2 and MAX_CLASH_THRESHOLD_G 16.
    Floats are taken as exact, so powf(x, 0.5) * 32768 cut to an int is a whole square root.
    [threshold] is prop_base.h:192 clash_threshold_. *)
Record clash := ClashMenu { threshold : Q; value : Z }.
Definition cut (r : Q) : Z := Z.quot (Qnum r) (Zpos (Qden r)).
(** ProffieOS.ino:703-708: the getter and the setter used by the menu are of type int. *)
Definition prop_Get (s : clash) : Z := cut (threshold s).
Definition prop_Set (s : clash) (v : Z) : clash := ClashMenu (inject_Z v) (value s).
Definition ct_get (s : clash) : Z := Z.sqrt (prop_Get s * (32768 * 32768) / 16).
Definition ct_bent (s : clash) : Q := (inject_Z (value s) / 32768) * (inject_Z (value s) / 32768) * 16.
Definition ct_set (s : clash) (x : Z) : clash := ClashMenu (threshold s) x.
(** What it says when set: SayNumber(..., SAY_DECIMAL). *)
Definition ct_said (s : clash) : Q := ct_bent s.
Definition ct_select (s : clash) : clash := prop_Set s (cut (ct_bent s)).
(** 153-156 with smooth_mode.h:37-40; [saved] is get() at the start. *)
Definition ct_exit (s : clash) (saved : Z) : clash := ct_set s saved.

(** ** The volume inside the menus *)

(** top_menu_wrapper.h:8-27 and sound/hybrid_font.h:9-10: the volumes of hum and effects of the
    font in use.  A change of font reads both from the new font. *)
Record vols := Vols { hum : Z; eff : Z; hum_ : Z; eff_ : Z }.
Definition top_activate (s : vols) (onreturn : bool) : vols :=
  if onreturn then s else Vols 1 1 (hum s) (eff s).
Definition top_exit (s : vols) : vols := Vols (hum_ s) (eff_ s) (hum_ s) (eff_ s).
Definition font (s : vols) (h e : Z) : vols := Vols h e (hum_ s) (eff_ s).
Inductive inside := Return | Font (h e : Z).
Definition top_step (s : vols) (i : inside) : vols :=
  match i with Return => top_activate s true | Font h e => font s h e end.

(** ** On/off settings *)

(** bool_setting.h:15-25 DirectBoolEntry, 30-41 IndirectBoolEntries: the new setting and what is
    said. *)
Definition direct_select (v : bool) : bool * bool := (negb v, negb v).
Definition indirect_select (v : bool) (entry : Z) : bool * bool := (entry =? 1, entry =? 1).
