(** The menus that edit the styles of a preset: modes/style_option_modes.h,
    modes/style_argument_helpers.h and the color menu of modes/color_menues.h (ColorSelectMode). *)
From Coq Require Import ZArith QArith List Bool.
From Verif Require Import StrModel ArgModel FileModel StyleModel ModeModel DialModel.
Import ListNotations.
Open Scope Z_scope.

(** strtol(s, &end, 0) of the C library: decimal, 0x and leading-zero numbers; the rest of the text.
    Simplifications: no leading white space or '+', no saturation, "0x" without digits is not
    told from other hexadecimal numbers. *)
Definition digit_of (b c : Z) : option Z :=
  let v := if is_digit c then c - 48
           else if (97 <=? c) && (c <=? 102) then c - 87
           else if (65 <=? c) && (c <=? 70) then c - 55 else 99 in
  if v <? b then Some v else None.
Fixpoint number (b : Z) (s : str) (acc : Z) : Z * str :=
  match s with
  | [] => (acc, [])
  | c :: t => match digit_of b c with Some v => number b t (acc * b + v) | None => (acc, s) end
  end.
Definition strtol0 (s : str) : Z * str :=
  let (neg, s) := match s with c :: t => if c =? 45 then (true, t) else (false, s) | [] => (false, s) end in
  let (v, r) :=
    match s with
    | 48 :: 120 :: t => number 16 t 0
    | 48 :: 88 :: t => number 16 t 0
    | 48 :: t => number 8 t 0
    | _ => number 10 s 0
    end in
  (if neg then - v else v, r).

Definition color := (Z * Z * Z)%type.
(** The bodies of GetColorArg (style_argument_helpers.h:33-37) and ResetColorToDefaultEntry
    (color_menues.h:243-247): three numbers; the character after a number is skipped unseen, [None] if
    the text ends there (what follows in memory is then read).  Color16's members are uint16_t. *)
Definition parse_color (t : str) : option color :=
  let (r, t) := strtol0 t in
  match t with
  | [] => None
  | _ :: t => let (g, t) := strtol0 t in
              match t with
              | [] => None
              | _ :: t => let (b, _) := strtol0 t in Some (r mod 65536, g mod 65536, b mod 65536)
              end
  end.
(** 44-53 SetColorArg: the text. *)
Definition color_text (c : color) : str :=
  let '(r, g, b) := c in itoa r ++ [44] ++ itoa g ++ [44] ++ itoa b.

(** The menus: the preset menu (EditPresetMenu and everything above it), EditStyleMenu, SelectArgMode
    and the modes it opens, SelectStyleMenu.  Simplification: the modes opened by the color menu are not
    on the stack; what they do is the operation [Paint]. *)
Inductive mode := Base | EditStyle | ArgList | ArgNumber | ArgSmooth | ArgTime | ArgColor | StyleList.
(** EditStyleMenu's entries, style_option_modes.h:137-281. *)
Inductive pick := PArgs | PSelect | PApplyColors | PApplyArgs | PAllBlades | PResetColors | PResetArgs | PStyle.

(** common/arg_parser.h:214-226 GetUsedArgsParser driven by make(): the arguments asked for, each with
    whether its default has a comma, and the offset in the end. *)
Fixpoint asked (cs : list StyleModel.call) (offset : Z) : list (Z * bool) * Z :=
  match cs with
  | [] => ([], offset)
  | CGet n d :: cs => let (l, o) := asked cs offset in ((n + offset, contains 44 d) :: l, o)
  | CShift k :: cs => asked cs (offset + k)
  end.
Definition bits : list Z := map Z.of_nat (seq 0 128).
Definition used (l : list (Z * bool)) (a : Z) : bool := existsb (fun x => fst x =? a) l.
Definition iscolor (l : list (Z * bool)) (a : Z) : bool := existsb (fun x => (fst x =? a) && snd x) l.
(** styles/style_parser.h:215-224 GetArgInfo, then the shift by the offset and used_.clear(0) of
    style_option_modes.h:84-85: the offset and the arguments, smallest first, with iscolor.  The set
    has bits 0 to 127 (BitSet: C12). *)
Definition info (table : list (str * style)) (t : str) : Z * list (Z * bool) :=
  match FindStyle table t with
  | None => (0, [])
  | Some st =>
    let (l, o) := asked (make_calls st (SkipWord t)) 0 in
    if FirstWord t builtin_text && (Nat.leb (length (filter (used l) bits)) 2) then (0, [])
    else (o, map (fun a => (a, iscolor l (a + o)))
                 (filter (fun a => negb (a =? 0) && (a + o <? 128) && used l (a + o)) bits))
  end.

Section Edit.
(** The named styles; what is in SetArgument's buffer before; NUM_BLADES; isTimeArg. *)
Variable table : list (str * style).
Variable garbage : str.
Variable blades : Z.
Variable is_time : Z -> bool.
(** current_config->num_presets *)
Variable presets : Z.
(** get_max_arg of the blade's style; -1 unknown. *)
Variable max_arg : str -> Z -> Z.

(** [texts p b]: the style of blade b in preset p.  [cur]: prop_GetPresetPosition.  [shown] is
    ShowColorStyle's color.  The members of the singleton modes: pos_ of SelectArgMode, of
    SelectArgNumber with its max_, of SelectStyleMenu; the dials of SelectArgSmoothMode and
    SelectArgTime work on the pair of what get() returns and value_. *)
Record ed := Ed { stack : list mode; texts : Z -> Z -> str; cur : Z; shown : color;
                  blade : Z; arg : Z; off : Z; sel_preset : Z; sel_blade : Z;
                  list_pos : Z; num_pos : Z; num_max : Z; style_pos : Z;
                  smooth_d : smooth (Z * Z); time_d : smooth (Z * Z) }.
Definition set_stack s x := Ed x (texts s) (cur s) (shown s) (blade s) (arg s) (off s) (sel_preset s) (sel_blade s) (list_pos s) (num_pos s) (num_max s) (style_pos s) (smooth_d s) (time_d s).
Definition set_texts s x := Ed (stack s) x (cur s) (shown s) (blade s) (arg s) (off s) (sel_preset s) (sel_blade s) (list_pos s) (num_pos s) (num_max s) (style_pos s) (smooth_d s) (time_d s).
Definition set_cur s x := Ed (stack s) (texts s) x (shown s) (blade s) (arg s) (off s) (sel_preset s) (sel_blade s) (list_pos s) (num_pos s) (num_max s) (style_pos s) (smooth_d s) (time_d s).
Definition set_shown s x := Ed (stack s) (texts s) (cur s) x (blade s) (arg s) (off s) (sel_preset s) (sel_blade s) (list_pos s) (num_pos s) (num_max s) (style_pos s) (smooth_d s) (time_d s).
Definition set_blade s x := Ed (stack s) (texts s) (cur s) (shown s) x (arg s) (off s) (sel_preset s) (sel_blade s) (list_pos s) (num_pos s) (num_max s) (style_pos s) (smooth_d s) (time_d s).
Definition set_arg s x := Ed (stack s) (texts s) (cur s) (shown s) (blade s) x (off s) (sel_preset s) (sel_blade s) (list_pos s) (num_pos s) (num_max s) (style_pos s) (smooth_d s) (time_d s).
Definition set_off s x := Ed (stack s) (texts s) (cur s) (shown s) (blade s) (arg s) x (sel_preset s) (sel_blade s) (list_pos s) (num_pos s) (num_max s) (style_pos s) (smooth_d s) (time_d s).
Definition set_sel s x y := Ed (stack s) (texts s) (cur s) (shown s) (blade s) (arg s) (off s) x y (list_pos s) (num_pos s) (num_max s) (style_pos s) (smooth_d s) (time_d s).
Definition set_pos s l n m p := Ed (stack s) (texts s) (cur s) (shown s) (blade s) (arg s) (off s) (sel_preset s) (sel_blade s) l n m p (smooth_d s) (time_d s).
Definition set_dials s x y := Ed (stack s) (texts s) (cur s) (shown s) (blade s) (arg s) (off s) (sel_preset s) (sel_blade s) (list_pos s) (num_pos s) (num_max s) (style_pos s) x y.

(** common/current_preset.h:438-453 GetStyle, SetStyle of the current preset; outside current_style_
    is undefined ([None]). *)
Definition GetStyle (s : ed) (b : Z) : option str :=
  if (1 <=? b) && (b <=? blades) then Some (texts s (cur s) b) else None.
Definition SetStyle (s : ed) (b : Z) (t : str) : option ed :=
  if (1 <=? b) && (b <=? blades)
  then Some (set_texts s (fun p x => if (p =? cur s) && (x =? b) then t else texts s p x)) else None.
(** style_argument_helpers.h:21-23 GetArg into argspace[32]: [None] if it does not fit, [Some None]
    if there is none. *)
Definition GetArg (s : ed) (b a : Z) : option (option str) :=
  match GetStyle s b with
  | None => None
  | Some t => match GetArgument table t (a + off s) with
              | (true, Some v) => if (length v <? 32)%nat then Some (Some v) else None
              | _ => Some None
              end
  end.
(** 24-26 SetArg *)
Definition SetArg (s : ed) (b a : Z) (v : str) : option ed :=
  match GetStyle s b with
  | None => None
  | Some t => match SetArgument table t (a + off s) v garbage with
              | SetOk r => SetStyle s b r
              | SetOverflow => None
              end
  end.
(** 28-42 GetColorArg, 55-61 GetIntArg, 63-67 SetIntArg *)
Definition GetColorArg (s : ed) : option color :=
  match GetArg s (blade s) (arg s) with
  | None => None
  | Some None => Some (65535, 0, 0)
  | Some (Some t) => parse_color t
  end.
Definition GetIntArg (s : ed) : option Z :=
  match GetArg s (blade s) (arg s) with
  | None => None
  | Some None => Some (-1)
  | Some (Some t) => Some (fst (strtol0 t))
  end.
Definition SetIntArg (s : ed) (v : Z) : option ed := SetArg s (blade s) (arg s) (itoa v).

Definition margin : Q := (2 # 100)%Q.
Definition dial_get (x : Z * Z) : Z := fst x.
Definition dial_set (x : Z * Z) (v : Z) : Z * Z := (fst x, v).
(** mode_activate(false) of a SmoothMode whose get() returns [g], with sensor reading [a]. *)
Definition dial_open (d : smooth (Z * Z)) (g : Z) (a : Q) : smooth (Z * Z) :=
  activate (Z * Z) dial_get (Rails margin) (Smooth (g, snd (store d)) (last d) (angle d) (saved d)) false a.
(** style_option_modes.h:30 t(), and the milliseconds stored by 43. *)
Definition millis_of (x : Z) : Z := to_int (inject_Z x / 32768 * (inject_Z x / 32768) * 30 * 1000)%Q.

(** style_parser.h:152-160 GetBuiltinPos *)
Definition GetBuiltinPos (t : str) : Z * Z :=
  if FirstWord t builtin_text
  then (fst (readIntValue (ArgModel.GetArg (SkipWord t) 1 [])), fst (readIntValue (ArgModel.GetArg (SkipWord t) 2 [])))
  else (-1, -1).
(** current_preset.h:23-30 mk_builtin_str *)
Definition mk_builtin_str (n b : Z) : str := builtin_text ++ [32] ++ itoa n ++ [32] ++ itoa b.

(** The mode_activate of each mode (a is the sensor reading), called by pushMode and popMode;
    [s] already has the mode on top. *)
Definition activate_list (s : ed) : option ed :=   (* 79-98 *)
  match GetStyle s (blade s) with
  | None => None
  | Some t => let s := set_off s (fst (info table t)) in
              match snd (info table t) with
              | [] => Some (set_stack s (tl (stack s)))   (* popMode; EditStyleMenu's has no effect *)
              | _ => Some s
              end
  end.
Definition opened (s : ed) (m : mode) (a : Q) : option ed :=
  match m with
  | Base | EditStyle => Some s
  | ArgList => activate_list s
  | ArgNumber =>                                       (* 52-60 *)
    match GetStyle s (blade s), GetIntArg s with
    | Some t, Some v => let mx := max_arg t (arg s) in
                        Some (set_pos s (list_pos s) (v mod 65536) ((if mx <? 0 then 32768 else mx) mod 65536) (style_pos s))
    | _, _ => None
    end
  | ArgSmooth => match GetIntArg s with Some v => Some (set_dials s (dial_open (smooth_d s) v a) (time_d s)) | None => None end
  | ArgTime => match GetIntArg s with Some v => Some (set_dials s (smooth_d s) (dial_open (time_d s) v a)) | None => None end
  | ArgColor => match GetColorArg s with Some c => Some (set_shown s c) | None => None end  (* color_menues.h:287-293 *)
  | StyleList =>                                       (* 235-241 *)
    match GetStyle s (blade s) with
    | Some t => let (p, b) := GetBuiltinPos t in
                Some (set_pos s (list_pos s) (num_pos s) (num_max s) ((p * blades + b) mod 65536))
    | None => None
    end
  end.
Definition push (s : ed) (m : mode) (a : Q) : option ed := opened (set_stack s (m :: stack s)) m a.
(** popMode: SelectArgMode is activated again; the other menus here have nothing to do. *)
Definition pop (s : ed) : option ed :=
  let s := set_stack s (tl (stack s)) in
  match stack s with ArgList :: _ => activate_list s | _ => Some s end.
Definition bind {A B} (x : option A) (f : A -> option B) : option B := match x with Some x => f x | None => None end.

(** 230-234 SelectStyleMenu *)
Definition style_blade (s : ed) : Z := style_pos s / blades.
Definition style_preset (s : ed) : Z := style_pos s mod blades.

(** What the user does: in the preset menu go to another preset, select it for copying
    (preset_modes.h:130) or edit a blade's style; pick an entry of EditStyleMenu; turn a menu; let a
    smooth mode see the sensor or press its buttons; change the color shown; "reset to default" and
    "save" in the color menu; select and cancel. *)
Inductive op := GoPreset (p : Z) | SelectPreset | EditBlade (b : Z) | Pick (k : pick) | Turned (t : turn)
              | Sensor (a : Q) | Button (left : bool) | Paint (c : color) | DefaultColor | Save | Sel (a : Q) | Cancel.

(** color_menues.h:237-248: the argument number lacks the offset. *)
Definition default_color (s : ed) : option color :=
  match GetStyle s (blade s) with
  | None => None
  | Some t => match GetArgument table (ResetArguments t) (arg s) with
              | (true, Some v) => if (length v <? 32)%nat then parse_color v else None
              | _ => None
              end
  end.
(** style_option_modes.h:141-225, the entries that are not menus. *)
Fixpoint all_blades (s : ed) (from : str) (n : nat) : option ed :=
  match n with
  | O => Some s
  | S n => bind (all_blades s from n) (fun s =>
             let b := Z.of_nat (S n) in
             if b =? sel_blade s then Some s
             else bind (GetStyle s b) (fun to => SetStyle s b (written (CopyColorArguments from to))))
  end.
Definition reset_text : str := builtin_text ++ [32; 48; 32; 48].
Definition picked (s : ed) (k : pick) : option ed :=
  match k with
  | PArgs => push s ArgList 0%Q
  | PStyle => push s StyleList 0%Q
  | PSelect => Some (set_sel s (cur s) (blade s))
  | PApplyColors =>
    if sel_preset s =? -1 then Some s
    else bind (GetStyle (set_cur s (sel_preset s)) (sel_blade s)) (fun from =>
         bind (GetStyle s (sel_blade s)) (fun to => SetStyle s (sel_blade s) (written (CopyColorArguments from to))))
  | PApplyArgs =>
    if sel_preset s =? -1 then Some s
    else bind (GetStyle (set_cur s (sel_preset s)) (sel_blade s)) (fun from =>
         bind (GetStyle s (sel_blade s)) (fun to => SetStyle s (sel_blade s) (written (CopyArguments from to))))
  | PAllBlades => bind (GetStyle s (sel_blade s)) (fun from => all_blades s from (Z.to_nat blades))
  | PResetColors =>
    if sel_preset s =? -1 then Some s
    else bind (GetStyle s (sel_blade s)) (fun to => SetStyle s (sel_blade s) (written (CopyColorArguments reset_text to)))
  | PResetArgs => bind (GetStyle s (sel_blade s)) (fun to => SetStyle s (sel_blade s) (written (CopyArguments reset_text to)))
  end.

(** 109-123 SelectArgMode::select.  nth() past the last argument: undefined (C12). *)
Definition list_select (s : ed) (a : Q) : option ed :=
  bind (GetStyle s (blade s)) (fun t =>
  bind (nth_error (snd (info table t)) (Z.to_nat (list_pos s))) (fun x =>
  let s := set_arg s (fst x) in
  if (snd x : bool) then push s ArgColor a
  else let m := max_arg t (arg s) in
       if (m =? 32768) || (m =? 32767) then push s ArgSmooth a
       else if (m <=? 0) && is_time (arg s) then push s ArgTime a
       else push s ArgNumber a)).

Definition dial_loop (d : smooth (Z * Z)) (a : Q) := fst (loop (Z * Z) dial_set (Rails margin) 3 d a).
Definition step (s : ed) (o : op) : option ed :=
  match stack s, o with
  | Base :: _, GoPreset p => Some (set_cur s p)
  | Base :: _, SelectPreset => Some (set_sel s (cur s) (sel_blade s))
  | Base :: _, EditBlade b => if (1 <=? b) && (b <=? blades) then push (set_blade s b) EditStyle 0%Q else Some s
  | EditStyle :: _, Pick k => picked s k
  | EditStyle :: _, Cancel => pop s
  | ArgList :: _, Turned t =>
    bind (GetStyle s (blade s)) (fun x =>
    bind (menu_step (Z.of_nat (length (snd (info table x)))) (list_pos s) t) (fun p =>
    Some (set_pos s p (num_pos s) (num_max s) (style_pos s))))
  | ArgList :: _, Sel a => list_select s a
  | ArgList :: _, Cancel => pop s
  | ArgNumber :: _, Turned t =>
    bind (menu_step (num_max s) (num_pos s) t) (fun p => Some (set_pos s (list_pos s) p (num_max s) (style_pos s)))
  | ArgNumber :: _, Sel _ => bind (SetIntArg s (num_pos s)) pop                    (* 66-69 *)
  | ArgNumber :: _, Cancel => pop s
  | ArgSmooth :: _, Sensor a => Some (set_dials s (dial_loop (smooth_d s) a) (time_d s))
  | ArgSmooth :: _, Button l => Some (set_dials s (click _ (smooth_d s) l) (time_d s))
  | ArgSmooth :: _, Sel _ =>                                                        (* 17-21 *)
    let v := snd (store (smooth_d s)) in bind (pop s) (fun s => bind (SetIntArg s v) pop)
  | ArgSmooth :: _, Cancel => pop (set_dials s (exit _ dial_set (smooth_d s)) (time_d s))
  | ArgTime :: _, Sensor a => Some (set_dials s (smooth_d s) (dial_loop (time_d s) a))
  | ArgTime :: _, Button l => Some (set_dials s (smooth_d s) (click _ (time_d s) l))
  | ArgTime :: _, Sel _ =>                                                          (* 40-44 *)
    let v := snd (store (time_d s)) in bind (pop s) (fun s => bind (SetIntArg s (millis_of v)) pop)
  | ArgTime :: _, Cancel => pop (set_dials s (smooth_d s) (exit _ dial_set (time_d s)))
  | ArgColor :: _, Paint c => Some (set_shown s c)
  | ArgColor :: _, DefaultColor => bind (default_color s) (fun c => Some (set_shown s c))
  | ArgColor :: _, Save => bind (SetArg s (blade s) (arg s) (color_text (shown s))) pop  (* 251-262, 283-285 *)
  | ArgColor :: _, Cancel => pop s
  | StyleList :: _, Turned t =>
    bind (menu_step ((blades * presets) mod 65536) (style_pos s) t) (fun p => Some (set_pos s (list_pos s) (num_pos s) (num_max s) p))
  | StyleList :: _, Sel _ =>                                                        (* 250-254 *)
    bind (GetStyle s (sel_blade s)) (fun t =>
    bind (SetStyle s (sel_blade s) (written (CopyArguments (mk_builtin_str (style_preset s) (style_blade s)) t))) pop)
  | StyleList :: _, Cancel => pop s
  | _, _ => Some s
  end.
Fixpoint play (s : ed) (os : list op) : option ed :=
  match os with [] => Some s | o :: os => bind (step s o) (fun s => play s os) end.
End Edit.
