(** Screen files: SCRReader of display/layer_controller.h:248-352.  The file's characters are
    taken as they come out of getc(); that the buffer refills between them (YIELD) changes
    nothing here.  Simplification: the layers are known by the file they last got with LC_play. *)
From Coq Require Import ZArith List Bool.
From Verif Require Import SoundModel.
Import ListNotations.
Local Open Scope Z_scope.

Definition str := list Z.
Definition str_eqb (a b : str) : bool := if list_eq_dec Z.eq_dec a b then true else false.

(** What a layer is told: LC_restart, LC_play, LC_set_time, LC_setVariable. *)
Inductive source := Battery | Volume | Unknown.
Inductive call :=
| Restarted (layer : nat)
| Played (layer : nat) (path : str)
| Timed (layer : nat) (ms : Z)
| Linked (layer : nat) (variable : nat) (s : source).

(** layer_controller.h:254-259 parse_variable_source *)
Definition parse_source (v : str) : source :=
  if str_eqb v [98; 97; 116; 116; 101; 114; 121] then Battery
  else if str_eqb v [118; 111; 108; 117; 109; 101] then Volume
  else Unknown.

(** strchr(line, c): what is before the first [c] and what is after it, if there is one. *)
Fixpoint cut (c : Z) (s : str) : str * option str :=
  match s with
  | [] => ([], None)
  | x :: t => if x =? c then ([], Some t) else let (a, r) := cut c t in (x :: a, r)
  end.
(** layer_controller.h:291 blanks taken off the end *)
Fixpoint trim_end (s : str) : str :=
  match s with
  | [] => []
  | x :: t => match trim_end t with [] => if is_space x then [] else [x] | t => x :: t end
  end.
(** layer_controller.h:288-299: key and value (null without '=').  The line ends at a 0. *)
Definition split_line (line : str) : str * option str :=
  let line := fst (cut 0 line) in
  let line := match cut 35 line with (a, Some _) => trim_end a | (a, None) => a end in
  cut 61 line.

(** layer_number_, may_need_restart_, do_restart_, and the file name of each layer.  layer_ is
    null when there is no such layer. *)
Record st := St { layer : nat; may_need_restart : bool; do_restart : bool; names : list str }.
Definition set_name (i : nat) (p : str) (l : list str) : list str := firstn i l ++ [p] ++ skipn (S i) l.

(** The keys *)
Definition k_layer : str := [108; 97; 121; 101; 114].
Definition k_file : str := [102; 105; 108; 101].
Definition k_restart : str := [114; 101; 115; 116; 97; 114; 116].
Definition k_time : str := [116; 105; 109; 101].
Definition k_sound : str := [102; 114; 111; 109; 95; 115; 111; 117; 110; 100].

(** layer_controller.h:300-339 what one line does; [path] makes the file name relative to the
    screen's, [sound] is sound_time_ms_.  [None]: a null pointer is used.  The boolean is false
    when the reader stops ("Too many layers"). *)
Definition exec (path : str -> str) (sound : Z) (s : st) (line : str) : option (st * list call * bool) :=
  let (key, value) := split_line line in
  let l := layer s in
  if str_eqb key k_layer then
    let s := St (S l) false (do_restart s) (names s) in
    Some (s, [], (S l <? length (names s))%nat)
  else if str_eqb key k_file then
    match value, nth_error (names s) l with
    | Some v, Some name =>
      if str_eqb name (path v) then
        if do_restart s then Some (s, [Restarted l], true)
        else Some (St l true (do_restart s) (names s), [], true)
      else Some (St l (may_need_restart s) (do_restart s) (set_name l (path v) (names s)), [Played l (path v)], true)
    | _, _ => None
    end
  else if str_eqb key k_restart then
    if may_need_restart s then
      if (l <? length (names s))%nat then Some (St l false (do_restart s) (names s), [Restarted l], true) else None
    else Some (St l (may_need_restart s) true (names s), [], true)
  else if str_eqb key k_time then
    match value, nth_error (names s) l with
    | Some v, Some _ => Some (s, [Timed l (if str_eqb v k_sound then sound else fst (strtol v))], true)
    | _, _ => None
    end
  else
    match key with
    | [c] =>
      if (65 <=? c) && (c <=? 69) then
        match value, nth_error (names s) l with
        | Some v, Some _ => Some (s, [Linked l (Z.to_nat (c - 65)) (parse_source v)], true)
        | _, _ => None
        end
      else Some (s, [], true)
    | _ => Some (s, [], true)
    end.

(** layer_controller.h:268-287 and the loop: [line] is what has been read of the line, of which
    165 characters fit.  A full line is not terminated: [None] unless a 0 or '#' in it ends it;
    what follows is then a line of its own.  At the end of the file an unfinished line is
    dropped. *)
Definition is_nl (c : Z) : bool := (c =? 13) || (c =? 10).
Fixpoint reader (path : str -> str) (sound : Z) (s : st) (line : str) (text : str) : option (st * list call) :=
  match text with
  | [] => Some (s, [])
  | c :: text =>
    let go line :=
      match exec path sound s line with
      | None => None
      | Some (s, calls, true) =>
        match reader path sound s [] text with Some (s, more) => Some (s, calls ++ more) | None => None end
      | Some (s, calls, false) => Some (s, calls)
      end in
    if is_nl c then go line
    else
      let line := line ++ [c] in
      if (length line =? 165)%nat then
        if existsb (fun c => (c =? 0) || (c =? 35)) line then go line else None
      else reader path sound s line text
  end.
(** layer_controller.h:263-266: one screen.  do_restart_ is what it was. *)
Definition screen (path : str -> str) (sound : Z) (restart : bool) (names : list str) (text : str) : option (st * list call) :=
  reader path sound (St 0 false restart names) [] text.
