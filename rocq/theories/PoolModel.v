(** Reference counted pointers (common/ref.h) and the players of sound files that they point to
    (sound/sound.h:28-103, the counts of sound/buffered_wav_player.h:140-143). *)
From Coq Require Import ZArith List Bool.
From Verif Require Import ArithModel.
Import ListNotations.
Local Open Scope Z_scope.

(** buffered_wav_player.h: refs_, isPlaying(), the effect of current_file_id(), its
    GetKillable(), and length() - pos() in milliseconds.  Simplification: seconds as floats
    there; the effect's flag is kept with the player. *)
Record player := Player { refs : Z; playing : bool; eff : nat; killable : bool; remaining : Z }.
(** The players, and the variables of type RefPtr: [None] when the variable does not exist (yet,
    or any more), otherwise its ptr_: [None] is nullptr, [Some p] points to player [p]. *)
Record st := St { players : list player; vars : list (option (option nat)) }.

Fixpoint set_nth {A} (i : nat) (x : A) (l : list A) : list A :=
  match l, i with
  | [], _ => []
  | _ :: l, O => x :: l
  | y :: l, S i => y :: set_nth i x l
  end.
Definition on_player (g : player -> player) (p : nat) (l : list player) : list player :=
  match nth_error l p with Some x => set_nth p (g x) l | None => l end.

(** buffered_wav_player.h:140-141 (uint32_t) *)
Definition AddRef (x : player) : player := Player (u32 (refs x + 1)) (playing x) (eff x) (killable x) (remaining x).
Definition SubRef (x : player) : player := Player (u32 (refs x - 1)) (playing x) (eff x) (killable x) (remaining x).
(** buffered_wav_player.h:142 *)
Definition Available (x : player) : bool := (refs x =? 0) && negb (playing x).

(** ref.h:42 AddRef and 24 Free, for the player pointed to *)
Definition add (p : option nat) (l : list player) : list player :=
  match p with Some p => on_player AddRef p l | None => l end.
Definition sub (p : option nat) (l : list player) : list player :=
  match p with Some p => on_player SubRef p l | None => l end.

(** sound.h:31-40 GetFreeWavPlayer: the first available player *)
Fixpoint first_free (i : nat) (l : list player) : option nat :=
  match l with
  | [] => None
  | x :: l => if Available x then Some i else first_free (S i) l
  end.
(** sound.h:42-50 GetWavPlayerPlaying *)
Fixpoint first_playing (e : nat) (i : nat) (l : list player) : option nat :=
  match l with
  | [] => None
  | x :: l => if playing x && (eff x =? e)%nat then Some i else first_playing e (S i) l
  end.
(** sound.h:61-74 which player to kill: [best] is p and best_remaining so far *)
Fixpoint oldest (i : nat) (l : list player) (best : option nat * Z) : option nat * Z :=
  match l with
  | [] => best
  | x :: l =>
    oldest (S i) l (if playing x && (refs x =? 0) && killable x && (remaining x <? snd best)
                    then (Some i, remaining x) else best)
  end.
(** sound.h:77-83 it has stopped *)
Definition stopped (x : player) : player := Player (refs x) false (eff x) (killable x) (remaining x).

(** What can happen: the constructors, assignments and end of RefPtr variables, the functions of
    sound.h that construct one, and players starting, going on and coming to their end. *)
Inductive op :=
| Ctor (i : nat) (p : option nat)
| CopyCtor (i j : nat)
| MoveCtor (i j : nat)
| Assign (i j : nat)
| Free (i : nat)
| Dtor (i : nat)
| GetFree (i : nat)
| GetPlaying (i e : nat)
| GetOrFree (i : nat)
| Start (p e : nat) (k : bool) (r : Z)
| Progress (p : nat) (r : Z)
| Stop (p : nat).

(** A new variable [i] pointing to [p], the count raised: ref.h:10-11, 13. *)
Definition construct (i : nat) (p : option nat) (s : st) : st :=
  St (add p (players s)) (set_nth i (Some p) (vars s)).

(** One step.  What C++ does not let happen (constructing a variable that exists, using one
    that does not, pointing outside the array) changes nothing. *)
Definition step (s : st) (o : op) : st :=
  let var i := nth_error (vars s) i in
  match o with
  | Ctor i p =>
    match var i, p with
    | Some None, None => construct i p s
    | Some None, Some q => if (q <? length (players s))%nat then construct i p s else s
    | _, _ => s
    end
  | CopyCtor i j => match var i, var j with Some None, Some (Some p) => construct i p s | _, _ => s end
  | MoveCtor i j => (** ref.h:14 *)
    match var i, var j with
    | Some None, Some (Some p) => St (players s) (set_nth j (Some None) (set_nth i (Some p) (vars s)))
    | _, _ => s
    end
  | Assign i j => (** ref.h:15-22 *)
    match var i, var j with
    | Some (Some p), Some (Some q) =>
      if match p, q with Some p, Some q => (p =? q)%nat | None, None => true | _, _ => false end then s
      else St (add q (sub p (players s))) (set_nth i (Some q) (vars s))
    | _, _ => s
    end
  | Free i => match var i with Some (Some p) => St (sub p (players s)) (set_nth i (Some None) (vars s)) | _ => s end
  | Dtor i => match var i with Some (Some p) => St (sub p (players s)) (set_nth i None (vars s)) | _ => s end
  | GetFree i => match var i with Some None => construct i (first_free 0 (players s)) s | _ => s end
  | GetPlaying i e => match var i with Some None => construct i (first_playing e 0 (players s)) s | _ => s end
  | GetOrFree i => (** sound.h:53-87, with KILL_OLD_PLAYERS *)
    match var i with
    | Some None =>
      match first_free 0 (players s) with
      | Some p => construct i (Some p) s
      | None =>
        match fst (oldest 0 (players s) (None, 1000000)) with
        | Some p => construct i (Some p) (St (on_player stopped p (players s)) (vars s))
        | None => construct i None s
        end
      end
    | _ => s
    end
  | Start p e k r => St (on_player (fun x => Player (refs x) true e k r) p (players s)) (vars s)
  | Progress p r => St (on_player (fun x => Player (refs x) (playing x) (eff x) (killable x) r) p (players s)) (vars s)
  | Stop p => St (on_player stopped p (players s)) (vars s)
  end.
Definition run (s : st) (ops : list op) : st := fold_left step ops s.
(** At power up: no player referenced, no variable constructed. *)
Definition init (n k : nat) : st := St (repeat (Player 0 false 0 false 0) n) (repeat None k).

(** ref.h:36-37 operator== and operator!= *)
Definition ref_eq (p q : option nat) : bool :=
  match p, q with Some p, Some q => (p =? q)%nat | None, None => true | _, _ => false end.
Definition ref_ne (p q : option nat) : bool := ref_eq p q.
