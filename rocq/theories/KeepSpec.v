(** Presets as a user sees them: for each save directory one list, or none as long as nothing
    was saved there; no files, no caches. *)
From Coq Require Import ZArith List Bool.
From Verif Require Import Machine KeepModel.
Import ListNotations.
Open Scope Z_scope.

Definition remove_at {A} (n : Z) (l : list A) : list A :=
  if n <? 0 then l else firstn (Z.to_nat n) l ++ skipn (S (Z.to_nat n)) l.
(** At positions beyond the end, or negative ones, nothing is inserted. *)
Definition insert_at {A} (n : Z) (x : A) (l : list A) : list A :=
  if (0 <=? n) && (n <=? Z.of_nat (length l)) then firstn (Z.to_nat n) l ++ x :: skipn (Z.to_nat n) l else l.

(** The presets saved in a directory: those of the undamaged file with the higher iteration,
    else those of a file without header. *)
Definition stored (d : dir) : option (list preset) :=
  match ini d, tmp d with
  | Safe i true a, Safe j true b => Some (if i <? j then b else a)
  | Safe _ true a, _ => Some a
  | _, Safe _ true b => Some b
  | Plain a, _ => Some a
  | _, Plain b => Some b
  | _, _ => None
  end.
(** The compiled-in presets of a blade, and the ones to be chosen from. *)
Definition factory (c : cfg) (b : nat) : list preset := map (fun p => Preset (body p) 0) (rom c b).
Definition offered (c : cfg) (b : nat) (l : option (list preset)) : list preset := match l with Some l => l | None => factory c b end.

Record astate := A {
  lists : nat -> option (list preset); numbers : nat -> Z;
  ablade : nat; current : preset; position : Z; color : Z; chosen : Z }.

(** Which preset, and which position, is meant by k: a saved one, counted from 0; -1 the last;
    their number the first; otherwise, or if none are saved, a compiled-in one. *)
Definition compiled_in (c : cfg) (b : nat) (k : Z) : preset * Z :=
  let n := Z.of_nat (length (rom c b)) in
  let i := Z.rem (n + k) n in
  (if i <? 0 then junk c else nth (Z.to_nat i) (factory c b) (Preset (body (junk c)) 0), i).
Definition meant (c : cfg) (b : nat) (l : option (list preset)) (k : Z) : preset * Z :=
  match l with
  | None => compiled_in c b k
  | Some l =>
    let n := Z.of_nat (length l) in
    if (k =? n) && (n =? 0) then (no_preset, -1)
    else if (-1 <=? k) && (k <=? n) && (0 <? n) then
      let i := if k =? -1 then n - 1 else if k =? n then 0 else k in (nth (Z.to_nat i) l no_preset, i)
    else compiled_in c b k
  end.

Definition here (c : cfg) (a : astate) : option (list preset) := lists a (dir_of c (ablade a)).
Definition upd {X} (g : nat -> X) (k : nat) (x : X) : nat -> X := fun n => if Nat.eqb n k then x else g n.
(** The list becomes l *)
Definition keep (c : cfg) (a : astate) (l : list preset) : astate :=
  A (upd (lists a) (dir_of c (ablade a)) (Some l)) (numbers a) (ablade a) (current a) (position a) (color a) (chosen a).
(** The preset in use becomes p, at position n *)
Definition use (a : astate) (p : preset * Z) : astate :=
  A (lists a) (numbers a) (ablade a) (fst p) (snd p) (color a) (chosen a).
Definition paint (a : astate) (v : Z) : astate := A (lists a) (numbers a) (ablade a) (current a) (position a) v (chosen a).
Definition mark (a : astate) (n : Z) : astate := A (lists a) (numbers a) (ablade a) (current a) (position a) (color a) n.
Definition note (c : cfg) (a : astate) (k : Z) : astate :=
  A (lists a) (upd (numbers a) (dir_of c (ablade a)) k) (ablade a) (current a) (position a) (color a) (chosen a).

(** The preset in use is taken out and put in at pos. *)
Definition save_to (c : cfg) (a : astate) (pos : Z) : astate :=
  use (keep c a (insert_at pos (current a) (remove_at (position a) (offered c (ablade a) (here c a))))) (current a, pos).
Definition save_new (c : cfg) (a : astate) (p : preset) : astate := save_to c (use a (p, position a)) (position a).
(** A colour that was changed is saved with the preset in use. *)
Definition save_paint (c : cfg) (a : astate) : astate :=
  if save_color c && negb (variation (current a) =? color a) then save_new c a (Preset (body (current a)) (color a)) else a.
Definition select (c : cfg) (a : astate) (k : Z) : astate :=
  let a := save_paint c a in
  let p := meant c (ablade a) (here c a) k in
  paint (use a p) (if save_color c then variation (fst p) else 0).
Definition put_in (c : cfg) (a : astate) (b : nat) : astate :=
  let a := A (lists a) (numbers a) b (current a) (position a) (color a) (chosen a) in
  select c a (if save_preset c then numbers a (dir_of c b) else 0).
Definition power_on (c : cfg) (a : astate) (b : nat) : astate :=
  put_in c (A (lists a) (numbers a) b no_preset 0 0 (-1)) b.

Definition astep (c : cfg) (a : astate) (e : op) : astate * list out :=
  let n := position a in
  let l := offered c (ablade a) (here c a) in
  match e with
  | Boot b => (power_on c a b, [])
  | Blade b => (put_in c a b, [])
  | Set_ k => (select c (note c a k) k, [])
  | Change k => (if k =? n then a else select c (note c a k) k, [])
  | Next => (select c (if save_preset c then note c a (n + 1) else a) (n + 1), [])
  | Prev => (select c (if save_preset c then note c a (n - 1) else a) (n - 1), [])
  | First => (select c (if save_preset c then note c a 0 else a) 0, [])
  | Rotate =>
    let last_one :=
      match here c a with
      | None => a
      | Some [] => use a (current a, -1)
      | Some l => use a (last l no_preset, Z.of_nat (length l) - 1)
      end in
    (select c (save_to c last_one 0) 0, [])
  | Edit x => (save_new c a (Preset x (variation (current a))), [])
  | Reload x => (select c (save_new c a (Preset x (variation (current a)))) n, [])
  | Move pos => (save_to c a pos, [])
  | Duplicate pos => (save_to c (use a (current a, -1)) pos, [])
  | Delete => (save_to c a (-1), [])
  | Vary v => (paint a v, [])
  | Poll => (save_paint c a, [])
  | MUp => if 0 <? n then (save_to c (mark a (-1)) (n - 1), [Selected]) else (mark a (-1), [Buzz])
  | MDown => if snd (meant c (ablade a) (here c a) (n + 1)) =? n + 1 then (save_to c (mark a (-1)) (n + 1), [Selected]) else (mark a (-1), [Buzz])
  | MSelect => (mark a n, [Selected])
  | MInsert =>
    if chosen a =? -1 then (a, [NoneSelected])
    else
      let p := fst (meant c (ablade a) (here c a) (chosen a)) in
      let a := select c (note c (keep c a (insert_at n p l)) n) n in
      (if n <=? chosen a then mark a (chosen a + 1) else a, [Inserted])
  | MDelete => if (n =? 0) && (snd (meant c (ablade a) (here c a) 1) =? 0) then (a, [CantDelete]) else (save_to c a (-1), [Selected])
  | List_ fuel => (a, [Presets (firstn fuel l)])
  | Show => (a, [Current (current a) n])
  | CutEdit x h1 h2 b =>
    (power_on c (match h1, h2 with
                 | Complete, Complete => save_new c a (Preset x (variation (current a)))
                 | Complete, _ => keep c a l
                 | _, _ => a
                 end) b, [])
  | CutMove pos h1 h2 b =>
    (power_on c (match h1, h2 with
                 | Complete, Complete => save_to c a pos
                 | Complete, _ => keep c a l
                 | _, _ => a
                 end) b, [])
  end.

(** The disk a saber starts with *)
Definition start (c : cfg) (g : nat -> dir) (b : nat) : astate :=
  power_on c (A (fun k => stored (g k)) (fun k => curstate (g k)) b no_preset 0 0 (-1)) b.
(** What is offered at the moment *)
Definition presets (c : cfg) (s : state) : list preset := offered c (blade s) (stored (disk s (dir_of c (blade s)))).
Definition no_insert (e : op) : Prop := e <> MInsert.
Definition has_presets (c : cfg) : Prop := forall b, rom c b <> [].
(** The saber, switched on with blade b and disk g, after some operations *)
Definition reach (c : cfg) (g : nat -> dir) (b : nat) (ops : list op) : state := run_state (step c) (boot c g b) ops.
(** No raw deletions or moves by command, no insertion *)
Definition mild (e : op) : Prop := match e with Delete | Move _ | CutMove _ _ _ _ | MInsert => False | _ => True end.
(** Nothing that chooses or moves a preset *)
Definition calm (e : op) : Prop := match e with Edit _ | Vary _ | Poll | MSelect | List_ _ | Show => True | _ => False end.
