(** What image files are, and the order in which frames are to be shown. *)
From Coq Require Import ZArith List Bool.
From Verif Require Import FileSpec.
Import ListNotations.
Open Scope Z_scope.

Definition len (l : list Z) : Z := Z.of_nat (length l).
Definition number (ds : list Z) (v : Z) : Prop := digit_string ds /\ digits_value ds = v.
Definition blanks (l : list Z) : Prop := Forall (fun c => In c [32; 9; 10; 13]) l.
(** A portable bitmap: "P4", width, height, one blank, the pixels. *)
Definition pbm_file (w h : Z) (body f : list Z) : Prop :=
  exists a ds b es c, f = [80; 52] ++ a ++ ds ++ b ++ es ++ [c] ++ body /\
    blanks a /\ number ds w /\ blanks b /\ b <> [] /\ number es h /\ In c [32; 9; 10; 13].
(** The four bytes of a number, lowest first. *)
Definition le4 (v : Z) (l : list Z) : Prop :=
  exists a b c d, l = [a; b; c; d] /\ v = a + 256 * (b + 256 * (c + 256 * d)) /\ Forall (fun x => 0 <= x < 256) l.
(** A bitmap: tag, file size, reserved, where the pixels start, header size, width, height, anything,
    the pixels, anything. *)
Definition bmp_file (w h : Z) (body f : list Z) : Prop :=
  exists t1 t2 size r offset r' wb hb more trail,
    f = [t1; t2] ++ size ++ r ++ offset ++ r' ++ wb ++ hb ++ more ++ body ++ trail /\
    In (t1, t2) [(66, 77); (66, 65); (67, 73); (67, 80); (73, 67); (80, 84)] /\
    le4 (len f) size /\ length r = 4%nat /\ le4 (26 + len more) offset /\ length r' = 4%nat /\ le4 w wb /\ le4 h hb.
(** An image file with the given frames, first to last from the top of the image to its bottom; a
    portable bitmap stores the top first, a BMP file the bottom.  Each frame fills the screen, turned
    or not. *)
Definition image_file (W H : Z) (frames : list (list Z)) (f : list Z) : Prop :=
  let n := Z.of_nat (length frames) in
  Forall (fun b => len b = W * H / 8) frames /\
  exists w h, (w = W /\ h = n * H \/ w = H /\ h = n * W) /\
    (pbm_file w h (concat frames) f \/ bmp_file w h (concat (rev frames)) f).

(** The numbers of the frames to be shown: [true] is a step to the next frame, [false] draws the
    same one again. *)
Fixpoint looping (n : nat) (c : nat) (history : list bool) : list nat :=
  match history with
  | [] => []
  | a :: history => let c := if a then Nat.modulo (S c) n else c in c :: looping n c history
  end.
(** The same for a file that is played once: the last frame stays; the second component tells
    whether a step beyond the last frame has been asked for. *)
Fixpoint once (n : nat) (c : nat) (e : bool) (history : list bool) : list (nat * bool) :=
  match history with
  | [] => []
  | a :: history =>
      let e' := e || (a && Nat.eqb (S c) n) in
      let c := if a && negb e' then S c else c in
      (c, e') :: once n c e' history
  end.
