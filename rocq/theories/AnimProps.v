(** Properties of animations and still images on the display. *)
From Coq Require Import ZArith List Bool Lia ZifyBool ZifyNat.
From Verif Require Import Machine FileSpec AnimModel AnimSpec AnimProofs AnimLoop.
Import ListNotations.
Open Scope Z_scope.

(** C83: an animation shows its frames from the top of the image to its bottom, over and over; drawing
    again shows the same frame again.  Whatever was shown before ([s]), but: if the file before had
    fewer frames, the first frame must not be drawn again. *)
Theorem C83_loop : forall W H frames f s history, 0 < W -> 0 < H -> (W * H) mod 8 = 0 -> image_file W H frames f -> (2 <= length frames)%nat -> len f < 2 ^ 31 ->
  looped s = 0 \/ Z.of_nat (length frames) <= looped s \/ hd true history = true ->
  run_outs (show W H f) (open s) (true :: history) = map (fun k => (Some (nth k frames []), false)) (O :: looping (length frames) 0 history).
Proof. exact loop_ok. Qed.
(** If it is, the screen shows the bytes of the file's header. *)
Theorem C83_redraw_refuted : forall W H frames f s, 0 < W -> 0 < H -> (W * H) mod 8 = 0 -> image_file W H frames f -> (2 <= length frames)%nat -> len f < 2 ^ 31 ->
  looped s <> 0 -> looped s < Z.of_nat (length frames) ->
  run_outs (show W H f) (open s) [true; false] = [(Some (nth 0 frames []), false); (Some (firstn (Z.to_nat (W * H / 8)) f), false)].
Proof. exact refill_ok. Qed.
(** Images of one screen each, one after the other in a file, are shown once each in their order; then
    the last one stays. *)
Theorem C83_once : forall W H frames fs s history, 0 < W -> 0 < H -> (W * H) mod 8 = 0 -> Forall2 (fun b f => image_file W H [b] f) frames fs -> frames <> [] -> len (concat fs) < 2 ^ 31 ->
  0 <= looped s ->
  run_outs (show W H (concat fs)) (open s) (true :: history) = map (fun p => (Some (nth (fst p) frames []), snd p)) ((O, false) :: once (length frames) 0 false history).
Proof. intros W H frames fs s history W0 H0 M8 FF N L LO. apply once_shown; auto. destruct frames; [congruence|cbn; lia]. Qed.

Definition a8 : list Z := [1; 2; 3; 4; 5; 6; 7; 8].
Definition b8 : list Z := [9; 9; 9; 9; 8; 8; 8; 8].
Definition pbm2 : list Z := [80; 52; 10; 56; 32; 49; 54; 10] ++ a8 ++ b8.
Definition bmp2 : list Z := [66; 77; 46; 0; 0; 0; 0; 0; 0; 0; 30; 0; 0; 0; 40; 0; 0; 0; 8; 0; 0; 0; 16; 0; 0; 0; 1; 2; 3; 4] ++ b8 ++ a8.
Example C83_pbm : image_file 8 8 [a8; b8] pbm2.
Proof.
  split; [repeat constructor|]. exists 8, 16. split; [left; split; reflexivity|]. left. exists [10], [56], [32], [49; 54], 10.
  split; [reflexivity|]. split; [repeat constructor; cbn; tauto|]. split; [repeat split; [discriminate|repeat constructor; lia]|]. split; [repeat constructor; cbn; tauto|].
  split; [discriminate|]. split; [repeat split; [discriminate|repeat constructor; lia]|]. cbn. tauto.
Qed.
Example C83_bmp : image_file 8 8 [a8; b8] bmp2.
Proof.
  split; [repeat constructor|]. exists 8, 16. split; [left; split; reflexivity|]. right. exists 66, 77, [46; 0; 0; 0], [0; 0; 0; 0], [30; 0; 0; 0], [40; 0; 0; 0], [8; 0; 0; 0], [16; 0; 0; 0], [1; 2; 3; 4], [].
  split; [reflexivity|]. split; [left; reflexivity|].
  split; [eexists _, _, _, _; split; [reflexivity|]; split; [reflexivity|repeat constructor; lia]|]. split; [reflexivity|].
  split; [eexists _, _, _, _; split; [reflexivity|]; split; [reflexivity|repeat constructor; lia]|]. split; [reflexivity|].
  split; (eexists _, _, _, _; split; [reflexivity|]; split; [reflexivity|repeat constructor; lia]).
Qed.
Definition boot : reader := Reader 0 0 0 false 0 0 true.
Example C83_ex : run_outs (show 8 8 bmp2) (open boot) [true; false; true; true] = [(Some a8, false); (Some a8, false); (Some b8, false); (Some a8, false)] /\
  looping 2 0 [false; true; true] = [0; 1; 0]%nat /\ looped boot = 0 /\
  once 2 0 false [true; true; false] = [(1, false); (1, true); (1, true)]%nat.
Proof. repeat split; vm_compute; reflexivity. Qed.
(** A still image was shown before: the second frame's drawing goes wrong. *)
Example C83_redraw_ex : run_outs (show 8 8 pbm2) (open (Reader 0 1 1 false 0 1 true)) [true; false] = [(Some a8, false); (Some [80; 52; 10; 56; 32; 49; 54; 10], false)].
Proof. vm_compute. reflexivity. Qed.
Example C83_once_ex : let p := [80; 52; 10; 56; 32; 56; 10] ++ a8 in let q := [80; 52; 10; 56; 32; 56; 10] ++ b8 in
  Forall2 (fun b f => image_file 8 8 [b] f) [a8; b8] [p; q] /\
  run_outs (show 8 8 (p ++ q)) (open boot) [true; true; true; false] = [(Some a8, false); (Some b8, false); (Some b8, true); (Some b8, true)].
Proof.
  cbv zeta. split; [|vm_compute; reflexivity].
  constructor; [|constructor; [|constructor]].
  all: split; [repeat constructor|]; exists 8, 8; split; [left; split; reflexivity|]; left; eexists [10], [56], [32], [56], 10; split; [reflexivity|]; split; [repeat constructor; cbn; tauto|]; split; [repeat split; [discriminate|repeat constructor; lia]|]; split; [repeat constructor; cbn; tauto|];
  split; [discriminate|]; split; [repeat split; [discriminate|repeat constructor; lia]|]; cbn; tauto.
Qed.

Print Assumptions C83_loop.
Print Assumptions C83_redraw_refuted.
Print Assumptions C83_once.
