(** C04: a saved preset list reads back.  C05: saving at a position.  C61: editing sessions. *)
From Coq Require Import ZArith List Bool Lia.
From Verif Require Import StrModel StrSpec FileModel FileSpec ConfigModel ConfigSpec PresetModel PresetSpec PresetProofs.
Import ListNotations.
Open Scope Z_scope.

(** C04: reading the file of [ps] preset by preset gives the same presets (leading spaces
    dropped) numbered 0, 1, 2, ... and then the end, whatever the preset used for reading
    held before, wherever in the file the text starts, and whatever follows its last line. *)
Theorem C04_read_back : forall nb install ps t junk p,
  Forall (preset_ok nb) ps -> length (styles p) = nb -> 0 <= t ->
  read_all (S (length ps)) p (-1) (Reader t (presets_text install ps ++ junk)) = Some (numbered (map trimmed ps)).
Proof.
  intros. unfold presets_text. rewrite <- !app_assoc. apply (read_all_file nb _ ps p t ([LF] ++ junk)); auto; [|reflexivity].
  right. eauto.
Qed.
(** C04: Load of a number: the preset with that number; -1 gives the last; one past the
    end the first; anything else fails. *)
Theorem C04_load : forall nb install p0 ps t p want,
  let all := p0 :: ps in
  Forall (preset_ok nb) all -> length (styles p) = nb -> 0 <= t ->
  let n := Z.of_nat (length all) in
  let r := Load p (Reader t (presets_text install all)) want in
  (0 <= want < n -> exists q, nth_error all (Z.to_nat want) = Some q /\ r = Some (true, trimmed q, want)) /\
  (want = -1 -> r = Some (true, trimmed (last all p0), n - 1)) /\
  (want = n -> r = Some (true, trimmed p0, 0)) /\
  (want < -1 \/ n < want -> exists q k, r = Some (false, q, k)).
Proof. intros. subst r. rewrite text_split. apply (Load_all nb); auto; [right; eauto|reflexivity]. Qed.

Definition ex_p1 : preset := Preset [65;10;66] [] [[97;32;49];[98]] [32;78] 4294967295.
Definition ex_p2 : preset := Preset [67] [100] [[];[92]] [110] 0.
Example C04_ex : Forall (preset_ok 2) [ex_p1; ex_p2] /\ trimmed ex_p2 = ex_p2 /\ name (trimmed ex_p1) = [78] /\
  read_all 3 (empty_preset 2) (-1) (Reader 0 (presets_text [74] [ex_p1; ex_p2])) = Some [(trimmed ex_p1, 0); (ex_p2, 1)].
Proof. split; [repeat (constructor; [split; [reflexivity|cbn; lia]|]); constructor|]. vm_compute. auto. Qed.

(** C05: SaveAt writes the list with the origin removed and the current preset inserted. *)
Theorem C05_save_at : forall nb install cur origin pos ps t junk,
  Forall (preset_ok nb) ps -> 0 <= t ->
  SaveAt nb install cur origin pos (Reader t (presets_text install ps ++ junk)) =
  Some (presets_text install (insert_at pos cur (remove_at origin (map trimmed ps)))).
Proof.
  intros. unfold presets_text at 1. rewrite <- !app_assoc. apply (SaveAt_file nb install _ cur origin pos ps t ([LF] ++ junk)); auto; [|reflexivity].
  right. eauto.
Qed.
(* moving preset 0 of three to the end; deleting; duplicating to the front *)
Example C05_ex :
  let l := [ex_p2; trimmed ex_p1; ex_p2] in
  SaveAt 2 [74] ex_p2 0 2 (Reader 0 (presets_text [74] l)) = Some (presets_text [74] [trimmed ex_p1; ex_p2; ex_p2]) /\
  SaveAt 2 [74] ex_p1 1 (-1) (Reader 0 (presets_text [74] l)) = Some (presets_text [74] [ex_p2; ex_p2]) /\
  SaveAt 2 [74] ex_p1 (-1) 0 (Reader 0 (presets_text [74] l)) = Some (presets_text [74] (ex_p1 :: l)).
Proof. vm_compute. auto. Qed.

(** C61: any sequence of preset edits acts on the saved file as a list editor acts on a
    list: same selection results, same numbers, and the file always holds exactly the
    edited list (including failing together when a selection runs outside the compiled-in
    presets or a style is set on a blade that does not exist). *)
Theorem C61_edit_session : forall nb install t rom es s l,
  0 <= t -> Forall (preset_ok nb) rom -> Forall clean rom -> Forall edit_ok es ->
  Forall (preset_ok nb) l -> Forall clean l -> preset_ok nb (cur s) -> clean (cur s) ->
  file s = presets_text install l ->
  match edit_all nb rom (Editor l (cur s) (num s)) es with
  | Some e => exists s', do_edits nb install t rom s es = Some s' /\
      file s' = presets_text install (plist e) /\ cur s' = inuse e /\ num s' = number e
  | None => do_edits nb install t rom s es = None
  end.
Proof.
  intros nb install t rom es s l T R1 R2 E L1 L2 C1 C2 F.
  assert (both : forall x, Forall (preset_ok nb) x -> Forall clean x -> Forall (good nb) x).
  { intros x A B. rewrite Forall_forall in *. intros y Y. split; auto. }
  apply (edits_same nb install t rom es T (both _ R1 R2) E s); [repeat split; assumption|]. split; [apply both; assumption|split; assumption].
Qed.
Example C61_ex :
  let rom := [ex_p2; trimmed ex_p1] in
  match do_edits 2 [74] 512 rom (Session (presets_text [74] rom) ex_p2 0)
    [Select 1; SetName [120]; Duplicate 0; SetStyle 1 [121]; Select 3; Move 2; Delete; Select (-1)] with
  | Some s => num s = 1 /\ name (cur s) = [120] /\
      read_all 9 ex_p1 (-1) (Reader 512 (file s)) =
      Some [(ex_p2, 0); (Preset [65;10;66] [] [[97;32;49];[98]] [120] 4294967295, 1)]
  | None => False
  end.
Proof. vm_compute. auto. Qed.

Print Assumptions C04_read_back.
Print Assumptions C04_load.
Print Assumptions C05_save_at.
Print Assumptions C61_edit_session.
