(** Properties of serial commands and RFID tags. *)
From Coq Require Import ZArith List Bool Lia ZifyBool ZifyNat.
From Verif Require Import Machine SerialModel SerialSpec SerialProofs RfidProofs.
Import ListNotations.
Open Scope Z_scope.

(** C84: every completed line is acted on exactly once, in order, as it means; lines begun before the
    connection is lost are dropped. *)
Theorem C84_lines : forall es, Forall (fun e => byte_of e <> 0) es -> Forall memory_left es ->
  exists p acts, serial_run reset es = Some (p, concat acts) /\ Forall2 means (lines [] es) acts.
Proof. exact serial_lines. Qed.
(** The meaning of a line is unique. *)
Theorem C84_unique : forall l a b, means l a -> means l b -> a = b.
Proof. exact means_unique. Qed.
(** Whatever arrives, and whenever memory runs out, the buffer is never overrun. *)
Theorem C84_safe : forall es, serial_run reset es <> None.
Proof. intros es. apply (run_safe es reset []). split; [reflexivity|left; split; reflexivity]. Qed.
(** When memory runs out within a line, the rest of the line is run as a command of its own. *)
Theorem C84_too_long_refuted : exists es l rest a, lines [] es = [l] /\ l <> rest /\ means rest a /\ ~ means l a /\ a <> [] /\
  exists p, serial_run reset es = Some (p, a).
Proof.
  pose (es := map (fun c => Byte c true) [104; 105; 32; 97; 97; 97; 97] ++ [Byte 98 false] ++ map (fun c => Byte c true) [111; 110; 10]).
  exists es, [104; 105; 32; 97; 97; 97; 97; 98; 111; 110], [111; 110], [Do [111; 110] None]. split; [reflexivity|]. split; [discriminate|].
  assert (M : means [111; 110] [Do [111; 110] None]) by (apply (line_means [111; 110]); cbn; lia).
  assert (M2 : means [104; 105; 32; 97; 97; 97; 97; 98; 111; 110] [Do [104; 105] (Some [97; 97; 97; 97; 98; 111; 110])]) by (apply (line_means [104; 105; 32; 97; 97; 97; 97; 98; 111; 110]); cbn; lia).
  split; [exact M|]. split; [intros X; pose proof (means_unique _ _ _ X M2); discriminate|]. split; [discriminate|]. eexists. vm_compute. reflexivity.
Qed.
Example C84_ex : let es := map (fun c => Byte c true) [111; 110; 13; 10; 32; 115; 101; 116; 32; 32; 120; 32; 10; 35; 99; 10; 111] in
  lines [] es = [[111; 110]; []; [32; 115; 101; 116; 32; 32; 120; 32]; [35; 99]] /\
  option_map snd (serial_run reset es) = Some [Do [111; 110] None; Do [115; 101; 116] (Some [32; 120]); Echo [35; 99]] /\
  Forall memory_left es /\ Forall (fun e => byte_of e <> 0) es.
Proof. cbv zeta. split; [reflexivity|]. split; [vm_compute; reflexivity|]. split; repeat constructor; cbn; lia. Qed.

(** C85: a code is reported only at the end of a complete, correct message. *)
Theorem C85_sound : forall es k code, nth_error (run_outs rfid_step Start es) k = Some (Some code) ->
  exists pre ds msg, firstn (S k) es = pre ++ map Char msg /\ tag ds msg /\ code = number16 ds.
Proof. intros es k code N. exact (rfid_sound_from es Start [] Logic.I k code N). Qed.
(** After a pause every message is reported, exactly once, also several in a row. *)
Theorem C85_complete : forall s dss msgs, Forall2 tag dss msgs ->
  run_outs rfid_step s (Timeout :: map Char (concat msgs)) = None :: concat (map (fun ds => repeat None 12 ++ [Some (number16 ds)]) dss).
Proof. intros s dss msgs F. cbn [run_outs rfid_step]. f_equal. apply tags_read. exact F. Qed.
(** A message with one wrong digit is not reported. *)
Theorem C85_wrong_digit : forall s ds1 d d' ds2 cs k, length (ds1 ++ d :: ds2) = 10%nat -> Forall (fun d => 0 <= d < 16) (ds1 ++ d :: ds2) -> Forall2 hex cs (ds1 ++ d' :: ds2) -> d <> d' ->
  k = xor_bytes (ds1 ++ d :: ds2) ->
  run_outs rfid_step s (Timeout :: map Char ([2] ++ cs ++ [k] ++ [3])) = repeat None 14.
Proof.
  intros s ds1 d d' ds2 cs k L F FC NE ->. cbn [run_outs rfid_step]. pose proof (hexes_range _ _ FC) as F'. apply Forall_app in F. destruct F as [F1 F2]. apply Forall_cons_iff in F2. destruct F2 as [D F2].
  apply Forall_app in F'. destruct F' as [_ F']. apply Forall_cons_iff in F'. destruct F' as [D' _].
  destruct (message_read (ds1 ++ d' :: ds2) cs (xor_bytes (ds1 ++ d :: ds2)) 3) as [-> _]; [rewrite app_length in L |- *; exact L|exact FC|].
  assert (N := xor_one ds1 d d' ds2 F1 F2 D D' NE ltac:(rewrite L; reflexivity)). replace (xor_bytes (ds1 ++ d :: ds2) =? xor_bytes (ds1 ++ d' :: ds2)) with false by (symmetry; apply Z.eqb_neq; exact N). reflexivity.
Qed.
(** A start byte just before a message (a tag moved away and back) loses the message. *)
Theorem C85_restart_refuted : forall ds msg, tag ds msg -> run_outs rfid_step Start (Char 2 :: map Char msg) = repeat None 14.
Proof. exact double_start. Qed.
Example C85_ex : let msg := [2; 48; 49; 65; 66; 67; 68; 69; 70; 48; 50; 48 + 41; 3] in
  tag [0; 1; 10; 11; 12; 13; 14; 15; 0; 2] ([2; 48; 49; 65; 66; 67; 68; 69; 70; 48; 50] ++ [xor_bytes [0; 1; 10; 11; 12; 13; 14; 15; 0; 2]] ++ [3]) /\
  xor_bytes [0; 1; 10; 11; 12; 13; 14; 15; 0; 2] = 138 /\ number16 [0; 1; 10; 11; 12; 13; 14; 15; 0; 2] = 0x01ABCDEF02 /\
  rfid_commands [(1, 7); (0x01ABCDEF02, 8)] 0x01ABCDEF02 = [8].
Proof.
  cbv zeta. split; [|repeat split; reflexivity]. split; [reflexivity|]. exists [48; 49; 65; 66; 67; 68; 69; 70; 48; 50]. split; [|reflexivity]. repeat constructor; cbn; lia.
Qed.

Print Assumptions C84_lines.
Print Assumptions C84_unique.
Print Assumptions C84_safe.
Print Assumptions C84_too_long_refuted.
Print Assumptions C85_sound.
Print Assumptions C85_complete.
Print Assumptions C85_wrong_digit.
Print Assumptions C85_restart_refuted.
