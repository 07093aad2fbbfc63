(** What infrared transmission must preserve. *)
From Coq Require Import ZArith List Bool.
From Verif Require Import IRModel.
Import ListNotations.
Open Scope Z_scope.

(** [seen tol sent got] : the receiver sees [got] when [sent] is transmitted: every pulse
    may be up to [tol] microseconds longer or shorter, and neighbouring pulses of the same
    level may appear as one. *)
Inductive seen (tol : Z) : list pulse -> list pulse -> Prop :=
| Seen_nil : seen tol [] []
| Seen_pulse h us us' sent got : Z.abs (us - us') <= tol -> seen tol sent got -> seen tol ((h, us) :: sent) ((h, us') :: got)
| Seen_merged h u1 u2 sent got : seen tol ((h, u1 + u2) :: sent) got -> seen tol ((h, u1) :: (h, u2) :: sent) got.

(** What a remote control sends, each followed by a pause. *)
Inductive nec_msg := Code32 (d : Z) | Code16 (d : Z) | Again | Silence.
Definition nec_send (m : nec_msg * Z) : list pulse :=
  match fst m with Code32 d => Encode32 d | Code16 d => Encode16 d | Again => EncodeRepeat | Silence => [] end ++ [(false, snd m)].
Definition nec_expect (m : nec_msg * Z) : list nec_out :=
  match fst m with Code32 d => [Nec32 d] | Code16 d => [Nec16 d] | Again => [NecRepeat] | Silence => [] end.
Definition nec_msg_ok (m : nec_msg * Z) : Prop :=
  10149 <= snd m /\ match fst m with Code32 d => 0 <= d < 2 ^ 32 | Code16 d => 0 <= d < 2 ^ 16 | _ => True end.

(** Total carrier periods of what the transmitter was told to send. *)
Definition periods (l : list (Z * Z)) : Z := fold_right (fun c n => fst c + 1 + n) 0 l.

(** The pulses of an alternating signal: levels [h], not h, h, ... *)
Fixpoint alternates (h : bool) (l : list pulse) : Prop :=
  match l with [] => True | (x, _) :: l => x = h /\ alternates (negb h) l end.

(** [got] has the levels of [sent] and lengths the NEC decoder takes for the same. *)
Definition looks_like (got sent : list pulse) : Prop :=
  Forall2 (fun p q => fst p = fst q /\ nec_classify (snd p) = nec_classify (snd q)) got sent.
(** The frame of a code given as bits, first bit first. *)
Definition nec_frame (bits : list bool) : list pulse :=
  [(true, 9000); (false, 4500)] ++ concat (map (fun b : bool => [(true, 560); (false, if b then 1690 else 560)]) bits).
Definition value (bits : list bool) : Z := fold_left (fun a (b : bool) => 2 * a + (if b then 1 else 0)) bits 0.

(** RC6 messages, each followed by a pause of [k] times 444 microseconds. *)
Inductive rc6_msg := Rc6Code (toggle : bool) (ctrl info : Z) | Rc6Silence.
Definition rc6_send (m : rc6_msg * Z) : list pulse :=
  match fst m with Rc6Code t c i => EncodeRC6mode0 t c i | Rc6Silence => [] end ++ [(false, 444 * snd m)].
Definition rc6_expect (m : rc6_msg * Z) : list (Z * Z) :=
  match fst m with Rc6Code _ c i => [(c, i)] | Rc6Silence => [] end.
Definition rc6_msg_ok (m : rc6_msg * Z) : Prop :=
  8 <= snd m /\ match fst m with Rc6Code _ c i => 0 <= c < 256 /\ 0 <= i < 256 | Rc6Silence => True end.

(** A blaster frame: a mark and five bytes; [near] allows each pulse 99 microseconds. *)
Record frame := Frame { f_hi : Z; f_lo : Z; f_team : Z; f_damage : Z; f_check : Z }.
Definition frame_pulses (f : frame) : list pulse :=
  [(true, 1700)] ++ EncodeByte (f_hi f) ++ EncodeByte (f_lo f) ++ EncodeByte (f_team f) ++ EncodeByte (f_damage f) ++ EncodeByte (f_check f).
Definition is_byte (x : Z) : Prop := 0 <= x < 256.
Definition frame_ok (f : frame) : Prop := is_byte (f_hi f) /\ is_byte (f_lo f) /\ is_byte (f_team f) /\ is_byte (f_damage f) /\ is_byte (f_check f).
Definition near (tol : Z) (sent got : list pulse) : Prop := Forall2 (fun p q => fst p = fst q /\ Z.abs (snd p - snd q) <= tol) sent got.
(** A pause: one or more low pulses of at least 1.8 ms. *)
Definition pause (l : list pulse) : Prop := l <> [] /\ Forall (fun p => fst p = false /\ 1800 <= snd p) l.
Inductive frames_heard : list frame -> list pulse -> Prop :=
| FH_nil : frames_heard [] []
| FH_cons f fs got p rest : frame_ok f -> near 99 (frame_pulses f) got -> pause p -> frames_heard fs rest -> frames_heard (f :: fs) (got ++ p ++ rest).
(** A frame is reported if it starts with 0x00AA; it counts as a hit if the check byte is
    right: sum plus (sum - 1) / 5 plus 4, where sum = team + damage. *)
Definition check_byte (team damage : Z) : Z :=
  if team + damage =? 0 then 4 else ((team + damage) + (team + damage - 1) / 5 + 4) mod 256.
Definition frame_report (f : frame) : list shot :=
  if (f_hi f =? 0) && (f_lo f =? 170) then [Shot (f_team f) (f_damage f) (f_check f) (f_check f =? check_byte (f_team f) (f_damage f))] else [].

(** The events the receiver's interrupt has recorded and those it has delivered. *)
Definition recorded (r : receiver) (o : rx_op) : list pulse :=
  match o with
  | Sample state now => if Bool.eqb state (current_state r) then [] else [(negb (current_state r), (now - current_micros r) mod 2 ^ 32)]
  | IdleCheck _ now => match pc r with RxIdle => if (now - current_micros r) mod 2 ^ 32 >? 20000 then [(negb (current_state r), (now - current_micros r) mod 2 ^ 32)] else [] | _ => [] end
  | Loop => []
  end.
Fixpoint all_recorded (r : receiver) (ops : list rx_op) : list pulse :=
  match ops with [] => [] | o :: ops => recorded r o ++ all_recorded (fst (rx_step r o)) ops end.
Fixpoint all_delivered (r : receiver) (ops : list rx_op) : list pulse :=
  match ops with [] => [] | o :: ops => snd (rx_step r o) ++ all_delivered (fst (rx_step r o)) ops end.
