(** C113, C114: power LEDs get no more current than they bear, and the colors asked for. Definitions: LedSpec.v. *)
From Coq Require Import ZArith QArith List Bool Lia Lqa.
From Verif Require Import ArithModel ColorModel LedModel LedSpec LedProofs.
Import ListNotations.
Open Scope Z_scope.

(** C113: whatever the battery voltage and the color, the average current is no more than the LED's maximum. *)
Theorem C113_limit l s V i c : good_led l -> in16 c -> current l V i -> (average (set l s V c) i <= MaxAmps l)%Q.
Proof. apply limit. Qed.
Example C113_limit_ex :
  let l := CreeXPE2Blue (24 # 100) in good_led l /\ current l (42 # 10) (205 # 114) /\
  PWM l (Plain blue) (42 # 10) (Color 0 0 65535) = 36443 /\ set l (Plain blue) (42 # 10) (Color 0 0 65535) = 18221.
Proof.
  cbn zeta. split; [unfold good_led; cbn; lra|]. split; [|split; reflexivity].
  exists ((42 # 10) - (205 # 114) * (24 # 100))%Q. split; [unfold led_volts; cbn; reflexivity|cbn; reflexivity].
Qed.

(** C113: there always is such a current, so that the limit is not void... *)
Theorem C113_current l V : good_led l -> exists i, current l V i.
Proof. apply current_exists. Qed.
Example C113_current_ex : current (CreeXPE2Red 1) (365 # 100) 1.
Proof. exists (265 # 100)%Q. split; [unfold led_volts; cbn; reflexivity|reflexivity]. Qed.

(** C113: ... and the LED is not dimmed when the current is no more than the maximum, and otherwise by less than one of 65535
    steps more than needed. *)
Theorem C113_bright l s V i c : good_led l -> current l V i ->
  ((i <= MaxAmps l)%Q -> PWM l s V c = PWM_overdrive s c) /\
  ((MaxAmps l < i)%Q -> (inject_Z (PWM_overdrive s c) * MaxAmps l < (inject_Z (PWM l s V c) + 1) * i)%Q).
Proof. intros G I. split; [apply no_dim; auto|apply dim_little; auto]. Qed.
Example C113_bright_ex : PWM (CreeXPE2Red 1) (Plain red) (36 # 10) (Color 65535 0 0) = 65535.
Proof. reflexivity. Qed.

(** C113: PWM levels are in range and those that heed the battery are never above those that do not. *)
Theorem C113_range l s V c : good_led l -> in16 c -> 0 <= PWM l s V c <= PWM_overdrive s c /\ 0 <= PWM_overdrive s c <= 65535.
Proof. intros G C. apply PWM_range; auto. apply current_exists, G. Qed.
Example C113_range_ex : PWM_overdrive (Plain (Color 255 128 0)) (Color 40000 10000 7) = 19921.
Proof. reflexivity. Qed.

(** C113: the LEDs that come with the program have sensible data, whatever resistor is used. *)
Theorem C113_leds mo : (0 <= mo)%Q ->
  Forall good_led [CreeXPE2White mo; CreeXPE2Blue mo; CreeXPE2Green mo; CreeXPE2PCAmber mo; CreeXPE2Red mo; CreeXPL mo;
    Blue3mmLED; Red8mmLED100; Blue8mmLED100; CH1LED].
Proof. intros H. repeat constructor; cbn; try lra; exact H. Qed.
Example C113_leds_ex : good_led (CreeXPE2Green 0).
Proof. unfold good_led. cbn. lra. Qed.

(** C114: red, green and blue LEDs get just their parts of the color. *)
Theorem C114_rgb c : in16 c -> Select (Plain red) c = r c /\ Select (Plain green) c = g c /\ Select (Plain blue) c = b c.
Proof. intros C. auto using sel_red, sel_green, sel_blue. Qed.
Example C114_rgb_ex : in16 (Color 1 2 65535).
Proof. unfold in16. cbn. lia. Qed.

(** C114: with a white LED as well, its light and that of the others, which leave the white to it, add up to the color. *)
Theorem C114_rgbw c : in16 c -> let w := Select (Plain white) c in
  Select (Subtract (Plain white) red) c + w = r c /\ Select (Subtract (Plain white) green) c + w = g c /\ Select (Subtract (Plain white) blue) c + w = b c.
Proof. apply rgbw. Qed.
Example C114_rgbw_ex :
  let c := Color 500 300 65535 in Select (Plain white) c = 300 /\ Select (Subtract (Plain white) red) c = 200 /\ Select (Subtract (Plain white) green) c = 0.
Proof. vm_compute. auto. Qed.

(** C114: leaving the white to another LED makes none brighter. *)
Theorem C114_less o c : in8 o -> in16 c -> Select (Subtract (Plain white) o) c <= Select (Plain o) c.
Proof. apply less. Qed.
Example C114_less_ex :
  let o := Color 255 128 0 in Select (Subtract (Plain white) o) (Color 40000 30000 10000) = 30000 /\ Select (Plain o) (Color 40000 30000 10000) = 40000.
Proof. vm_compute. auto. Qed.

(** C114: black is dark, for all LEDs that have a color. *)
Theorem C114_black s : proper s -> Select s (Color 0 0 0) = 0.
Proof. apply black. Qed.
Example C114_black_ex : proper (Subtract (Plain white) (Color 255 100 0)) /\ Select (Plain (Color 0 0 0)) (Color 0 0 0) = 65535.
Proof. split; [|reflexivity]. cbn. unfold in8. cbn. repeat split; try lia; discriminate. Qed.

(** C114, a finding: leaving another color than white to another LED may make one much brighter: the part is taken off all
    three channels, below zero if need be, which wraps to nearly full. *)
Theorem C114_subtract_refuted :
  ~ (forall base o c, in8 base -> base <> Color 0 0 0 -> in8 o -> o <> Color 0 0 0 -> in16 c -> Select (Subtract (Plain base) o) c <= Select (Plain o) c).
Proof.
  intros H. specialize (H (Color 255 128 0) blue (Color 1000 900 0)).
  assert (X : Select (Subtract (Plain (Color 255 128 0)) blue) (Color 1000 900 0) <= Select (Plain blue) (Color 1000 900 0)).
  { apply H; unfold in8, in16; cbn; try lia; discriminate. }
  vm_compute in X. apply X. reflexivity.
Qed.
Example C114_subtract_ex : Select (Subtract (Plain (Color 255 128 0)) blue) (Color 1000 900 0) = 64536.
Proof. vm_compute. reflexivity. Qed.

Print Assumptions C113_limit.
Print Assumptions C113_current.
Print Assumptions C113_bright.
Print Assumptions C113_range.
Print Assumptions C113_leds.
Print Assumptions C114_rgb.
Print Assumptions C114_rgbw.
Print Assumptions C114_less.
Print Assumptions C114_black.
Print Assumptions C114_subtract_refuted.
