(** C115, C116: LEDs on PWM pins are lit when they should be and timers run while needed. Definitions: LampSpec.v. *)
From Coq Require Import ZArith List Bool Arith Lia.
From Verif Require Import Machine LampModel LampSpec LampProofs.
Import ListNotations.
Open Scope Z_scope.

(** Pins 0 and 2 on timer 1, pin 1 on timer 3, pin 5 on timer 4 *)
Definition ex_inst (p : nat) : nat := match p with 0 | 2 => 1 | 5 => 4 | _ => 3 end%nat.
Definition ex_blades : list (list nat) := [[0; 1]; [2; 5]]%nat.
Definition ex_ops : list (nat * op) :=
  [(0%nat, Act); (0%nat, Style); (1%nat, Act); (1%nat, Style); (0%nat, On); (0%nat, Run false [700; 900]); (1%nat, Run true [3; 4])].
Example ex_saber : saber ex_blades.
Proof. split; [|cbn; lia]. cbn. repeat (constructor; [cbn; lia|]). constructor. Qed.

(** C115: a linked blade that is on has power, after every history. *)
Theorem C115_on inst l ops k d : saber l -> blade_at (after inst l ops) k d -> linked d = true -> on_ d = true -> power_ d = true.
Proof. intros S. apply (on_powered inst l S ops k d). Qed.
Example C115_on_ex : blade_at (after ex_inst ex_blades ex_ops) 0 (Blade [0; 1]%nat true true true).
Proof. reflexivity. Qed.

(** C115: a blade without power is dark, whatever was done to it and to others. *)
Theorem C115_dark inst l ops k d p : saber l -> blade_at (after inst l ops) k d -> power_ d = false -> In p (pins d) -> lit_pin inst (after inst l ops) p = 0.
Proof.
  intros S B PD X. rewrite (light_of inst l S (after inst l ops) d p (inv_after inst l S ops)), PD; auto. eapply blade_in; eauto.
Qed.
Example C115_dark_ex :
  let s := after ex_inst ex_blades (ex_ops ++ [(0%nat, Run false [1; 2])]) in
  blade_at s 1 (Blade [2; 5]%nat false false true) /\ compare (hw_ s) 5 = 4 /\ lit_pin ex_inst s 5 = 0 /\ lit_pin ex_inst s 1 = 2.
Proof. vm_compute. auto. Qed.

(** C115: turning a blade on gives it power, and so do effects and a new style; it loses its power when it goes idle, is
    deactivated, or its style lets it go while it is off, and not otherwise. *)
Theorem C115_power inst l ops k d o d' : saber l -> blade_at (after inst l ops) k d -> blade_at (after inst l (ops ++ [(k, o)])) k d' ->
  match o with
  | Act | Style => power_ d' = true
  | On | Effect => linked d = true -> power_ d' = true
  | Deact => power_ d' = false
  | Off idle => linked d = true -> power_ d' = (if idle then false else power_ d)
  | Run dis _ => linked d = true -> power_ d' = power_ d && negb (dis && negb (on_ d))
  end.
Proof.
  intros S B B'. unfold after in B'. rewrite run_snoc in B'. fold (after inst l ops) in B'. pose proof (after_at inst (after inst l ops) k o d B) as Q.
  unfold blade_at in *. rewrite Q in B'. injection B' as <-. set (h := hw_ (after inst l ops)). clearbody h. clear Q B.
  destruct o; cbn [blade_step]; try intros L.
  - unfold Activate. pose proof (Power_power inst true h d). destruct (Power inst true h d). exact H.
  - unfold Deactivate. pose proof (Power_power inst false h d). destruct (Power inst false h d). exact H.
  - apply Power_power.
  - unfold SB_On2. rewrite L. apply Power_power.
  - unfold SB_Effect2. rewrite L. apply Power_power.
  - unfold SB_Off2. rewrite L. destruct idle; [apply Power_power|reflexivity].
  - unfold Loop. rewrite L. destruct (power_ d) eqn:E; cbn [andb].
    + destruct (disable && negb (on_ d)) eqn:D; cbn [negb].
      * pose proof (Power_power inst false h d). destruct (Power inst false h d). exact H.
      * exact E.
    + exact E.
Qed.
Example C115_power_ex :
  blade_at (after ex_inst ex_blades (ex_ops ++ [(0%nat, Off false); (0%nat, Run true [9; 9])])) 0 (Blade [0; 1]%nat false false true).
Proof. reflexivity. Qed.

(** C115: a blade that gets power shows nothing of what it showed before: it starts dark. *)
Theorem C115_fresh inst l ops k d o d' p : saber l -> blade_at (after inst l ops) k d -> power_ d = false ->
  blade_at (after inst l (ops ++ [(k, o)])) k d' -> power_ d' = true -> In p (pins d') -> lit_pin inst (after inst l (ops ++ [(k, o)])) p = 0.
Proof.
  intros S B PD. unfold after at 1 2. rewrite run_snoc. intros B' PD' X. apply (fresh inst l S _ k o d d' p (inv_after inst l S ops) B PD B' PD' X).
Qed.
Example C115_fresh_ex :
  let ops := (ex_ops ++ [(0%nat, Off true)]) in
  blade_at (after ex_inst ex_blades ops) 0 (Blade [0; 1]%nat false false true) /\ compare (hw_ (after ex_inst ex_blades ops)) 0 = 700 /\
  blade_at (after ex_inst ex_blades (ops ++ [(0%nat, Effect)])) 0 (Blade [0; 1]%nat false true true).
Proof. vm_compute. auto. Qed.

(** C115: what is done to one blade changes neither another nor its light. *)
Theorem C115_others inst l ops k o j e p : saber l -> j <> k -> blade_at (after inst l ops) j e ->
  blade_at (after inst l (ops ++ [(k, o)])) j e /\ (In p (pins e) -> lit_pin inst (after inst l (ops ++ [(k, o)])) p = lit_pin inst (after inst l ops) p).
Proof.
  intros S N B. unfold after at 1 2. rewrite run_snoc. split; [apply after_other; auto|]. apply (others_light inst l S _ k o j e p (inv_after inst l S ops) N B).
Qed.
Example C115_others_ex :
  lit_pin ex_inst (after ex_inst ex_blades ex_ops) 1 = 900 /\ lit_pin ex_inst (after ex_inst ex_blades (ex_ops ++ [(1%nat, Act); (1%nat, Deact)])) 1 = 900.
Proof. vm_compute. auto. Qed.

(** C116: a timer runs exactly while a powered blade has a pin on it; timer 3, which starts the others, while any has a pin. *)
Theorem C116_timers inst l ops i : saber l -> active (hw_ (after inst l ops)) i = true <-> needed inst (after inst l ops) i.
Proof. intros S. apply (active_iff inst l S). apply inv_after, S. Qed.
Example C116_timers_ex :
  let h := hw_ (after ex_inst ex_blades ex_ops) in map (active h) [1; 3; 4]%nat = [true; true; false] /\
  map (active (hw_ (after ex_inst ex_blades (ex_ops ++ [(0%nat, Deact)])))) [1; 3; 4]%nat = [false; false; false].
Proof. vm_compute. auto. Qed.

(** C116: so the LEDs of a blade show what its style sets, whatever timers they are on and whatever other blades did. *)
Theorem C116_shown inst l ops k d dis vs i p v : saber l -> blade_at (after inst l ops) k d -> linked d = true -> power_ d = true ->
  (on_ d = true \/ dis = false) -> nth_error (pins d) i = Some p -> nth_error vs i = Some v ->
  lit_pin inst (after inst l (ops ++ [(k, Run dis vs)])) p = v.
Proof.
  intros S B L PD O P V. unfold after. rewrite run_snoc. apply (shown inst l S _ k d dis vs i p v (inv_after inst l S ops) B L PD O P V).
Qed.
Example C116_shown_ex : lit_pin ex_inst (after ex_inst ex_blades (ex_ops ++ [(1%nat, Deact); (0%nat, Run true [11; 12])])) 0 = 11.
Proof. reflexivity. Qed.

Print Assumptions C115_on.
Print Assumptions C115_dark.
Print Assumptions C115_power.
Print Assumptions C115_fresh.
Print Assumptions C115_others.
Print Assumptions C116_timers.
Print Assumptions C116_shown.
