(** C16 cyclic time, C17 MOD and clamps, C18 integer square root, C19 stripes. *)
From Coq Require Import ZArith List Bool Lia.
From Verif Require Import Machine ArithModel ArithSpec ArithProofs.
Import ListNotations.
Open Scope Z_scope.

(** C16.  [a] and [b] are real, unbounded times; the hardware sees them modulo 2^32. *)
Theorem C16_near_times_compare_correctly : forall a b,
  Z.abs (a - b) < 2^31 ->
  (cyc_lt (u32 a) (u32 b) = true <-> a < b) /\
  (cyc_le (u32 a) (u32 b) = true <-> a <= b) /\
  (cyc_gt (u32 a) (u32 b) = true <-> a > b) /\
  (cyc_ge (u32 a) (u32 b) = true <-> a >= b) /\
  (cyc_eq (u32 a) (u32 b) = true <-> a = b).
Proof. exact cyc_near_iff. Qed.
(* across the wrap: 2^32 - 10 is before 2^32 + 5 although the stored value is larger *)
Example C16_near_ex : Z.abs ((2^32 - 10) - (2^32 + 5)) < 2^31 /\
  cyc_lt (u32 (2^32 - 10)) (u32 (2^32 + 5)) = true /\ u32 (2^32 - 10) > u32 (2^32 + 5).
Proof. repeat split; vm_compute; congruence. Qed.

(** Exactly which pairs are ordered "before": b is 1 .. 2^31 ticks after a, modulo 2^32. *)
Theorem C16_before_exactly : forall a b,
  cyc_lt (u32 a) (u32 b) = true <-> exists d, 1 <= d <= 2^31 /\ u32 b = u32 (a + d).
Proof. exact cyc_lt_exact. Qed.
Example C16_before_exactly_ex :
  cyc_lt (u32 0) (u32 (2^31)) = true /\ cyc_lt (u32 (2^31)) (u32 0) = true /\
  cyc_lt (u32 0) (u32 (2^31 + 1)) = false.
Proof. repeat split; reflexivity. Qed.

(** Adding and subtracting durations follows real time. *)
Theorem C16_durations : forall a d,
  cyc_add (u32 a) d = u32 (a + d) /\ cyc_sub (u32 a) d = u32 (a - d).
Proof. exact (fun a d => conj (cyc_add_real a d) (cyc_sub_real a d)). Qed.

(** C17. *)
Theorem C17_MOD_is_remainder : forall x m, 0 < m ->
  0 <= MOD x m < m /\ exists k, x = k * m + MOD x m.
Proof. exact MOD_spec. Qed.
Example C17_MOD_ex : MOD (-7) 3 = 2 /\ MOD (-2147483648) 7 = 5 /\ MOD 9 4 = 1.
Proof. repeat split; reflexivity. Qed.

Theorem C17_clamp_nearest : forall x a b, a <= b ->
  a <= clampi32 x a b <= b /\
  forall y, a <= y <= b -> Z.abs (x - clampi32 x a b) <= Z.abs (x - y).
Proof. exact clampi32_nearest. Qed.
Example C17_clamp_ex : clamptoi16 40000 = 32767 /\ clamptoi16 (-40000) = -32768 /\
  clamptoi24 (-9000000) = -8388608 /\ clamptoi16 5 = 5.
Proof. repeat split; reflexivity. Qed.

(** C18.  For every history of calls with arguments below 2^29 each result is the
    floor of the square root, without overflow and without running out of steps. *)
Theorem C18_sqrt_exact : forall xs last,
  0 <= last <= 46340 -> Forall (fun x => x < 2^29) xs ->
  Forall2 (fun x r => exists s, r = SOk s /\ 0 <= s /\
             (0 < x -> s * s <= x < (s + 1) * (s + 1)) /\ (x <= 0 -> s = 0))
    xs (sqrt_calls last xs).
Proof. exact sqrt_calls_spec. Qed.
Example C18_sqrt_ex :
  Forall (fun x => x < 2^29) [2^29 - 1; 17; 0; 1000000; -5] /\
  sqrt_calls 0 [2^29 - 1; 17; 0; 1000000; -5] = [SOk 23170; SOk 4; SOk 0; SOk 1000; SOk 0].
Proof. split; [repeat constructor; vm_compute; congruence|vm_compute; reflexivity]. Qed.

(** Finding: for larger arguments the upward search overflows a signed int. *)
Theorem C18_sqrt_all_ints_refuted :
  exists x, 0 < x < 2^31 /\ my_sqrt 0 x = SUB.
Proof. exists 1100000000. split; [lia|vm_compute; reflexivity]. Qed.

(** C19. *)
Theorem C19_stripes_count : forall s e ss se period,
  0 <= s <= e -> 0 <= ss <= se -> se - ss <= period -> 0 < period ->
  ss <= s + period -> e + period - ss < 2^32 -> period < 2^32 -> se < 2^32 ->
  counts (in_stripe ss se period) s e (stripes (Range s e) (Range ss se) period).
Proof. exact stripes_correct. Qed.
Example C19_stripes_ex :
  stripes (Range 10 30) (Range 3 8) 10 = 10 /\ stripes (Range 0 7) (Range 5 12) 10 = 4.
Proof. split; reflexivity. Qed.

(** The count determined by [counts] is unique, so the theorem above pins the value. *)
Theorem C19_count_unique : forall P a b c1 c2,
  counts P a b c1 -> counts P a b c2 -> c1 = c2.
Proof. exact counts_fun. Qed.

(** Finding: a stripe that starts more than one period after the range is not
    counted correctly (unsigned wrap), although the comment says N may be negative. *)
Theorem C19_far_stripe_refuted :
  exists s e ss se period, 0 <= s <= e /\ 0 <= ss <= se /\ se - ss <= period /\ 0 < period /\
   ~ counts (in_stripe ss se period) s e (stripes (Range s e) (Range ss se) period).
Proof. exact far_stripe_refuted. Qed.

Print Assumptions C16_near_times_compare_correctly.
Print Assumptions C16_before_exactly.
Print Assumptions C16_durations.
Print Assumptions C17_MOD_is_remainder.
Print Assumptions C17_clamp_nearest.
Print Assumptions C18_sqrt_exact.
Print Assumptions C18_sqrt_all_ints_refuted.
Print Assumptions C19_stripes_count.
Print Assumptions C19_count_unique.
Print Assumptions C19_far_stripe_refuted.
