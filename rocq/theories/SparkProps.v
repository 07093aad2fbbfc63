(** C132 - C135: sparkles, blasts, noise, and times since an effect. *)
From Coq Require Import ZArith QArith Qabs Qround List Bool Lia ZifyBool ZifyNat.
From Verif Require Import ArithModel ColorModel EffectModel SparkModel SparkSpec SparkProofs.
Import ListNotations.
Local Open Scope Z_scope.

(** ** C132 *)

(** For every blade, every history of run times and random numbers, and every intensity up to
    1727 (1024 is the default), sparkling never writes outside its array, every LED's value is
    in 0 .. 32768, and it is the LED's heat, full from 256 on. *)
Theorem C132_safe n chance I l0 is :
  1 <= n -> 0 <= I <= 1727 -> Forall (fair n) is -> is <> [] ->
  exists s, sparkle_runs n chance I (Sparks None l0) is = Some s /\
    forall led, 0 <= led < n ->
      exists v, sparkle_get n s led = Some v /\ 0 <= v <= 32768 /\ v = 128 * Z.min 256 (heat n s led).
Proof. apply safe. Qed.
Example C132_safe_ex :
  match sparkle_runs 5 300 1024 (Sparks None 0) [(10, 0, 2); (21, 999, 0)] with
  | Some s => map (sparkle_get 5 s) [0; 1; 2; 3; 4] = [Some 0; Some 25600; Some 32768; Some 0; Some 0]
  | None => False
  end.
Proof. vm_compute. reflexivity. Qed.

(** In an update every LED but the last two gets a bit over half of its own heat and a fifth of
    each neighbour's, and the LED drawn gets the spark; no sum wraps around. *)
Theorem C132_spread n chance I s m r1 r2 :
  2 <= n -> 0 <= I <= 1727 -> sparkled n chance I s -> fair n (m, r1, r2) -> due s m ->
  exists s', sparkle_run n chance I s (m, r1, r2) = Some s' /\
    forall led, 0 <= led < n - 2 ->
      heat n s' led = spread (heat n s (led - 1)) (heat n s led) (heat n s (led + 1))
                      + (if (r1 <? chance) && (r2 =? led) then I else 0).
Proof.
  intros A B C D E. destruct (spreads n chance I s m r1 r2 A B C D E) as (s' & H & _ & S1 & _). exists s'. auto.
Qed.
Example C132_spread_ex :
  exists s, sparkled 5 300 1024 s /\ due s 20 /\ heat 5 s 2 = 1024 /\ spread 0 1024 0 = 570 /\ spread 1024 0 0 = 200.
Proof.
  destruct (C132_safe 5 300 1024 0 [(10, 0, 2)]) as (s & E & _); [lia|lia|repeat constructor; lia|discriminate|].
  exists s. split. exists 0, [(10, 0, 2)]. split; [repeat constructor; lia|exact E].
  vm_compute in E. injection E as <-. split. unfold due. cbn. lia. repeat split.
Qed.

(** The last two LEDs do not follow that rule: the last LED loses its heat in every update and
    the last but one gets what the last should have (the loop's last value is stored one place
    too low, sparkle.h:42-43). *)
Theorem C132_tip n chance I s m r1 r2 :
  2 <= n -> 0 <= I <= 1727 -> sparkled n chance I s -> fair n (m, r1, r2) -> due s m ->
  exists s', sparkle_run n chance I s (m, r1, r2) = Some s' /\
    heat n s' (n - 2) = spread (heat n s (n - 2)) (heat n s (n - 1)) 0
                        + (if (r1 <? chance) && (r2 =? n - 2) then I else 0) /\
    heat n s' (n - 1) = (if (r1 <? chance) && (r2 =? n - 1) then I else 0).
Proof.
  intros A B C D E. destruct (spreads n chance I s m r1 r2 A B C D E) as (s' & H & _ & _ & S2 & S3). exists s'. auto.
Qed.
Theorem C132_tip_refuted :
  ~ (forall n chance I s m r1 r2 s', 2 <= n -> 0 <= I <= 1727 -> sparkled n chance I s -> fair n (m, r1, r2) -> due s m ->
       sparkle_run n chance I s (m, r1, r2) = Some s' ->
       forall led, 0 <= led < n ->
         heat n s' led = spread (heat n s (led - 1)) (heat n s led) (heat n s (led + 1))
                         + (if (r1 <? chance) && (r2 =? led) then I else 0)).
Proof.
  intros H.
  destruct (C132_safe 5 300 1024 0 [(10, 0, 4)]) as (s & E & _); [lia|lia|repeat constructor; lia|discriminate|].
  assert (S : sparkled 5 300 1024 s) by (exists 0, [(10, 0, 4)]; split; [repeat constructor; lia|exact E]).
  assert (D : due s 20) by (vm_compute in E; injection E as <-; unfold due; cbn; lia).
  destruct (C132_tip 5 300 1024 s 20 999 0) as (s' & E' & _ & T); [lia|lia|exact S|unfold fair; lia|exact D|].
  specialize (H 5 300 1024 s 20 999 0 s' ltac:(lia) ltac:(lia) S ltac:(unfold fair; lia) D E' 4 ltac:(lia)).
  change (5 - 1) with 4 in T. rewrite T in H. vm_compute in E. injection E as <-. vm_compute in H. discriminate H.
Qed.

(** Between updates, which are at least 10 ms apart, nothing changes. *)
Theorem C132_hold n chance I s m r1 r2 : 1 <= n -> ~ due s m ->
  exists s', sparkle_run n chance I s (m, r1, r2) = Some s' /\ k_last s' = k_last s /\
    forall led, heat n s' led = heat n s led.
Proof. apply holds_still. Qed.
Example C132_hold_ex : ~ due (Sparks None 100) 109 /\ due (Sparks None 100) 110.
Proof. unfold due. cbn. lia. Qed.

(** Without new sparks the whole blade is dark after 170 updates. *)
Theorem C132_fades n chance I s is :
  1 <= n -> 0 <= I <= 1727 -> sparkled n chance I s -> Forall (fair n) is -> quiet chance (k_last s) is ->
  (170 <= length is)%nat ->
  exists s', sparkle_runs n chance I s is = Some s' /\ forall led, heat n s' led = 0.
Proof. apply fades. Qed.
Example C132_fades_ex : quiet 300 0 (map (fun k => (10 * Z.of_nat k + 10, 300, 0)) (seq 0 170)).
Proof.
  assert (H : forall c k, quiet 300 (10 * Z.of_nat k) (map (fun k => (10 * Z.of_nat k + 10, 300, 0)) (seq k c))).
  { induction c as [|c IH]; intros k; [exact Logic.I|]. cbn [seq map quiet]. split; [|split; [lia|]].
    - replace (10 * Z.of_nat k + 10 - 10 * Z.of_nat k) with 10 by lia. reflexivity || (vm_compute; lia) || (cbn; lia).
    - specialize (IH (S k)). replace (10 * Z.of_nat (S k)) with (10 * Z.of_nat k + 10) in IH by lia. exact IH. }
  exact (H 170%nat 0%nat).
Qed.

(** An intensity of 32768 or more does not fit: the spark leaves the LED dark. *)
Theorem C132_strong_refuted :
  exists s, sparkle_runs 5 300 32768 (Sparks None 0) [(10, 0, 2)] = Some s /\ sparkle_get 5 s 2 = Some 0.
Proof. eexists. split; [vm_compute; reflexivity|vm_compute; reflexivity]. Qed.

(** ** C133 *)

(** BlastFadeoutF adds up what the blasts on this blade give, up to 32768: each gives 32768 at
    first and fades to nothing in FADEOUT_MS. *)
Theorem C133_fadeout fade now l : 2 <= fade -> (length l <= 10)%nat ->
  fadeout fade now l = Some (Z.min (total (map (fun b => faded fade (age now b)) (mine l))) 32768).
Proof. apply fadeout_spec. Qed.
Example C133_fadeout_ex :
  fadeout 250 1125000 [Blast true 1000000 0; Blast false 1125000 0; Blast true 1120000 0] = Some 32768 /\
  fadeout 250 1125000 [Blast true 1000000 0] = Some 16384 /\
  faded 250 0 = 32768 /\ faded 250 250000 = 0 /\ faded 250 249999 = 32.
Proof. repeat split; reflexivity. Qed.
(** It stays in range, and only falls while no blast is added. *)
Theorem C133_falls fade now d l : 2 <= fade -> (length l <= 10)%nat -> 0 <= d ->
  (forall b, In b l -> age now b + d < 2 ^ 32) ->
  exists v w, fadeout fade now l = Some v /\ fadeout fade (now + d) l = Some w /\ 0 <= w <= v /\ v <= 32768 /\
    (1000 * fade <= d -> w = 0).
Proof.
  intros F L D A. do 2 eexists. rewrite !fadeout_spec by assumption. split; [reflexivity|]. split; [reflexivity|].
  pose proof (fadeout_down fade now d l F D A) as T.
  pose proof (total_range fade now (mine l) F) as R. pose proof (total_range fade (now + d) (mine l) F) as R'.
  split; [lia|]. split; [lia|]. intros K.
  assert (Z0 : total (map (fun b => faded fade (age (now + d) b)) (mine l)) = 0); [|lia].
  clear - K D A. induction l as [|b l IH]; [reflexivity|]. cbn [mine filter].
  assert (IH' := IH (fun b' Hb => A b' (or_intror Hb))). unfold mine in IH'.
  destruct (b_mine b); [|exact IH']. cbn [map total fold_right]. unfold total in IH'. rewrite IH'.
  rewrite age_later; [|exact D|apply A; left; reflexivity]. pose proof (age_pos now b).
  unfold faded. destruct (Z.ltb_spec (age now b + d) (1000 * fade)); lia.
Qed.
Example C133_falls_ex : fadeout 250 1125000 [Blast true 1000000 0] = Some 16384 /\
  fadeout 250 (1125000 + 62500) [Blast true 1000000 0] = Some 8192.
Proof. repeat split; reflexivity. Qed.
(** A fadeout of more than seven seconds is cut short: the effect is forgotten (C26) while it
    still shows. *)
Theorem C133_long_refuted (e : effect) (b : blast) :
  b_mine b = true -> b_start b = start_micros e -> 0 <= start_micros e < 2 ^ 32 ->
  let now := start_micros e + 7000001 in
  fadeout 10000 now [b] = Some 9830 /\ expire [e] now 1 = 0%nat.
Proof.
  intros M S R now. split.
  - rewrite fadeout_spec by (cbn; lia). unfold mine. cbn [filter]. rewrite M. cbn [map total fold_right].
    assert (A : age now b = 7000001) by (unfold age, now; rewrite S; replace (start_micros e + 7000001 - start_micros e) with 7000001 by lia; reflexivity).
    rewrite A. reflexivity.
  - cbn [expire nth]. unfold now. replace (start_micros e + 7000001 - start_micros e) with 7000001 by lia. reflexivity.
Qed.

(** BlastF: wherever it is defined it is in range. *)
Theorem C133_wave_range fade size ms leds led now l v :
  2 <= fade -> wave fade size ms leds led now l = Some v -> 0 <= v <= 32768.
Proof. apply wave_range. Qed.
(** One blast: [d] is how far the LED is from the front of the wave, which starts at the blast
    and moves one blade length in WAVE_MS.  Less than 32 / WAVE_SIZE away the LED gets the value
    of the hump there, faded; 33 / WAVE_SIZE or more away it gets nothing. *)
Theorem C133_wave fade size ms leds led now b :
  2 <= fade -> 0 <= size -> b_mine b = true -> age now b < 1000 * fade ->
  let d := (Qabs (Qabs ((b_loc b # 32768) - (led # Z.to_pos leds)) - (age now b # Z.to_pos (ms * 1000))) * inject_Z size)%Q in
  ((d < 32)%Q -> exists h, nth_error blast_hump (Z.to_nat (Qfloor d)) = Some h /\
      wave fade size ms leds led now [b] = Some (128 * (h * (1000 - age now b / fade) / 1000))) /\
  ((33 <= d)%Q -> wave fade size ms leds led now [b] = Some 0).
Proof.
  intros F Sz M A d. pose proof (wave_one fade size ms leds led now b F M A) as W. cbv zeta in W.
  change (wave_n size ms leds led (b_loc b) (age now b)) with (Qfloor d) in W.
  assert (D0 : 0 <= Qfloor d).
  { apply (floor_ge d 0). unfold d. apply Qmult_le_0_compat. apply Qabs_nonneg.
    rewrite <- (Zle_Qle 0). exact Sz. }
  clearbody d. split; intros H.
  - pose proof (floor_lt d 32 H) as L. rewrite W.
    destruct (Z.leb_spec (Qfloor d) 32); [|lia].
    destruct (nth_error blast_hump (Z.to_nat (Qfloor d))) as [h|] eqn:E; [exists h; split; reflexivity|].
    apply nth_error_None in E. cbn [blast_hump length] in E. lia.
  - pose proof (floor_ge d 33 H) as L. rewrite W. destruct (Z.leb_spec (Qfloor d) 32); [lia|reflexivity].
Qed.
Example C133_wave_ex : wave 200 100 400 100 70 1040000 [Blast true 1000000 16384] = Some 17664 /\
  wave 200 100 400 100 60 1040000 [Blast true 1000000 16384] = Some 26112 /\
  wave 200 100 400 100 99 1040000 [Blast true 1000000 16384] = Some 0.
Proof. repeat split; vm_compute; reflexivity. Qed.
(** Between 32 and 33 the table is read outside its end (blast.h:53 says <= 32, the table has
    32 entries). *)
Theorem C133_edge_refuted fade size ms leds led now b :
  2 <= fade -> b_mine b = true -> age now b < 1000 * fade ->
  let d := (Qabs (Qabs ((b_loc b # 32768) - (led # Z.to_pos leds)) - (age now b # Z.to_pos (ms * 1000))) * inject_Z size)%Q in
  (32 <= d)%Q -> (d < 33)%Q -> wave fade size ms leds led now [b] = None.
Proof.
  intros F M A d H1 H2. pose proof (wave_one fade size ms leds led now b F M A) as W. cbv zeta in W.
  change (wave_n size ms leds led (b_loc b) (age now b)) with (Qfloor d) in W.
  rewrite (floor_in d 32 H1 H2) in W. exact W.
Qed.
Example C133_edge_ex : wave 200 100 400 100 92 1040000 [Blast true 1000000 16384] = None.
Proof. vm_compute. reflexivity. Qed.
(** One blast never reaches 32768, the peak that is promised. *)
Theorem C133_peak_refuted fade size ms leds led now b v :
  2 <= fade -> wave fade size ms leds led now [b] = Some v -> v <= 32640.
Proof.
  intros F. unfold wave. destruct (wave_sum fade size ms leds led now [b] 0) as [x|] eqn:E; [|discriminate].
  rewrite Z.shiftl_mul_pow2 by lia. change (2 ^ 7) with 128. intros H. assert (Z.min (x * 128) 32768 = v) by congruence.
  apply wave_sum_range in E; [|exact F|lia]. cbn [length] in E. lia.
Qed.
(** A random location: in the lower 70% of the blade, except that one draw in 22937 puts it two
    blade lengths away (saber_base.h:219 starts from 65535). *)
Theorem C133_where r : 1 <= r < 22937 -> 0 <= effect_position (rnd_loc r) <= 22935.
Proof. intros H. unfold effect_position, rnd_loc, u16. replace (65535 + r) with (r - 1 + 1 * 65536) by lia. rewrite Z.mod_add by lia. rewrite Z.mod_small; lia. Qed.
Example C133_where_ex : effect_position (rnd_loc 100) = 99.
Proof. reflexivity. Qed.
Theorem C133_where_refuted : exists r, 0 <= r < 22937 /\ effect_position (rnd_loc r) = 65535.
Proof. exists 0. split; [lia|reflexivity]. Qed.

(** ** C134 *)

(** SlowNoise stays in 0 .. 32768 and moves at most SPEED per millisecond. *)
Theorem C134_slow speed v last now rs :
  0 <= v <= 32768 -> (forall i, 0 <= rs i <= 2 * speed) ->
  exists w, slow_run speed (v, last) (now, rs) = (w, now) /\ 0 <= w <= 32768 /\
    ((now - last) mod 2 ^ 32 <= 100 -> Z.abs (w - v) <= speed * ((now - last) mod 2 ^ 32)) /\
    (100 < (now - last) mod 2 ^ 32 -> Z.abs (w - v) <= speed).
Proof.
  intros V R. eexists. split; [reflexivity|].
  assert (F : Forall (fun r => 0 <= r <= 2 * speed) (map rs (seq 0 (slow_steps now last)))).
  { apply Forall_forall. intros x Hx. apply in_map_iff in Hx. destruct Hx as (i & <- & _). apply R. }
  destruct (wander_fold speed _ v V F) as [A B]. split; [exact A|]. rewrite map_length, seq_length in B.
  set (w := fold_left (wander speed) (map rs (seq 0 (slow_steps now last))) v) in *. clearbody w.
  unfold slow_steps, u32 in B. change (2 ^ 32) with 4294967296.
  set (dt := (now - last) mod 4294967296) in *. assert (0 <= dt) by (apply Z.mod_pos_bound; lia). clearbody dt.
  destruct (Z.gtb_spec dt 100); split; intros; try lia.
  rewrite Z2Nat.id in B by lia. exact B.
Qed.
Example C134_slow_ex : slow_run 10 (100, 5) (8, fun _ => 20) = (130, 8).
Proof. reflexivity. Qed.
(** It takes as many steps as milliseconds went by. *)
Theorem C134_steps speed v last now : 0 <= speed ->
  0 <= v -> v + speed * ((now - last) mod 2 ^ 32) <= 32768 -> (now - last) mod 2 ^ 32 <= 100 ->
  slow_run speed (v, last) (now, fun _ => 2 * speed) = (v + speed * ((now - last) mod 2 ^ 32), now).
Proof.
  intros Sp V B K. unfold slow_run, slow_steps, u32. change (2 ^ 32) with 4294967296 in *.
  set (dt := (now - last) mod 4294967296) in *. assert (P : 0 <= dt) by (apply Z.mod_pos_bound; lia). clearbody dt.
  destruct (Z.gtb_spec dt 100); [lia|]. f_equal.
  assert (HH : forall k i v, 0 <= v -> v + speed * Z.of_nat k <= 32768 ->
     fold_left (wander speed) (map (fun _ : nat => 2 * speed) (seq i k)) v = v + speed * Z.of_nat k).
  { clear - Sp. induction k as [|k IH]; intros i v V B; cbn [seq map fold_left]; [lia|].
    assert (W : wander speed v (2 * speed) = v + speed).
    { unfold wander, clampi32.
      destruct (Z.ltb_spec (v + (2 * speed - speed)) 0); [lia|]. destruct (Z.gtb_spec (v + (2 * speed - speed)) 32768); nia. }
    rewrite W. rewrite IH by lia. lia. }
  rewrite HH; lia.
Qed.
Example C134_steps_ex : slow_run 7 (100, 4294967290) (14, fun _ => 14) = (100 + 7 * 20, 14).
Proof. reflexivity. Qed.
(** But not "exactly 1000 times per second": after a pause of more than 100 ms it takes one
    step. *)
Theorem C134_steps_refuted speed v last now : 0 <= speed -> 0 <= v -> v + speed <= 32768 ->
  100 < (now - last) mod 2 ^ 32 ->
  slow_run speed (v, last) (now, fun _ => 2 * speed) = (v + speed, now).
Proof.
  intros Sp V B K. unfold slow_run, slow_steps, u32. change (2 ^ 32) with 4294967296 in *.
  destruct (Z.gtb_spec ((now - last) mod 4294967296) 100); [|lia]. f_equal. change (Z.to_nat 1) with 1%nat. cbn [seq map fold_left]. unfold wander, clampi32.
  destruct (Z.ltb_spec (v + (2 * speed - speed)) 0); [lia|]. destruct (Z.gtb_spec (v + (2 * speed - speed)) 32768); lia.
Qed.
(** BrownNoiseF: every LED's value is in 0 .. 32768 and differs from its neighbour's by at most
    GRADE. *)
Theorem C134_brown grade rs k v j :
  (forall i, 0 <= rs i <= 2 * grade i) -> 0 <= v <= 32768 -> (j < k)%nat ->
  length (brown grade rs 0 k v) = k /\ 0 <= nth j (brown grade rs 0 k v) 0 <= 32768 /\
  ((S j < k)%nat -> Z.abs (nth (S j) (brown grade rs 0 k v) 0 - nth j (brown grade rs 0 k v) 0) <= grade (S j)).
Proof.
  intros R V J. split; [apply brown_length|]. split.
  - eapply brown_range; [exact V|]. apply nth_In. rewrite brown_length. exact J.
  - intros J'. exact (brown_near grade rs R k 0%nat v j V J').
Qed.
Example C134_brown_ex : brown (fun _ => 50) (fun i => 100) 0 3 32700 = [32750; 32768; 32768].
Proof. reflexivity. Qed.

(** RandomBlinkF: each LED is full or dark; the pattern is kept for 10^9 / MILLIHZ microseconds,
    then every LED gets its own new random bit. *)
Theorem C134_blink leds bits last now hz rs :
  0 < hz < 2 ^ 32 ->
  exists s', blink_run leds (bits, last) now hz rs = Some s' /\
    (forall led, 0 <= led -> blink_get s' led = 0 \/ blink_get s' led = 32768) /\
    ((now - last) mod 2 ^ 32 <= 1000000000 / hz -> s' = (bits, last)) /\
    (1000000000 / hz < (now - last) mod 2 ^ 32 -> snd s' = now /\
      forall led, 0 <= led < leds ->
        blink_get s' led = if Z.testbit (rs (Z.to_nat (led / 16))) (led mod 16) then 32768 else 0).
Proof.
  intros H. unfold blink_run. change (2 ^ 32) with 4294967296 in *.
  assert (U : u32 hz = hz) by (unfold u32; apply Z.mod_small; lia). rewrite U.
  destruct (Z.eqb_spec hz 0); [lia|]. unfold u32.
  assert (G : forall s led, 0 <= led -> blink_get s led = 0 \/ blink_get s led = 32768).
  { intros s led L. rewrite blink_bit by exact L. destruct (Z.testbit _ _); auto. }
  destruct (Z.gtb_spec ((now - last) mod 4294967296) (1000000000 / hz)) as [D|D].
  - eexists. split; [reflexivity|]. split; [apply G|]. split; [lia|]. intros _. split; [reflexivity|].
    intros led L. rewrite blink_bit by lia. cbn [fst].
    assert (0 <= led / 16) by (apply Z.div_pos; lia).
    assert (led / 16 < (leds + 15) / 16).
    { assert (led / 16 + 1 <= (leds + 15) / 16); [|lia]. apply Z.div_le_lower_bound; [lia|].
      pose proof (Z.mul_div_le led 16). lia. }
    rewrite Z2Nat.id by lia. destruct (Z.ltb_spec (led / 16) ((leds + 15) / 16)); [|lia].
    rewrite u16_bit by (apply Z.mod_pos_bound; lia). reflexivity.
  - eexists. split; [reflexivity|]. split; [apply G|]. split; [reflexivity|lia].
Qed.
Example C134_blink_ex :
  match blink_run 20 (fun _ => 0, 0) 1000001 1000 (fun i => if Nat.eqb i 0 then 5 else 2) with
  | Some s => map (blink_get s) [0; 1; 2; 3; 16; 17] = [32768; 0; 32768; 0; 0; 32768]
  | None => False
  end /\ blink_run 20 (fun _ => 0, 0) 1000000 1000 (fun _ => 5) = Some (fun _ => 0, 0).
Proof. split; reflexivity. Qed.
(** MILLIHZ 0 divides by zero. *)
Theorem C134_blink_zero_refuted leds s now rs : blink_run leds s now 0 rs = None.
Proof. destruct s. reflexivity. Qed.

(** ** C135 *)

(** OnSparkF: full in the call that first sees the blade on, then falling to zero in MILLIS
    (up to 131072 ms), counted from that call, and zero afterwards. *)
Theorem C135_flash start m fade : 0 < fade <= 131072 ->
  onspark (false, start) true m fade = ((true, m), 32768).
Proof.
  intros F. pose proof (onspark_val (false, start) true m fade ltac:(lia)) as V. unfold onspark in *. cbn [eqb negb andb fst snd] in *.
  f_equal. rewrite V. rewrite Z.sub_diag. change (u32 0) with 0. unfold flash. destruct (Z.ltb_spec 0 fade); [|lia].
  rewrite Z.mul_0_r. rewrite Z.div_0_l by lia. reflexivity.
Qed.
Theorem C135_fades on0 on start m fade : 0 < fade <= 131072 -> (on0 = true \/ on = false) ->
  exists v, onspark (on0, start) on m fade = ((on, start), v) /\ 0 <= v <= 32768 /\
    (let t := (m - start) mod 2 ^ 32 in
     (t < fade -> v = 32768 - 32768 * t / fade) /\ (fade <= t -> v = 0)).
Proof.
  intros F O. pose proof (onspark_val (on0, start) on m fade ltac:(lia)) as V.
  assert (K : negb (eqb on0 on) && on = false) by (destruct on0, on, O; try reflexivity; discriminate).
  unfold onspark in *. rewrite K in *. cbn [fst snd] in *. eexists. split; [reflexivity|]. rewrite V.
  change (2 ^ 32) with 4294967296. change (u32 (m - start)) with ((m - start) mod 4294967296).
  set (t := (m - start) mod 4294967296). assert (0 <= t) by (apply Z.mod_pos_bound; lia). clearbody t.
  split; [apply flash_range; lia|]. unfold flash. destruct (Z.ltb_spec t fade); split; intros; try lia; reflexivity.
Qed.
Example C135_fades_ex : onspark (true, 1000) true 1050 200 = ((true, 1000), 24576) /\
  onspark (true, 1000) false 1200 200 = ((false, 1000), 0).
Proof. split; reflexivity. Qed.
(** Longer flashes come back to full. *)
Theorem C135_long_flash_refuted :
  snd (onspark (true, 0) true 131071 200000) = 11294 /\ snd (onspark (true, 0) true 131072 200000) = 32768.
Proof. split; reflexivity. Qed.

(** TimeSinceEffect: for every history of calls not more than 54 minutes apart, the answer is
    the exact number of milliseconds since the newest effect up to 1000 seconds; after that it
    is at least 1000 seconds and never more than the truth. *)
Theorem C135_since t0 s0 calls : 0 <= t0 - s0 <= 1000000000 -> paced t0 calls ->
  Forall2 right_answer (true_starts s0 calls) (answers (u32 s0) calls).
Proof. intros H P. apply (answers_spec calls t0); try lia. exact P. Qed.
Example C135_since_ex :
  paced 0 [(5000000, Some 4000000); (3200000000, None); (6400000000, None); (6401000000, Some 6400500000)] /\
  answers 0 [(5000000, Some 4000000); (3200000000, None); (6400000000, None); (6401000000, Some 6400500000)]
    = [1000; 3196000; 4200000; 500].
Proof. split; [cbn; lia|vm_compute; reflexivity]. Qed.
(** A style made long after start up that has seen no effect yet answers with what is left of
    the clock, which may be any small time. *)
Theorem C135_never_refuted : answers 0 [(2 ^ 32 + 5000000, None)] = [5000].
Proof. vm_compute. reflexivity. Qed.
Print Assumptions C132_safe.
Print Assumptions C132_spread.
Print Assumptions C132_tip.
Print Assumptions C132_tip_refuted.
Print Assumptions C132_hold.
Print Assumptions C132_fades.
Print Assumptions C132_strong_refuted.
Print Assumptions C133_fadeout.
Print Assumptions C133_falls.
Print Assumptions C133_long_refuted.
Print Assumptions C133_wave_range.
Print Assumptions C133_wave.
Print Assumptions C133_edge_refuted.
Print Assumptions C133_peak_refuted.
Print Assumptions C133_where.
Print Assumptions C133_where_refuted.
Print Assumptions C134_slow.
Print Assumptions C134_steps.
Print Assumptions C134_steps_refuted.
Print Assumptions C134_brown.
Print Assumptions C134_blink.
Print Assumptions C134_blink_zero_refuted.
Print Assumptions C135_flash.
Print Assumptions C135_fades.
Print Assumptions C135_long_flash_refuted.
Print Assumptions C135_since.
Print Assumptions C135_never_refuted.
