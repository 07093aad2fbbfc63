(** Styles that put several colors on a blade: Mix, Gradient, ColorSequence, ColorSelect,
    Remap, Stripes, HardStripes. *)
From Coq Require Import ZArith List Bool.
From Verif Require Import ArithModel ColorModel.
Import ListNotations.
Local Open Scope Z_scope.

(** Conversion of a 32-bit value to int. *)
Definition to_int (x : Z) : Z := let y := u32 x in if y <? 2147483648 then y else y - 4294967296.

(** styles/mix.h:48-81 MixHelper2::getColor(x, led) on the colors the inner styles give for
    this LED (never empty); common/typelist.h:68-72 SplitTypeList splits at size / 2.  [fuel]
    is the number of colors, which is more than the depth of the tree of templates.
    Simplification here and below: inner styles are plain colors or overdrive colors, not
    layers. *)
Fixpoint helper (fuel : nat) (cs : list opaque) (x : Z) : opaque :=
  match fuel with
  | O => hd (Opaque (Color 0 0 0) false) cs
  | S f =>
    match cs with
    | [] | [_] => hd (Opaque (Color 0 0 0) false) cs
    | _ =>
      let h := Nat.div2 (length cs) in
      if x <? Z.of_nat h then helper f (firstn h cs) x
      else helper f (skipn h cs) (x - Z.of_nat h)
    end
  end.
Definition pick (cs : list opaque) (x : Z) : opaque := helper (length cs) cs x.

(** The end of styles/mix.h:99-101 and styles/gradient.h:27-29: position [x] in units of
    1/32768 of a color. *)
Definition at_pos (cs : list opaque) (x : Z) : opaque :=
  mix_opaque (pick cs (Z.shiftr x 15)) (pick cs (Z.shiftr x 15 + 1)) (Z.land x 32767) 15.

(** styles/mix.h:30-46 Mix<F, A, B>::getColor *)
Definition mix_two (a b : opaque) (f : Z) : opaque := mix_opaque a b f 15.
(** styles/mix.h:96-102 Mix<F, A, B, C...>::getColor: the product is computed unsigned. *)
Definition mix_many (cs : list opaque) (f : Z) : opaque :=
  at_pos cs (to_int (f * (Z.of_nat (length cs) - 1))).

(** styles/gradient.h:17-20 run: [None] is a division by zero.  The division is unsigned. *)
Definition grad_mul (n leds : Z) : option Z :=
  let d := u32 (leds - 1) in
  if d =? 0 then None else Some (to_int (Z.shiftl (n - 1) 15 / d)).
(** styles/gradient.h:25-30 getColor: [None] also for int overflow. *)
Definition gradient (cs : list opaque) (leds led : Z) : option opaque :=
  match grad_mul (Z.of_nat (length cs)) leds with
  | None => None
  | Some mul => match imul led mul with None => None | Some x => Some (at_pos cs x) end
  end.
(** functions/ramp.h:14 RampF::getInteger *)
Definition ramp (leds led : Z) : Z := Z.quot (led * 32768) leds.

(** styles/sequence.h:29-40 ColorSequence::run: time of the last change, color number.
    [ms] is the template argument (ms * 10000 fits in an int), [n] the number of colors. *)
Record cseq := CSeq { q_last : Z; q_n : Z }.
Definition cseq_run (ms n : Z) (s : cseq) (now : Z) : cseq :=
  if u32 (now - q_last s) >? ms * 1000 then
    if u32 (now - q_last s) >? ms * 10000 then CSeq now 0
    else CSeq (u32 (q_last s + ms * 1000)) ((q_n s + 1) mod n)
  else s.
(** styles/sequence.h:48-50 getColor *)
Definition cseq_get (cs : list opaque) (s : cseq) : opaque := pick cs (q_n s).

(** styles/color_select.h:25-41 ColorSelect::run.  [f] is the selection function's value,
    [done] what the transition says after it has run; the third field tells whether the
    transition was begun in this run.  The loop adds 256 * n until f is not negative. *)
Record csel := CSel { e_sel : Z; e_old : Z }.
Definition wrap_f (n f : Z) : Z := if f <? 0 then f + 256 * n * ((- f + 256 * n - 1) / (256 * n)) else f.
Definition csel_run (n : Z) (s : csel) (f : Z) (done : bool) : csel * bool :=
  let sel := u8 (wrap_f n f mod n) in
  let begun := negb (sel =? e_sel s) in
  let s := if begun then CSel sel (e_sel s) else s in
  if e_sel s =? e_old s then (s, begun)
  else if done then (CSel (e_sel s) (e_sel s), begun) else (s, begun).
(** styles/color_select.h:51-59 getColor; [tr] is the transition's getColor. *)
Definition csel_get (tr : opaque -> opaque -> opaque) (cs : list opaque) (s : csel) : opaque :=
  if e_sel s =? e_old s then pick cs (e_sel s) else tr (pick cs (e_old s)) (pick cs (e_sel s)).

(** styles/remap.h:32-42 Remap::getColor: the LEDs it asks the inner style for, and the
    fraction of the second.  [None]: int overflow. *)
Definition remap (leds pos : Z) : option (Z * Z * Z) :=
  match imul pos leds, imul leds 32768 with
  | Some x, Some y =>
    let l := clampi32 x 0 (y - 1) in
    let led := clampi32 (Z.shiftr l 15) 0 leds in
    Some (led, Z.min (led + 1) (leds - 1), Z.land l 32767)
  | _, _ => None
  end.

(** common/sin_table.h:4 sin_table *)
Definition sin_list : list Z :=
  [0; 100; 201; 301; 402; 502; 603; 703; 803; 904; 1004; 1104; 1205; 1305; 1405; 1505; 1605; 1705; 1805; 1905; 2005; 2105; 2204; 2304; 2403; 2503; 2602; 2701; 2800; 2899; 2998; 3097;
   3196; 3294; 3393; 3491; 3589; 3687; 3785; 3883; 3980; 4078; 4175; 4272; 4369; 4466; 4562; 4659; 4755; 4851; 4947; 5043; 5139; 5234; 5329; 5424; 5519; 5613; 5708; 5802; 5896; 5989; 6083; 6176;
   6269; 6362; 6454; 6547; 6639; 6730; 6822; 6913; 7004; 7095; 7185; 7276; 7365; 7455; 7545; 7634; 7722; 7811; 7899; 7987; 8075; 8162; 8249; 8336; 8422; 8508; 8594; 8679; 8764; 8849; 8934; 9018;
   9101; 9185; 9268; 9351; 9433; 9515; 9597; 9678; 9759; 9839; 9920; 9999; 10079; 10158; 10237; 10315; 10393; 10470; 10547; 10624; 10700; 10776; 10852; 10927; 11002; 11076; 11150; 11223; 11296; 11369; 11441; 11513;
   11584; 11655; 11725; 11795; 11865; 11934; 12003; 12071; 12139; 12206; 12273; 12339; 12405; 12470; 12535; 12600; 12664; 12727; 12790; 12853; 12915; 12977; 13038; 13098; 13158; 13218; 13277; 13336; 13394; 13452; 13509; 13565;
   13621; 13677; 13732; 13787; 13841; 13894; 13947; 14000; 14052; 14103; 14154; 14204; 14254; 14303; 14352; 14400; 14448; 14495; 14542; 14588; 14633; 14678; 14722; 14766; 14810; 14852; 14894; 14936; 14977; 15017; 15057; 15097;
   15135; 15174; 15211; 15248; 15285; 15321; 15356; 15391; 15425; 15458; 15491; 15524; 15556; 15587; 15618; 15648; 15677; 15706; 15734; 15762; 15789; 15816; 15841; 15867; 15892; 15916; 15939; 15962; 15984; 16006; 16027; 16048;
   16068; 16087; 16106; 16124; 16141; 16158; 16174; 16190; 16205; 16220; 16233; 16247; 16259; 16271; 16283; 16293; 16304; 16313; 16322; 16330; 16338; 16345; 16352; 16358; 16363; 16367; 16371; 16375; 16378; 16380; 16381; 16382;
   16383; 16382; 16381; 16380; 16378; 16375; 16371; 16367; 16363; 16358; 16352; 16345; 16338; 16330; 16322; 16313; 16304; 16293; 16283; 16271; 16259; 16247; 16233; 16220; 16205; 16190; 16174; 16158; 16141; 16124; 16106; 16087;
   16068; 16048; 16027; 16006; 15984; 15962; 15939; 15916; 15892; 15867; 15841; 15816; 15789; 15762; 15734; 15706; 15677; 15648; 15618; 15587; 15556; 15524; 15491; 15458; 15425; 15391; 15356; 15321; 15285; 15248; 15211; 15174;
   15135; 15097; 15057; 15017; 14977; 14936; 14894; 14852; 14810; 14766; 14722; 14678; 14633; 14588; 14542; 14495; 14448; 14400; 14352; 14303; 14254; 14204; 14154; 14103; 14052; 14000; 13947; 13894; 13841; 13787; 13732; 13677;
   13621; 13565; 13509; 13452; 13394; 13336; 13277; 13218; 13158; 13098; 13038; 12977; 12915; 12853; 12790; 12727; 12664; 12600; 12535; 12470; 12405; 12339; 12273; 12206; 12139; 12071; 12003; 11934; 11865; 11795; 11725; 11655;
   11584; 11513; 11441; 11369; 11296; 11223; 11150; 11076; 11002; 10927; 10852; 10776; 10700; 10624; 10547; 10470; 10393; 10315; 10237; 10158; 10079; 9999; 9920; 9839; 9759; 9678; 9597; 9515; 9433; 9351; 9268; 9185;
   9101; 9018; 8934; 8849; 8764; 8679; 8594; 8508; 8422; 8336; 8249; 8162; 8075; 7987; 7899; 7811; 7722; 7634; 7545; 7455; 7365; 7276; 7185; 7095; 7004; 6913; 6822; 6730; 6639; 6547; 6454; 6362;
   6269; 6176; 6083; 5989; 5896; 5802; 5708; 5613; 5519; 5424; 5329; 5234; 5139; 5043; 4947; 4851; 4755; 4659; 4562; 4466; 4369; 4272; 4175; 4078; 3980; 3883; 3785; 3687; 3589; 3491; 3393; 3294;
   3196; 3097; 2998; 2899; 2800; 2701; 2602; 2503; 2403; 2304; 2204; 2105; 2005; 1905; 1805; 1705; 1605; 1505; 1405; 1305; 1205; 1104; 1004; 904; 803; 703; 603; 502; 402; 301; 201; 100;
   0; (-100); (-201); (-301); (-402); (-502); (-603); (-703); (-803); (-904); (-1004); (-1104); (-1205); (-1305); (-1405); (-1505); (-1605); (-1705); (-1805); (-1905); (-2005); (-2105); (-2204); (-2304); (-2403); (-2503); (-2602); (-2701); (-2800); (-2899); (-2998); (-3097);
   (-3196); (-3294); (-3393); (-3491); (-3589); (-3687); (-3785); (-3883); (-3980); (-4078); (-4175); (-4272); (-4369); (-4466); (-4562); (-4659); (-4755); (-4851); (-4947); (-5043); (-5139); (-5234); (-5329); (-5424); (-5519); (-5613); (-5708); (-5802); (-5896); (-5989); (-6083); (-6176);
   (-6269); (-6362); (-6454); (-6547); (-6639); (-6730); (-6822); (-6913); (-7004); (-7095); (-7185); (-7276); (-7365); (-7455); (-7545); (-7634); (-7722); (-7811); (-7899); (-7987); (-8075); (-8162); (-8249); (-8336); (-8422); (-8508); (-8594); (-8679); (-8764); (-8849); (-8934); (-9018);
   (-9101); (-9185); (-9268); (-9351); (-9433); (-9515); (-9597); (-9678); (-9759); (-9839); (-9920); (-9999); (-10079); (-10158); (-10237); (-10315); (-10393); (-10470); (-10547); (-10624); (-10700); (-10776); (-10852); (-10927); (-11002); (-11076); (-11150); (-11223); (-11296); (-11369); (-11441); (-11513);
   (-11584); (-11655); (-11725); (-11795); (-11865); (-11934); (-12003); (-12071); (-12139); (-12206); (-12273); (-12339); (-12405); (-12470); (-12535); (-12600); (-12664); (-12727); (-12790); (-12853); (-12915); (-12977); (-13038); (-13098); (-13158); (-13218); (-13277); (-13336); (-13394); (-13452); (-13509); (-13565);
   (-13621); (-13677); (-13732); (-13787); (-13841); (-13894); (-13947); (-14000); (-14052); (-14103); (-14154); (-14204); (-14254); (-14303); (-14352); (-14400); (-14448); (-14495); (-14542); (-14588); (-14633); (-14678); (-14722); (-14766); (-14810); (-14852); (-14894); (-14936); (-14977); (-15017); (-15057); (-15097);
   (-15135); (-15174); (-15211); (-15248); (-15285); (-15321); (-15356); (-15391); (-15425); (-15458); (-15491); (-15524); (-15556); (-15587); (-15618); (-15648); (-15677); (-15706); (-15734); (-15762); (-15789); (-15816); (-15841); (-15867); (-15892); (-15916); (-15939); (-15962); (-15984); (-16006); (-16027); (-16048);
   (-16068); (-16087); (-16106); (-16124); (-16141); (-16158); (-16174); (-16190); (-16205); (-16220); (-16233); (-16247); (-16259); (-16271); (-16283); (-16293); (-16304); (-16313); (-16322); (-16330); (-16338); (-16345); (-16352); (-16358); (-16363); (-16367); (-16371); (-16375); (-16378); (-16380); (-16381); (-16382);
   (-16383); (-16382); (-16381); (-16380); (-16378); (-16375); (-16371); (-16367); (-16363); (-16358); (-16352); (-16345); (-16338); (-16330); (-16322); (-16313); (-16304); (-16293); (-16283); (-16271); (-16259); (-16247); (-16233); (-16220); (-16205); (-16190); (-16174); (-16158); (-16141); (-16124); (-16106); (-16087);
   (-16068); (-16048); (-16027); (-16006); (-15984); (-15962); (-15939); (-15916); (-15892); (-15867); (-15841); (-15816); (-15789); (-15762); (-15734); (-15706); (-15677); (-15648); (-15618); (-15587); (-15556); (-15524); (-15491); (-15458); (-15425); (-15391); (-15356); (-15321); (-15285); (-15248); (-15211); (-15174);
   (-15135); (-15097); (-15057); (-15017); (-14977); (-14936); (-14894); (-14852); (-14810); (-14766); (-14722); (-14678); (-14633); (-14588); (-14542); (-14495); (-14448); (-14400); (-14352); (-14303); (-14254); (-14204); (-14154); (-14103); (-14052); (-14000); (-13947); (-13894); (-13841); (-13787); (-13732); (-13677);
   (-13621); (-13565); (-13509); (-13452); (-13394); (-13336); (-13277); (-13218); (-13158); (-13098); (-13038); (-12977); (-12915); (-12853); (-12790); (-12727); (-12664); (-12600); (-12535); (-12470); (-12405); (-12339); (-12273); (-12206); (-12139); (-12071); (-12003); (-11934); (-11865); (-11795); (-11725); (-11655);
   (-11584); (-11513); (-11441); (-11369); (-11296); (-11223); (-11150); (-11076); (-11002); (-10927); (-10852); (-10776); (-10700); (-10624); (-10547); (-10470); (-10393); (-10315); (-10237); (-10158); (-10079); (-9999); (-9920); (-9839); (-9759); (-9678); (-9597); (-9515); (-9433); (-9351); (-9268); (-9185);
   (-9101); (-9018); (-8934); (-8849); (-8764); (-8679); (-8594); (-8508); (-8422); (-8336); (-8249); (-8162); (-8075); (-7987); (-7899); (-7811); (-7722); (-7634); (-7545); (-7455); (-7365); (-7276); (-7185); (-7095); (-7004); (-6913); (-6822); (-6730); (-6639); (-6547); (-6454); (-6362);
   (-6269); (-6176); (-6083); (-5989); (-5896); (-5802); (-5708); (-5613); (-5519); (-5424); (-5329); (-5234); (-5139); (-5043); (-4947); (-4851); (-4755); (-4659); (-4562); (-4466); (-4369); (-4272); (-4175); (-4078); (-3980); (-3883); (-3785); (-3687); (-3589); (-3491); (-3393); (-3294);
   (-3196); (-3097); (-2998); (-2899); (-2800); (-2701); (-2602); (-2503); (-2403); (-2304); (-2204); (-2105); (-2005); (-1905); (-1805); (-1705); (-1605); (-1505); (-1405); (-1305); (-1205); (-1104); (-1004); (-904); (-803); (-703); (-603); (-502); (-402); (-301); (-201); (-100)].
Definition sin_table (p : Z) : Z := nth (Z.to_nat p) sin_list 0.

(** styles/stripes.h:53-55 one color's part of a channel *)
Definition add_part (w acc c : Z) : Z := clampi32 (acc + Z.shiftr (c * w) 14) 0 65535.
(** styles/stripes.h:49-58 StripesHelper::get *)
Fixpoint stripe_get (cs : list color) (p : Z) (acc : color) : color :=
  match cs with
  | [] => acc
  | c :: rest =>
    let acc := if (0 <? p) && (p <? 512) then map2 (add_part (sin_table p)) acc c else acc in
    stripe_get rest (p - 341) acc
  end.
(** styles/stripes.h:85-94 StripesBase::run.  [None]: int overflow or division by zero.
    The state is (m, time of the last run); the result also has mult_. *)
Definition stripes_run (n : Z) (m last : Z) (now width speed : Z) : option (Z * Z * Z) :=
  let delta := to_int (now - last) in
  match imul delta speed with
  | None => None
  | Some ds =>
    match iadd m (Z.quot ds 333) with
    | None => None
    | Some m1 => if width =? 0 then None
                 else Some (MOD m1 (n * 341 * 1024), now, u32 (Z.quot 51200000 width))
    end
  end.
(** styles/stripes.h:97: where LED [led] is in the pattern *)
Definition stripe_pos (n m mult led : Z) : Z := Z.shiftr (u32 (m + led * mult)) 10 mod (n * 341).
(** styles/stripes.h:95-104 StripesBase::getColor *)
Definition stripes_color (cs : list color) (m mult led : Z) : color :=
  let n := Z.of_nat (length cs) in
  let p := stripe_pos n m mult led in
  stripe_get cs (p + 341 * n) (stripe_get cs p (Color 0 0 0)).

(** styles/stripes.h:60-76 StripesHelper::hardGet for a pixel 0 .. [size]; weights are
    uint32_t and so are the products. *)
Definition add_hard (w acc c : Z) : Z := clampi32 (to_int (acc + Z.shiftr (u32 (c * w)) 14)) 0 65535.
Fixpoint hard_get (cs : list color) (size p md : Z) (acc : color) : color :=
  match cs with
  | [] => acc
  | c :: rest =>
    let w := stripes (Range 0 size) (Range p (p + 341)) md in
    if w =? 0 then hard_get rest size (p + 341) md acc
    else if w =? size then c
    else hard_get rest size (p + 341) md (map2 (add_hard (u32 (w * 16384) / size)) acc c)
  end.
(** styles/stripes.h:113-123 HardStripesBase::getColor *)
Definition hard_color (cs : list color) (m mult led : Z) : color :=
  let n := Z.of_nat (length cs) in
  hard_get cs (Z.shiftr mult 10) (stripe_pos n m mult led) (n * 341) (Color 0 0 0).
