# Formal model of ProffieOS: design

## Technique and layout

The code in /repo is C++ for microcontrollers.  Nothing of it is compiled or run
here: it was read as text and re-expressed as small total computable functions in
Gallina, one area per group of files:

* `XModel.v`  – the model: definitions only, each with a comment citing file and
  lines in /repo and the simplifications made.  No proofs.
* `XSpec.v`   – a small specification, written from the English property and not
  from the code (only where the statement needs one; short specs live at the top
  of the `XProps.v` file).
* `XProofs.v` – lemmas.
* `XProps.v`  – the theorems, named `C<nn>_...`, each proved by `exact` of a
  lemma, with an `Example` beside it showing a non-trivial case that meets its
  hypotheses, and `Print Assumptions` of every theorem.

Conventions: all integers are `Z`; machine widths are explicit (`mod 2^32` where
the code wraps and the property cares); C strings are lists of `Z` codes without
the terminating 0; memory that may be overrun is a list with checked indices and
an explicit error outcome; loops are fuelled, running out of fuel is a distinct
error value and the theorems exclude it.

A property that is false of the code is proved *false* (`..._refuted`, a concrete
witness by computation) and, where useful, a weaker true property is proved next
to it.  Those are findings, listed below.

## Trusted base

* Coq 8.16.1's kernel (and `coqchk`).
* Axioms: none.  `Print Assumptions` is run on every theorem at the end of each
  `XProps.v`; each answers "Closed under the global context".  (A checker that
  walks over all loaded libraries also meets seven constants of the standard
  library's `Coq.ssr.ssrunder.Under_rel`; they come in with `lia`'s dependencies
  and no theorem depends on them.)
* The hand translation from C++ to Gallina (checked by reading, by the citation
  comments, and by the seeded-bug experiments in `seeded/LOG.jsonl`).
* What the model leaves out, listed under "Modelled and not modelled".

## Plan per property

| id | modelled | proof |
|----|----------|-------|
| C01 | file_reader.h writer/validator/selector at byte level on two in-place-overwritten files; crash = any prefix of the byte writes | invariant by induction over histories: newest valid file is never the one being overwritten; header written last, twice |
| C02 | CheckSummer as fold over bytes mod 2^32 | 997 odd, so the step is a bijection of the state: difference propagates |
| C03 | write_key_value escapes, skipspace, readString | round trip by induction on the value |
| C04 | CurrentPreset::Write / Read on byte lists | round trip by induction on the preset list |
| C05 | SaveAtLocked's copy loop over a list of presets | induction, against "remove the n-th, insert at position" |
| C06 | decimal printing and readIntValue with 32-bit wrap | induction on digits |
| C07 | ConfigFile::Read over a byte list | refinement to a line-based spec |
| C08 | ArgParser::GetArg / Shift over char lists | refinement to split-into-words |
| C09 | StyleParser::SetArgument | words-level law |
| C10 | CopyArguments' buffer arithmetic | refutation by computation, conditional correctness |
| C11 | DefaultArgumentParserWrapper | corollary of C08, induction on wrapper nesting |
| C12 | BitSet as bit array | direct, induction on SIZE |
| C13 | StringPiece::cmp | order laws by induction; refutation of >= |
| C14 | startswith, endswith, FirstWord | iff with list prefix/suffix |
| C15 | format_pattern / match_pattern | round trip |
| C16 | Cyclint as Z mod 2^32 with signed view | arithmetic |
| C17 | MOD, clamps | arithmetic |
| C18 | my_sqrt loop | Newton iteration invariant |
| C19 | Range and stripes | counting by induction |
| C20 | CircularBuffer with wrapping counters | refinement to a queue |
| C21 | producer/consumer step machine | invariant over all interleavings |
| C22 | SoundQueue | refinement to bounded queue |
| C23 | Color mix | nonlinear arithmetic |
| C24 | byte order encodings | finite check of orders, all colors |
| C25 | paint-over operators | arithmetic bounds |
| C26 | PushEffect / GetEffects | invariant over histories, refinement to an unbounded log |
| C27 | OneshotEffectDetector | history invariant |
| C28 | BladeSet, TurnOn/TurnOff | refinement to a set per history |
| C29 | DebouncedButton | invariant over sample sequences |
| C30 | ButtonBase | event grammar as automaton; invariant |
| C31 | LatchingButton | invariant |
| C32 | Rotary | invariant |
| C33-C35 | encoders as pulse lists, decoders as state machines | round trips from any state |
| C36 | receiver ring | refutation + the law that does hold |
| C37-C40 | PQOI codec | simulation of encoder and decoder state, induction on pixels |
| C41-C42 | Effect selection and naming | arithmetic, case analysis |
| C43 | PlayWav decode loop | chunk independence by invariant |
| C44-C45 | mixer and ramps | bounds and ranking arguments |
| C46-C47 | transitions as state machines over a clock | induction over frames |
| C48-C50 | style functions | arithmetic and history invariants |
| C51-C55 | blades | arithmetic, ring and refcount invariants, token invariant |
| C56-C58 | linked lists, LinkedPtr ring, mode stack | heap invariants |
| C59-C60 | paths | list lemmas |
| C61 | CurrentPreset operations over the saved text | refinement to a list editor, induction over operation lists |
| C62 | BoxFilter | invariant: sum equals the sum of the array |
| C63-C64 | dithering and hue rotation | arithmetic over all colors |
| C65 | motion requests with a wrapping clock | history invariant |
| C66 | EVENTID | injectivity by arithmetic |
| C67 | FastButton, FloatingButton | history invariants |
| C68 | stm32_ir.h signal() | arithmetic, induction on the pieces |
| C69 | PQOI blending | per-channel arithmetic without carries |
| C70-C73 | Trigger, Blinking, Strobe, Sequence, IntSelect, Bump | induction over frames, bounds |
| C74 | the power part of WS2811_Blade over all histories | automaton over the event trace |
| C75 | conversion of a pixel to timer pulses | bit arithmetic |
| C76 | double-buffered DMA with arbitrary timely interrupt schedules | invariant: memory holds the next stretch of the stream |
| C77 | the color ring and the queue of blades, all interleavings | refinement to a list of frames |
| C78 | clocked strips | arithmetic |
| C79 | SortedLineHelper | order lemmas, search invariant |
| C80 | monoframe.h drawing primitives on words of H bits | bitwise extensionality, induction over columns |
| C81 | glyph drawing with clipping shifts, text layout | bitwise extensionality, induction over the text |
| C82 | image load, quarter turn, in-place landscape conversion | bit matrix transposition invariant, cycle-leader permutation |
| C83 | ReadImage / FillBuffer over a file and a history of steps and redraws | invariant relating file position, counters and frame number |
| C84 | the serial parser's buffer, line splitting and word splitting over events | refinement to splitting the stream at line ends |
| C85 | the RFID state machine over characters and timeouts | invariant relating state to the message so far; xor checksum |
| C86 | SayWhole's recursion, the queue, color file names | induction over groups of three digits, evaluation of the words |
| C87 | run results and colors of styles, layers and functions | structural induction over styles; invariants over later frames |
| C88 | IgnitionDelay, RetractionDelay over frames with real times | induction over frames, modular clock |
| C89 | Pixelate's memory over a frame | induction over LEDs |
| C90, C91 | `Clash*`: prop_base's IgnoreClash, Clash, Clash2, the clash part of Loop and Event, the shock part of SB_Accel, ButtonBase::Send; the prop's handler is any function of the turn (used or not, any ignore requests). | Invariant that ties last_clash_ + clash_timeout_ to the history; induction over operations. |
| C92, C93 | `Gest*`: DoGesture, DetectTwist, DetectShake, DetectSwing; motion values are integers in thousandths. | Invariant that ties each of the five strokes to calls of the history; soundness by it, completeness by following clean movements through the five slots. |
| C94–C97 | `Power*`: prop_base's On, FastOn, Off, SetPreset, chdir, SetMute and lock commands, saber.h's lockup and mute buttons, SaberBase's TurnOn/TurnOff, HybridFont's power, hum, post-off and lockup state. | A per-blade automaton over effects, invariants over operations. |
| C98–C102 | `Shot*`: blaster.h and detonator.h, with prop_base's Event and button_base's Send, on top of `Power*`. | Automata over effects tied to the state by an invariant; the history before an explosion is split by induction. |
| C103–C105 | `Keep*`: CurrentPreset with its cached iteration and file extension, both preset files as abstract files (contents are in `Preset*`/`Config*`), prop_base's preset functions and commands, preset_modes.h. A cut save may leave any mixture of old and new presets in the file being written, but not one with a valid checksum. | Refinement to plain lists; the invariant says that the cache, if valid, names the newest valid file. |
| C106–C108 | `Amp*`: Amplifier, Booster and SDCard with their state machines (program counter and sleep_until_), the 32-bit millis(), delays inside Enable and Mount; loop functions are called at any times. Whether sounds play, blades are on etc. are inputs. | Invariants over histories; switching off by a rank that decreases at each call made after the sleep. |
| C109, C110 | `Work*`: AudioStreamWork::ProcessAudioStreams with BufferedAudioStream's fill levels; sources answer reads with any numbers of samples. First as a function, then as a machine that interrupts may stop between any two of its steps (a FillBuffer call is one step). | A measure of the reads still needed decreases in each round; invariant on flag, queue and phase; refinement of the uninterrupted machine to the function. |
| C111, C112 | `Batt*`: BatteryMonitor's loop as a state machine with 32-bit micros(), voltages as rationals, the averaging weight any number from 0 to 1; CheckLowBattery; SetLoad as called by simple_blade.h. | Invariants over histories; the count of low readings is the length of the newest run of low readings. |
| C113, C114 | `Led*`: DriveLogic and ColorSelector over rationals, all LEDs of leds.h, LSanalogWrite's shift. The specification is Ohm's law for the LED and its resistor. | Algebra over Q. |
| C115, C116 | `Lamp*`: Simple_Blade's power state, PWM pins and the use counts of timers (8 bits wide), for any blades and any assignment of pins to timers. | Invariant over histories: the count of a timer is the number of pins up on it, and for the synchronising timer also the number of other timers that run. |
| C117, C118 | `Ident*`: blade_id.h's arithmetic over rationals, FindBestConfig, FindBlade, FindBladeAgain, scanning and polling as a state machine; the specification has the nearest resistor and the latest detection. | Characterisation of the search; invariant that exactly the current configuration's blades are active; the pending flag is true exactly if a scan found another configuration. |
| C119, C120 | `Hilt*`: three buttons' loops (the positions of ButtonModel), current_modifiers, PropBase::Event and saber.h's Event2, On, Off, SetMute, Clash2 as one state machine; what the prop does is a list of actions. The specification is the table in saber.h's header comment. | Invariant over histories (modifiers only of pressed buttons, a lockup only while a button is down, muted = to be unmuted); runs of reads are summarised by phases. |
| C121, C122 | `Dial*`: Angle, SmoothBase, SmoothWraparoundMode, SmoothMode (for any get and set), SteppedModeBase's loop. Angles are rationals with half a turn = 16384, so pi never appears. The specification says how far the hilt was turned; the sensor reading is that modulo a turn. | The model's angle is the rotation modulo a turn (unique representative in a half-open turn); for stepping, the distance between the hilt and the menu position stays within the reach. |
| C123, C124 | `Edit*`: the stack of style editing menus with the members of its singleton modes, on a table of style texts (preset, blade). GetArgInfo is the list of questions asked by make(); the argument dials are those of `Dial*`, the lists those of `Mode*`, the text functions those of `Style*`. Undefined behaviour (a blade number outside the table, a bit past the set, text that ends early) is `None`. | The stack always has one of seven shapes and below an open argument the argument is one the style asks for, so C09's round trip applies; setting it leaves the set of arguments alone. Copying by C10. |
| C125, C126 | `Bus*`: the pointers current_i2c_device, last_i2c_device and next as a heap; each region with interrupts off is a step, the call of the next device's RunLocked is a step of its own. I2CBus's loop with its program counter and 32-bit times. The specification is a list of device numbers. | Simulation: head, last and next of the list are the pointers, in every reachable state; order and exclusion are then proved of the list by induction over histories. Wrapping: age modulo 2^32. |
| C127, C128 | `Swing*`: SmoothSwingV2 with its two Data and the events it sends to players, hum and hybrid font. Rationals for floats; powf and the filtered speed are given; the while loop has fuel, running out of it is `None`. The specification is a plan: the endless alternating list of transitions, and the part of a sound after a number of degrees. | Invariant: A and B are the plan with the first k transitions dropped and the angle subtracted. Smoothness by induction on the transitions passed. Termination: every two swaps add the sum of the separations. Histories by invariants on the state and the players. |
| C129, C130, C131 | `Blend*`: MixHelper with its tree of templates, Mix, Gradient, Remap, RampF, ColorSequence, ColorSelect, Stripes and HardStripes with the whole sine table, in 32-bit arithmetic with overflow and division by zero as outcomes. The specification places the colors 32768 apart on a line, and the stripes 341 apart on a circle. | The tree is indexing with clamping, by induction; stripes by induction over the colors; times by induction over histories; the sine table by computation. |
| C132–C135 | `Spark*`: SparkleF with its array and 16-bit arithmetic, BlastF (floats as rationals) and BlastFadeoutF, SlowNoise, BrownNoiseF, RandomBlinkF, OnSparkF, TimeSinceEffect, EffectLocation::rnd. Random numbers and times are inputs. | Total heat is at most 1024/54 of the intensity, by induction over histories; blasts by induction over the effects; times by an invariant that relates the 32-bit time kept to the true one. |
| C136 | `Beep*`: the whole of sound/beeper.h (floats as rationals, the circular buffer as a bounded FIFO, proved in C20). | A read of n samples gives the first n samples of the song the queue stands for and leaves a queue that stands for the rest, by induction over the samples. |
| C137, C138 | `Tune*`: ChangeBladeLengthBlade1 with the part of prop_base.h that stores, saves and reads lengths; SteppedVariationMode with the variation and color change mode of SaberBase; SmoothClashThresholdMode (powf exact), TopMenuWrapper, bool_setting.h. | Induction over the steps; squares and halving for the thresholds. |
| C139 | `Pov*`: the coder of pov_tools/rle.h, the tables of pgmtorle.cc, pnmtorle.cc and pnmquantizedtorle.cc, styles/pov.h with rational angles. | Invariant of the encoder: what is written is a row of pieces meaning what was read, the growing literal piece last; prefixes of the blob. |
| C140, C141 | `Sync*`: functions/alt.h with the alternatives of effect.h and hybrid_font.h; length_finder.h, the loop of style_ptr.h, blade_shortener.h, rgb_cycle.h. | Cases of one turn, induction over histories; lists of writes. |
| C142 | `Extra*`: common/extrapolator.h. | The sums of the incremental line as totals over the window; an invariant over pushes and queries with the ring, the anchor time and the cached line. |
| C143 | `Adc*`: the AnalogReader of common/analog_read.h (STM32L4) with the converter, and AnalogReadPinSVF. | Invariant: nobody reads, or exactly one reader does and the converter is set for it; what a reader sees since its start, by induction over the schedule. |
| C144 | `Dac*`: the ring, DMA and interrupt of sound/dac.h. | Induction over halves; one half, with the interrupt anywhere in it, swaps the two halves. |
| C145 | `Wave*`: TrWaveX and TrSparkX of transitions/wave.h on the TransitionBaseX of TransModel. | Invariant over the frames (start, length, centre and size are those of the first); then arithmetic of one LED. |
| C146 | `Wave*`: TrColorCycleX of transitions/colorcycle.h, floats as rationals. | The arc as one or two ranges; counting units; floors of the two ends differ by the length; induction over frames for the turns. |
| C147 | `Pool*`: RefPtr of common/ref.h, the functions of sound/sound.h that give out players, the counts of buffered_wav_player.h. | Invariant: each count is the number of variables that point there; induction over the operations. |
| C148 | `Scr*`: SCRReader of display/layer_controller.h, from characters to calls of the layers; refills of its buffer are not steps. | The text of a list of directives is read back line by line and run as the directives are; induction over the list, and over any text for the layers told. |
| C149 | `Stat*`: StatusLED of common/status_led.h. | Invariants over any sequence of loops and requests; the round's start is followed through a fold over the times of the loops. |
| C150 | `Osc*`: functions/sin.h, with the table of common/sin_table.h as in BlendModel. | Each call adds to the position, up to whole turns; induction over the frames, then equal places in [0, 1) have equal values. |
| C151 | `Bfr*`: BufferedFileReader of display/layer_controller.h under any schedule. | Invariant: the buffer is the part of the file at the reader's place, and the file's position is behind it; induction over the schedule. |

## Modelled and not modelled

Each model file names the lines it covers in its comments.  By directory of /repo:

| directory | modelled | not modelled |
|-----------|----------|--------------|
| common | analog_read (STM32L4), arg_parser, bitset, box_filter, circular_buffer, color, command_parser (SortedLineHelper), config_file, current_preset, cyclint, events, extrapolator, file_reader (text, checksummed files), i2cbus (not Teensy) and i2cdevice (locking), linked_ptr, looper, lsfs (PathHelper, mkdir), math, range, ref, saber_base (effects, blade sets, lockup, motion requests), booster, sd_card (mounting), battery_monitor, serial (command lines, RFID), status_led, stdout (line helpers), string_piece, strfun, typelist, ProffieOS.ino current directories | hardware drivers (the I2C devices, fusor, serial flash, SD transport), scoped timers, logging, the state machine macros as such (a model of a StateMachine class has an explicit program counter) |
| blades | ws2811_blade, blade_id, simple_blade, pwm_pin (STM32L4), drive_logic, leds, stm32l4_ws2811, spiled_pin, sub_blade, dim_blade, power_pin | monopodws, teensy and ESP32 drivers |
| buttons | debounced_button, button_base, latching_button, fast_button, floating_button, rotary | touch and potentiometer inputs |
| styles | style_parser, blade_style, layers, alpha, inout_helper, inout_sparktip, transition_effect, transition_pulse, remap, rotate_color, byteorder, ignition_delay, retraction_delay, color_cycle and cylon (fading, off), fire, pixelate, mix, gradient, sequence, color_select, stripes, pov, length_finder, blade_shortener, rgb_cycle, style_ptr (the loop) | the colors of most other style templates; the functions and transitions they are built from are modelled |
| functions, transitions | the integer ones (see FuncModel, TransModel); sparkle, blast, brown_noise, random_blink, on_spark, time_since_effect (SparkModel), alt (SyncModel), readpin (AdcModel), wave and colorcycle (WaveModel), sin (OscModel) | those using floating point (except blast.h, colorcycle.h, sin.h) |
| sound | effect, playwav, dynamic_mixer, click_avoider_lin, volume_overlay, buffered_audio_stream, sound_queue, sound_library (numbers), hybrid_font (on, off, hum, lockup states), amplifier, audio_stream_work, smooth_swing_v2, dac (the ring and its interrupt), sound (giving out players) | smooth swing V1, the volumes and swing sounds of hybrid_font, DAC registers, SPDIF and I2S outputs, filter |
| ir | ir, nec, rc6, blaster, receiver, stm32_ir | print, the timers behind them |
| pov_tools | rle, the tables of pgmtorle, pnmtorle, pnmquantizedtorle | reading images, gamma, pnmwindshieldwiper, pov_renderer |
| pqoi | all but the reduction of colors to 16 bit and the file header | |
| display | monoframe (drawing, text, conversion), ssd1306 (ReadImage, FillBuffer, ConvertToNative), layer_controller (reading screen files; the buffered reader) | fonts' data, the I2C and SPI transport, the RGB565 layers themselves |
| modes | mode, menu_base, menu_list, select from list, preset_modes (what its entries do to the presets), smooth_mode, stepped_mode, style_option_modes, style_argument_helpers, ColorSelectMode with its default and save entries | the other menus |
| props | chdir, preset selection and saving (via current_preset); prop_base's clash, stab, twist, shake and swing detection, its power, lockup and mute functions | the event handlers of the individual props (saber.h: without latching buttons, blade detection and the menus of MENU_SPEC_TEMPLATE; blaster.h and detonator.h: all but sounds and tracks); floats of motion values are integers in thousandths |

Throughout: interrupts are steps that may come between any two steps named in the
model, not between the machine instructions of one step; memory is sequentially
consistent; `int` is 32 bits; undefined behaviour (overflow, out of bounds,
division by zero, null) is an explicit failing outcome where a property is about
it, and otherwise excluded by a hypothesis of the theorem; uninitialised memory
is an arbitrary value.

## Findings

Behaviour of the code that contradicts what a user would rely on.  Those with a
theorem name are proved of the model.

* Saving: preallocation restarts at offset 0, so after two crashes before the first completed save a boot loads a mixture (`C01_first_save_refuted`); even after a completed save, a crash in the second header copy (24 bytes unstored), one in the first copy (39 bytes unstored) and one in the text can, with two checksum coincidences, leave a mixture that is loaded (`C01_mixture_refuted`, witness in SaveWitness.v; `C01_atomic` and `C01_atomic_equal_length` give the conditions under which this cannot happen); WriteToDir without a prior read can be shadowed by the other file.
* Config files: a bare word or an empty value swallows the next line (`C07_word_line_refuted`, `C07_empty_value_refuted`); negative decimals are written wrongly (`C06_negative_float_refuted`); reading a missing file "succeeds".
* Presets: more style lines than NUM_BLADES overflow the array; SaveAt beyond the end drops the preset; Load(0) of an empty list returns true without loading; Set with a negative remainder reads outside the array.
* Style strings: a trailing blank misplaces arguments set later, argument 0 or an unknown style uses an uninitialised buffer, 512 bytes are not checked (`C09_trailing_blank_refuted`, `C09_overflow_refuted`); CopyArguments(from,to,n) overflows its buffer (`C10_CopyArgumentsAfter_refuted`) and shifts positions (`C10_CopyArgumentsAfter_position_refuted`); match_pattern without a star divides by zero (`C15_no_star_refuted`); StringPiece's >= is <= (`C13_greater_equal_refuted`); BitSet::nth past the last member reads outside the array (C12).
* Numbers: my_sqrt overflows for large ints (`C18_sqrt_all_ints_refuted`); far stripes wrap (`C19_far_stripe_refuted`).
* Queues and filters: BoxFilter::clear skips index 0 (`C62_clear_refuted`); SoundQueue's fade length is a bool and its members start uninitialised; the AudioStreamWork destructor dereferences null after the last element left; PROFFIEOS_BUFFER_WRITES is never defined.
* Colors: mix_clamped turns full into 0 (`C23_mix_clamped_refuted`); invert and combine shift by negative amounts for RGBW orders (`C24_rgbw_refuted`); the RGBA conversion premultiplies twice (`C25_conversion_refuted`).
* Effects: unqueried for 71 minutes they become young again (`C26_stale_refuted`); two matching effects in one microsecond with a poll in between lose the second (`C27_same_time_refuted`).
* Buttons: releases are not debounced (`C29_release_refuted`); slow polls repeat hold events (`C30_slow_polls_refuted`); the rotary counter wraps at 8 bits, oscillates with one step per detent, and its interrupts are never attached (`C32_wrap_refuted`, `C32_one_step_refuted`); BUTTON_NONE and BUTTON_POWER share event ids.
* Infrared: the receiver's slots are offset by one (`C36_lag_refuted`), a 16th waiting event overwrites the oldest (`C36_overflow_refuted`), RC6 depends on the pause length (`C34_pause_refuted`), the transmitter may move data under the running DMA, and us*38000 overflows above 0.113 s.
* Images: AlphaDecoder's tmp[64] overruns (`C39_alpha_refuted`), the plain decoder ignores input_end (`C39_input_end_refuted`), the alpha encoder reads one alpha past the row.
* Sound files: digits are tested against 0 instead of '0'; two files may repeat (`C41_two_refuted`); selecting past the end sticks (`C41_past_end_refuted`); naming corners `C42_extension_refuted`, `C42_stray_refuted`, `C42_sub_digits_refuted`, `C42_above_127_refuted`.
* Wav playing: the last frame is never played; loud samples overflow the upsampler (`C43_loud_refuted`); odd chunks are not padded (`C43_padding_refuted`); a huge chunk length hangs the interrupt (`C43_hang_refuted`).
* Mixing: nine full-scale streams overflow at some volumes (`C44_volume_refuted`); set_volume_now truncates to 16 bits (`C45_now_refuted`).
* Transitions: long fades and wipes wrap in 32 bits; TrBlink ends on the old color; TrLoopN runs N+1 times for composite parts; TrSequence starts at an arbitrary entry; TrSmoothFade may step back by one; unrun for 49 days they restart (`C46_long_refuted`, `C46_blink_refuted`, `C46_smooth_refuted`, `C47_loop_refuted`, `C47_sequence_first_refuted`).
* Functions: `C48_scale_refuted`, `C48_smooth_end_refuted`, `C48_smooth_monotone_refuted`, `C49_negative_refuted`, `C50_stall_refuted`, `C50_plateau_refuted`, `C70_gap_refuted`, `C71_doc_refuted`, `C72_negative_refuted`, `C73_falling_refuted`.
* Blades: partial zig-zag rows (`C51_partial_row_refuted`), first_led unchecked (`C51_first_unchecked_refuted`), BarBack with BRG/GBR (`C51_barback_rotated_refuted`); power pins wrap at 256 users (`C53_256_refuted`) and do not count unshared users (`C53_plain_refuted`); `C54_stuck_refuted`, `C54_power_up_refuted`, `C54_unset_refuted`, `C74_race_refuted`; DimBlade does not dim overdrive.
* Pixel output: strips that just fit the DMA buffer get a stale last pixel (`C76_last_pixel_refuted`) or last bit (`C76_last_bit_refuted`); on proxied pins one bit per half buffer is wrong because a word pointer is used as a byte pointer (`C76_proxy_refuted`); clocked strips go black at the top of every brightness band (`C78_dark_refuted`).
* Display: ClearRect clears all rows above its rectangle too (`C80_clear_rect_refuted`), FlipY of 64 rows is undefined (`C80_flip_64_refuted`); character 127 reads past the font (`C81_delete_refuted`), lines below the screen shift too far (`C81_below_refuted`), 64-bit glyphs are never drawn (`C81_tall_refuted`); images as wide as the screen is high are never turned (`C82_portrait_refuted`); redrawing the first frame of an animation after a file with fewer frames shows the file header (`C83_redraw_refuted`).
* Lists and pointers: linking twice, relinking from a loop, unlinking a neighbour (`C56_double_link_refuted`, `C56_relink_refuted`, `C56_relink_endless_refuted`, `C56_neighbour_refuted`); LinkedPtr = plain pointer leaves stale links (`C57_raw_refuted`); ref.h's != is ==.
* Modes and menus: popping the outermost mode (`C58_outermost_refuted`), pushing one twice (`C58_twice_refuted`), empty menus (`C58_empty_refuted`); sorted menus lose their last line or show empty lines (`C79_last_refuted`, `C79_duplicates_refuted`, `C79_high_refuted`, `C79_shift_refuted`).
* Paths: mkdir of absolute paths (`C59_absolute_refuted`), Dirname of a bare name (`C59_no_slash_refuted`), overflow (`C59_append_refuted`, `C60_long_refuted`), an empty entry ends the directory list (`C60_empty_refuted`).
* Serial: memory running out within a line runs the rest of it as a command (`C84_too_long_refuted`); a stray start byte loses the RFID message after it (`C85_restart_refuted`).
* Speech: negative numbers select negative sounds (`C86_negative_refuted`).
* Switching off: LinearSectionF off the center claims to cover the blade (`C87_linear_refuted`); Cylon tests its off color instead of its background, and passes the on speed as the off speed (`C87_cylon_refuted`); a spark tip with a pulsing extension and StaticFire let the blade be switched off while they will light up again (`C87_sparktip_refuted`, `C87_fire_refuted`). A negative retraction delay never retracts (`C88_negative_refuted`). Pixelate freezes on blades no longer than a pixel (`C89_short_blade_refuted`). AlphaMixL runs its function twice per frame and divides by N+1, so its last color is never reached at 32768.
* Clashes: two clashes in one millisecond (`C90_double_refuted`); presses that do not silence (`C90_press_refuted`, `C90_counted_refuted`); vibration hides clashes for ever (`C91_hidden_refuted`); the 49.7-day wrap (`C91_wrap_refuted`).
* Gestures: the first turn after power-on is not seen (`C92_first_refuted`); one turn counts for two twists (`C92_shared_refuted`); four thrusts count for two shakes if the fifth was short (`C93_overlap_refuted`).
* Power: cancelling a second blade's ignition puts out the first without retraction (`C94_cancel_refuted`); the first of two overlapping ignitions is lost (`C94_second_refuted`); cd during the pre-on sound leaves a saber that says it is on and never lights (`C94_cd_refuted`); a preset change during it lights all blades (`C94_preset_refuted`).
* Fonts: the hum of a second blade never ends (`C95_second_refuted`); cd while lit silences the saber (`C95_cd_refuted`); null pointer in a monophonic font (`C95_crash_refuted`); post-off while lit (`C95_postoff_refuted`).
* Lockups and muting: `C96_cancel_refuted`, `C96_lightning_refuted`, `C97_set_refuted`, `C97_saved_refuted`. Also seen, not modelled: the double-click branch of saber.h for a pending ignition is never reached, since IsOn() includes it.
* Blaster: autofire uses no rounds (`C98_autofire_refuted`); a clip on a plain button disables the trigger (`C98_clip_refuted`); autofire goes on after a release with another button held (`C100_held_refuted`) or after switching off during the pre-on sound (`C100_preon_refuted`); mode clicks are dead after a low battery during autofire (`C100_stuck_refuted`); the header says it starts on with a power-on sound, it starts on without (`C102_doc_refuted`).
* Detonator: `C101_pending_refuted`, `C101_rearm_refuted`, `C101_double_refuted`.
* Inserting a preset from the menu after something was saved: not seen, dropped by the next save (`C104_insert_refuted`); after two insertions edits are written with too low an iteration and lost (`C104_lost_edit_refuted`). Deleting leaves the selection and the position wrong (`C104_selected_refuted`, `C104_after_delete_refuted`).
* A pending colour change overwrites a preset of the newly inserted blade (`C105_blade_refuted`); rotating recolours (`C105_rotate_colour_refuted`), or moves the wrong preset if nothing was saved (`C105_rotate_first_refuted`); the menu's moves do not save the position (`C105_move_refuted`).
* EnableAmplifier() without a sound, followed by a main loop that takes more than 10 ms, leaves the amplifier on for good: the loop function waits for activity with on_ set (`C106_stuck_refuted`). The amplifier then never enables the booster, so that a sound may play with the booster off (`C107_sound_refuted`).
* SLEEP compares millis() with <: a sleep that ends just before the wrap lasts 49 days if not noticed before (`C106_wrap_refuted`).
* "amp off" does not clear on_: the next sound is not heard (`C106_command_refuted`).
* With a computer connected MountSDCard() gives no grace period (`C108_usb_refuted`).
* A stream that keeps answering 0 samples without eof starves all streams with more in their buffers, as each of the 50 rounds reads the emptiest only (`C109_starved_refuted`).
* ProcessAudioStreams clears its request flag as its last step: a request in between is lost until the next one (`C110_lost_refuted`). While the card is locked, requests are dropped, and LockSD(false) makes none, its call being commented out (`C110_unlock_refuted`).
* The load flag of the battery monitor is shared by all blades: turning one of two blades off applies the limit for an idle battery to the other (`C112_two_blades_refuted`); an effect on a blade that is off sets the flag (`C112_effect_refuted`).
* `LED::SUBTRACT` with a base color that is not white takes the same amount off all three channels, which wraps below zero: an LED that should be dark gets nearly full power (`C114_subtract_refuted`).
* A NULL blade in the blades array is reported when it is first found, but the next identification (a blade put in, a scan, the command `scanid`) calls UnSetStyle through the null pointer; Deactivate, next to it, checks (`C118_null_refuted`).
* With DUAL_POWER_BUTTONS, saber.h's exchange of POWER and AUX (`if (button == BUTTON_POWER) button = BUTTON_AUX; if (button == BUTTON_AUX) button = BUTTON_POWER;`) makes both buttons POWER: there is no blaster block and POWER turns the saber off (`C120_swap_refuted`).
* A double click that turns the saber on muted, followed by a click during the preon sound, leaves the saber off but muted: Off() returns before it looks at unmute_on_deactivation_; the next ignition is silent (`C120_mute_refuted`).
* A second click of AUX within half a second blocks twice: EVENT_DOUBLE_CLICK is the press and the release is a short click again (`C120_blast_refuted`).
* If something else calls Off() between On() and the ignition while a lockup is on, the lockup stays although no button is down (`C119_let_go_refuted`).
* Off() calls ToggleColorChangeMode if the color change mode is on, but that function does nothing unless the prop is the current mode; so turning off in the menu leaves the menu open.
* Angle::fixed_with_margin does not undo Angle::fromFixedWithMargin: the first subtracts 16384*(1+margin), the second adds back 16384. So opening the volume, brightness, dimming or clash threshold setting and selecting without turning lowers it by 1 percent of the range each time (`C121_still_refuted`).
* SmoothBase's buttons add to the angle with wrap-around also in modes with ends: at full volume the button that goes up jumps to almost silent (`C121_click_refuted`).
* SelectArgSmoothMode::select and SelectArgTime::select call popMode after SmoothMode::select already did: the argument list is left too (`C123_back_refuted`).
* SelectArgTime opens its dial with the milliseconds but stores (x/32768)^2*30 s: a time opened and stored unturned changes, 1000 ms to 12 ms (`C123_time_refuted`).
* ResetColorToDefaultEntry looks up menu_current_arg without menu_arg_offset: for "builtin" styles it reads the preset number as a color and runs past its end (`C123_default_refuted`).
* SelectArgMode's position is not reset when another style is opened; if that has fewer arguments, select() calls nth() past the last one (`C123_place_refuted`).
* SelectStyleMenu::select calls CopyArguments with its arguments exchanged: the style never changes, its arguments are lost (`C124_style_refuted`). Its blade() and preset() are exchanged (`C124_place_refuted`).
* The "apply" and "reset" entries of EditStyleMenu work on menu_selected_blade instead of menu_current_blade (`C124_apply_refuted`), which is 0 before a style was selected: GetStyle(0) reads before the array (`C124_none_refuted`).
* I2CUnlock calls current_i2c_device->RunLocked() after enabling interrupts: if the new holder unlocks in between (LSM6DS3H's interrupt does after a failed poll) the pointer may be null (`C125_early_refuted`). Devices that only call I2CLock can starve (`C125_starve_refuted`).
* I2CBus::used() is true again 2^31 ms after the bus went to sleep (`C126_spurious_refuted`); the bus is shut down under a device that holds it (`C126_held_refuted`).
* SmoothSwingV2: transitions that overlap make the volumes jump (`C127_overlap_refuted`); Low2HighSeparationDegrees and High2LowSeparationDegrees of 0 hang the main loop (`C127_hang_refuted`).
* SmoothSwingV2: state OUT does not wait for the volume to reach zero: PickRandomSwing stops the players in the same call (`C128_cut_refuted`). PickRandomSwing plays the low sound on A, whose separation may be the other's after a swap (`C128_separation_refuted`). B's midpoint set at a pick is never used.
* Mix with two colors wraps around for values above 32768 or below 0 while Mix with more clamps (`C129_outside_two_refuted`); Gradient's rounding leaves the tip short of the last color (`C129_tip_refuted`) and divides by zero on one LED (`C129_one_led_refuted`); RampF does not reach 32768 at the tip, so Mix<RampF> is not Gradient as its comment says (`C129_ramp_refuted`) and its inverse does not reverse a blade through Remap (`C129_remap_reverse_refuted`).
* ColorSelect forgets how far a transition was when the selection changes again (`C130_jump_refuted`).
* Stripes: width 0 from a function divides by zero, pauses overflow (`C131_zero_width_refuted`, `C131_pause_refuted`). HardStripes hands Range::intersect_with_stripes stripes that start beyond the period, which it cannot handle (C19): the pixels where stripes meet are wrong (`C131_hard_edge_refuted`). A width above 50000 makes pixels of size 0: black (`C131_hard_wide_refuted`).
* SparkleF stores the new heat of the last LED into the last but one and clears the last (sparkle.h:42-43): `C132_tip`, `C132_tip_refuted`.
* BlastF reads blast_hump[32], one past the end (blast.h:53: `N <= 32`): `C133_edge_refuted`. A single blast peaks at 32640, not at the documented 32768 (`C133_peak_refuted`). FADEOUT_MS above 7000 is cut short (`C133_long_refuted`).
* EffectLocation::rnd() adds random(22937) to 65535 in a uint16_t (saber_base.h:219): locations are in the lower 70% of the blade instead of away from the hilt, and a draw of 0 lies at 2.0 blade lengths (`C133_where`, `C133_where_refuted`).
* RandomBlinkF divides by zero for MILLIHZ 0; SlowNoise does not take "exactly 1000" steps a second after gaps; OnSparkF wraps for fades above 131 s; TimeSinceEffect answers a small time if no effect ever happened and the clock has wrapped (`C134_blink_zero_refuted`, `C134_steps_refuted`, `C135_long_flash_refuted`, `C135_never_refuted`).
* A beep shorter than 1/44100 s is never popped from the queue: the beeper is stuck, keeps the amplifier on and plays nothing any more (`C136_stuck_refuted`). No caller in the repository asks for one.
* The clash threshold menu goes through `int` (ProffieOS.ino:703-708) although the threshold is a float and is said with decimals: it says 2.9 and sets 2; opening it and selecting without turning takes 1 G off most thresholds (`C138_said_refuted`, `C138_keep_refuted`); a quarter of the dial sets 0 G.
* TopMenuWrapper restores the volumes of the font in use when the menu was entered, even if the preset, and with it the font, was changed inside (`C138_volume_refuted`).
* The blade length menu divides by zero for a blade without LEDs, and offers a stored length that is longer than the blade (`C137_none_refuted`, `C137_fit_refuted`).
* The longest repeat the POV encoder looks for is 256 bytes, but its length is stored in one byte (rle.h:72, 89): a color image with a column of 87 or more pixels in one color makes the tool abort (`C139_color_refuted`).
* StylePOV with REPEAT and MIRROR multiplies by `fraction` where 2 is meant (pov.h:133): below its first angle the table is read before its start, and between its angles only half of the image is shown (`C139_mirror_refuted`, `C139_half_refuted`).
* StylePOV clears the blade outside its angles, but the frame then goes on to set every LED from the last column, or divides by an unset number of LEDs (`C139_dark_refuted`).
* LengthFinder tests an unsigned variation for being negative (length_finder.h:24): one step below the first LED lights the last one (`C141_down_refuted`).
* A stored blade length below -1 makes BladeShortenerWrapper set LEDs before the first (`C141_negative_refuted`).
* Extrapolator::get() before the first push divides by zero samples (extrapolator.h:71); Fusor asks only when ready().
* AnalogReadPinF loops until it has its first value (readpin.h:43-56) but lets only its own reader run: if the battery monitor has just started a conversion, which happens every millisecond, the saber hangs (`C143_hang_refuted`).
* AnalogReader has no destructor: deleting a style with AnalogReadPinF between start and end of a conversion leaves the converter taken, so the battery level is never updated again, and LoopUntilStart then uses the deleted reader (`C143_dead_refuted`).
* When the audio interrupt is held off, the last two blocks of sound repeat (`C144_stuck_refuted`).
* TrWaveX reads before blast_hump when WAVE_SIZE is negative (`C145_size_refuted`); the check against WAVE_MS zero is for the constant only (`C145_speed_refuted`).
* TrColorCycleX: when the arc is all but complete its end can fall on its start, and it then counts as empty (`C146_dark_refuted`); last_micros_ is read uninitialised at the first frame.
* RefPtr's != returns == (`C147_not_equal_refuted`).
* SCRReader never clears do_restart_: one restart line before a file line restarts what later layers and screens show already (`C148_sticky_refuted`, `C148_next_screen_refuted`).
* SCRReader drops a last line without a line end (`C148_last_refuted`).
* SCRReader compares or copies a null value on a bare "file", "time" or "A".."E" (`C148_bare_refuted`).
* SCRReader takes the characters after the 165th of a line, such as a long comment, as a new line, and does not terminate a full one (`C148_long_refuted`).
* StatusLED does not keep last_micros_ up to date while it blinks or is off, so the pulse after that begins anywhere instead of in the dark (`C149_begin_refuted`).
* PulsingF keeps a position that is not a number after one PULSE_MILLIS of 0 and looks it up in the table ever after (`C150_zero_refuted`). Also seen, not modelled (floats are rationals): with a negative RPM, fract() of a tiny negative float rounds to 1, and Sin then reads one entry past the table.
* BufferedFileReader, told to seek past the end of the file, never reports the end and has nothing to read (`C151_beyond_refuted`); a seek before the file is opened is forgotten (`C151_early_refuted`).
