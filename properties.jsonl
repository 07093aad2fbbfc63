{"id": "C01", "title": "An interrupted save never loses or mixes saved settings", "statement": "Settings saved with WriteToDir live in two alternating files. After any history of boots, completed saves and saves cut off by a power loss after any number of stored bytes, the next boot loads exactly the contents of the last completed save, or exactly the contents of the save that was cut off; it never loads a mixture and never falls back to an older save. The unconditional claim is false of the code; it holds for every history in which a first save has completed and the power losses do not hit both header copies (no loss with 21 to 27 bytes unstored, or none with 37 to 51 bytes unstored), and for every history of equally long saves wherever the power is lost. Without these conditions there are histories, using two checksum coincidences, that load a mixture.", "quantifier": "every sequence of boots, saves and interrupted saves, every saved content, every byte-granular crash point", "why_tests_cant": "the crash point ranges over every byte of every write in every history of alternating files; a test picks a handful", "anchors": [{"file": "common/file_reader.h", "symbols": ["BufferedFileWriter", "FileValidator", "FileSelector"]}, {"file": "common/config_file.h", "symbols": ["WriteToDir", "ReadINIFromDir", "TryValidator"]}]}
{"id": "C02", "title": "A single damaged byte in saved data is always detected", "statement": "If one byte of the stored data area of a save file changes to any other value, the file no longer passes checksum validation. More generally two contents of equal length that differ in exactly one byte never have the same checksum.", "quantifier": "every content, every length, every position, every replacement byte", "why_tests_cant": "lengths and positions are unbounded; the claim rests on 997 being invertible modulo 2^32", "anchors": [{"file": "common/file_reader.h", "symbols": ["CheckSummer", "FileValidator::validateChecksum"]}]}
{"id": "C03", "title": "Key/value text survives saving and loading", "statement": "For every value string, writing key=value and reading the value back yields the same string apart from leading spaces, which are dropped; newlines, tabs and backslashes inside the value survive, and reading one value never runs into the next line.", "quantifier": "every NUL-free byte string value, every following file content", "why_tests_cant": "values are arbitrary strings; only a proof covers every combination of escapes", "anchors": [{"file": "common/file_reader.h", "symbols": ["write_key_value", "readString", "skipspace"]}]}
{"id": "C04", "title": "A saved preset list reads back as the same list", "statement": "Writing any list of presets and reading the file back preset by preset yields the same fonts, tracks, styles, names and variations in the same order (leading spaces of text fields dropped), numbers them 0,1,2,... and then reports the end.", "quantifier": "every list of presets with any NUL-free text fields and any 32-bit variation", "why_tests_cant": "the list and all fields are unbounded", "anchors": [{"file": "common/current_preset.h", "symbols": ["CurrentPreset::Read", "CurrentPreset::Write", "CurrentPreset::Load"]}]}
{"id": "C05", "title": "Saving a preset at a position edits the list as documented", "statement": "SaveAt(position) removes the preset the current one was loaded from and inserts the current one at position in the remaining list; every other preset keeps its content and relative order. Position -1 deletes. With no origin (duplicate) nothing is removed. A position beyond the end of the remaining list stores the list without the current preset.", "quantifier": "every preset list, every origin number, every position", "why_tests_cant": "positions, origins and list lengths are unbounded and interact through two running counters", "anchors": [{"file": "common/current_preset.h", "symbols": ["CurrentPreset::SaveAtLocked"]}]}
{"id": "C06", "title": "Decimal integers survive being written and read", "statement": "Every 32-bit integer written in decimal and read back by the integer reader yields the same integer and stops at the first non-digit.", "quantifier": "every signed 32-bit value and every non-digit continuation", "why_tests_cant": "4 billion values times every continuation", "anchors": [{"file": "common/file_reader.h", "symbols": ["readIntValue", "write_key_value"]}]}
{"id": "C07", "title": "Reading a config file assigns exactly what the file says", "statement": "After reading a config file every variable has the value of the last line that assigns it (names compared without case), or its default if no line assigns it; comments, blank lines and unknown names change nothing, and nothing after a line 'end' is used. (For well-formed lines: a word without '=' or an empty value swallows the next line, which is a finding.)", "quantifier": "every file content, every set of variables", "why_tests_cant": "file contents are arbitrary byte strings", "anchors": [{"file": "common/config_file.h", "symbols": ["ConfigFile::Read", "SetVariable"]}, {"file": "common/file_reader.h", "symbols": ["readVariable", "skipline"]}]}
{"id": "C08", "title": "Style argument n is the n-th word of the style string", "statement": "Asking for argument n of a style string returns the n-th blank-separated word, or the supplied default when there are fewer than n words or the word starts with '~'. Shifting by k words makes argument n the former argument n+k.", "quantifier": "every string, every n, every k, every default", "why_tests_cant": "strings with arbitrary runs of spaces and tabs are unbounded", "anchors": [{"file": "common/arg_parser.h", "symbols": ["ArgParser::GetArg", "ArgParser::Shift"]}, {"file": "common/strfun.h", "symbols": ["SkipSpace", "SkipWord"]}]}
{"id": "C09", "title": "Setting one style argument changes that argument and nothing else", "statement": "After SetArgument(n, v) on a style string, reading argument n yields v, and reading any other argument yields what it yielded before.", "quantifier": "every style string, argument number and argument text", "why_tests_cant": "unbounded strings and argument counts", "anchors": [{"file": "styles/style_parser.h", "symbols": ["StyleParser::SetArgument", "StyleParser::GetArgument"]}]}
{"id": "C10", "title": "Copying style arguments writes only inside its buffer", "statement": "CopyArguments allocates a buffer for the result. The finding: the size is computed from the wrong pieces, so there are inputs for which more bytes are written than were allocated. When the pieces happen to fit, the result is the target's style with the source's arguments.", "quantifier": "every pair of style strings", "why_tests_cant": "an overflow only shows for particular length combinations", "anchors": [{"file": "styles/style_parser.h", "symbols": ["StyleParser::CopyArguments"]}]}
{"id": "C11", "title": "Preset-supplied default arguments act only when the style string gives none", "statement": "With a default-argument wrapper, argument n is the style string's word n if present and not '~', otherwise the wrapper's word n if present and not '~', otherwise the style's built-in default; wrappers nest.", "quantifier": "every pair of strings, every n, every shift sequence", "why_tests_cant": "combinations of missing, '~' and present words at every position", "anchors": [{"file": "common/arg_parser.h", "symbols": ["DefaultArgumentParserWrapper"]}]}
{"id": "C12", "title": "Argument sets answer next/previous/n-th queries correctly", "statement": "For a set of used arguments, next and previous return the cyclically nearest used argument and visiting next as many times as there are used arguments returns to the start; popcount counts the set; n-th returns the n-th smallest member; shifting moves every member down by the shift and drops those below it.", "quantifier": "every set of argument numbers, every starting point", "why_tests_cant": "2^128 sets", "anchors": [{"file": "common/arg_parser.h", "symbols": ["BitSet", "ArgInfo"]}]}
{"id": "C13", "title": "Case-insensitive string comparison is a consistent order", "statement": "Comparing strings through StringPiece ignores letter case, is reflexive, antisymmetric up to case, transitive and total, and <, >, <= agree with it. The finding: >= is not the negation of <.", "quantifier": "every pair and triple of strings", "why_tests_cant": "order laws quantify over all triples", "anchors": [{"file": "common/string_piece.h", "symbols": ["StringPiece::cmp", "operator>=", "operator<"]}]}
{"id": "C14", "title": "Prefix and suffix tests mean prefix and suffix", "statement": "startswith, endswith and FirstWord answer true exactly when the first string is (case-insensitively where documented) a prefix, suffix or first word of the second.", "quantifier": "every pair of strings", "why_tests_cant": "unbounded strings", "anchors": [{"file": "common/strfun.h", "symbols": ["startswith", "endswith"]}, {"file": "common/arg_parser.h", "symbols": ["FirstWord"]}]}
{"id": "C15", "title": "Numbered file patterns invert", "statement": "Formatting a value (a font name or number text) into a pattern with one or more '*' and matching the result against the same pattern gives back the value; whenever a match succeeds, formatting the matched value gives the text up to case; the formatted text fits the allocated buffer.", "quantifier": "every pattern with at least one star, every value string", "why_tests_cant": "patterns and values are unbounded strings", "anchors": [{"file": "common/strfun.h", "symbols": ["format_pattern", "match_pattern"]}]}
{"id": "C16", "title": "Wrap-around time comparison is right for nearby times", "statement": "Cyclic 32-bit time stamps compare correctly, across the wrap, whenever the real times differ by less than 2^31 ticks: before, after, not-before and not-after all agree with real time; outside that range exactly the ambiguous distances are mis-ordered.", "quantifier": "every pair of real (unbounded) times", "why_tests_cant": "the wrap happens after 49 days and the pairs are unbounded", "anchors": [{"file": "common/cyclint.h", "symbols": ["Cyclint"]}]}
{"id": "C17", "title": "Modulo and clamp helpers agree with mathematics", "statement": "MOD(x,m) is the mathematical remainder in [0,m) for every x, including negative x, and m>0; the clamp functions return the nearest value in the interval.", "quantifier": "every int x and positive m; every clamp interval", "why_tests_cant": "negative operands and extremes", "anchors": [{"file": "common/math.h", "symbols": ["MOD", "clampi32", "clamptoi16", "clamptoi24"]}]}
{"id": "C18", "title": "The mixer's integer square root is exact", "statement": "Any sequence of my_sqrt calls (each starting from the previous result) terminates and returns the floor of the square root, without signed overflow, for every argument below 2^29 (the mixer stays far below). The finding: for larger ints the intermediate squares overflow.", "quantifier": "every sequence of arguments below 2^29, every earlier result", "why_tests_cant": "4 billion values; termination of a Newton loop", "anchors": [{"file": "sound/dynamic_mixer.h", "symbols": ["my_sqrt"]}]}
{"id": "C19", "title": "Stripe coverage counts exactly the covered points", "statement": "intersect_with_stripes(range, width, period) is the number of integer points of the range that fall inside the repeating stripes.", "quantifier": "every range and stripe geometry", "why_tests_cant": "unbounded ranges", "anchors": [{"file": "common/range.h", "symbols": ["Range", "intersect_with_stripes"]}]}
{"id": "C20", "title": "The circular buffer is a bounded FIFO", "statement": "Any interleaving of writes and reads through CircularBuffer delivers exactly the written elements in order, never more than SIZE are held, no unread element is overwritten, and index counters may wrap.", "quantifier": "every sequence of operations, every capacity dividing the counter range", "why_tests_cant": "histories are unbounded, and counters wrap after 2^32 operations", "anchors": [{"file": "common/circular_buffer.h", "symbols": ["CircularBuffer"]}]}
{"id": "C21", "title": "Buffered audio delivers samples in order under any interleaving", "statement": "With a producer filling and a consumer reading a BufferedAudioStream in any interleaving of their individual steps, the consumer receives a prefix of exactly the samples the source produced, in order, without loss or duplication.", "quantifier": "every interleaving of producer and consumer atomic steps, every chunking", "why_tests_cant": "interrupt timing is not controllable in tests", "anchors": [{"file": "sound/buffered_audio_stream.h", "symbols": ["BufferedAudioStream"]}]}
{"id": "C22", "title": "Queued sounds play once each in order", "statement": "Sounds accepted by SoundQueue play in the order queued, each exactly once; a full queue rejects new sounds without disturbing those queued.", "quantifier": "every sequence of queue and play operations", "why_tests_cant": "unbounded histories", "anchors": [{"file": "sound/sound_queue.h", "symbols": ["SoundQueue"]}]}
{"id": "C23", "title": "Mixing two colors stays between them", "statement": "Mixing two colors by any fraction from 0 to 100% gives, per channel, a value between the two inputs; fraction 0 gives the first and full fraction the second exactly; a larger fraction never moves back towards the first.", "quantifier": "every pair of colors and every fraction", "why_tests_cant": "2^96 combinations per resolution", "anchors": [{"file": "common/color.h", "symbols": ["Color16::mix", "Color16::mix2", "Color8::mix", "MixColors"]}]}
{"id": "C24", "title": "Byte orders are lossless permutations", "statement": "For each byte order, the bytes sent are the color's channels in that order; inverting a byte order inverts the permutation and combining two byte orders composes them.", "quantifier": "every byte order and every color", "why_tests_cant": "composition laws over all orders and colors", "anchors": [{"file": "common/color.h", "symbols": ["combine_byteorder", "invert_byteorder", "getByte"]}]}
{"id": "C25", "title": "Layering colors keeps every channel in range", "statement": "Painting a transparent layer over another keeps every channel and alpha within range; an opaque layer hides what is below it, a fully transparent layer changes nothing.", "quantifier": "every pair of colors and alphas", "why_tests_cant": "2^128 combinations", "anchors": [{"file": "common/color.h", "symbols": ["operator<<", "RGBA_nod", "RGBA"]}]}
{"id": "C26", "title": "Recent effects are remembered newest first, boundedly and briefly", "statement": "After any sequence of effects and queries, the remembered effects are the most recent ones in newest-first order, at most the fixed capacity, none older than 7 seconds at query time; a new font clears them; progress updates are not recorded; drag and lockup begin/end are recorded by lockup type.", "quantifier": "every history of effects, times and queries", "why_tests_cant": "unbounded histories and clock wrap", "anchors": [{"file": "common/saber_base.h", "symbols": ["PushEffect", "GetEffects"]}]}
{"id": "C27", "title": "A style reacts to each effect once", "statement": "An effect detector reports a matching effect the first time it is asked after the effect and not again for the same effect, reports the newest matching one, and only effects on its blade.", "quantifier": "every history of effects and detection calls", "why_tests_cant": "unbounded histories", "anchors": [{"file": "blades/blade_base.h", "symbols": ["OneshotEffectDetector"]}]}
{"id": "C28", "title": "Turning blades on and off affects exactly the named blades", "statement": "After any sequence of turn-on and turn-off commands with blade sets, a blade is on exactly if the last command that named it was a turn-on; set operations on blade sets are the boolean operations.", "quantifier": "every sequence of commands and blade sets", "why_tests_cant": "unbounded histories", "anchors": [{"file": "common/saber_base.h", "symbols": ["BladeSet", "TurnOn", "TurnOff", "BladeIsOn"]}]}
{"id": "C29", "title": "A press is reported only after it has lasted", "statement": "The button is reported pressed exactly when the two newest samples are pressed and more than the debounce time has passed since the last unpressed sample, so a burst of pressed samples shorter than that is invisible. (The finding: releases are not debounced at all, a single unpressed sample reports a release.)", "quantifier": "every raw input sequence and sampling schedule", "why_tests_cant": "bounce patterns and sampling times are unbounded", "anchors": [{"file": "buttons/debounced_button.h", "symbols": ["DebouncedButton"]}]}
{"id": "C30", "title": "Button events form well-nested press/hold/release sequences", "statement": "For every press/release/time history polled quickly enough (five polls within the debounce time), each press produces one PRESSED and each release one RELEASED event; hold events of increasing length appear once each between them, in order, exactly when their time has passed; a click is reported only after a release and short or long according to the holding time; a click nobody handled is repeated as saved click half a second later; the click count never exceeds four; each event is offered under its counted number first and under its plain number only if nobody handled that. (The finding: polled slowly, a drop-out repeats hold events.)", "quantifier": "every raw history and sampling schedule", "why_tests_cant": "unbounded histories of timing", "anchors": [{"file": "buttons/button_base.h", "symbols": ["ButtonBase"]}]}
{"id": "C31", "title": "A latching button alternates on and off", "statement": "A latching button reports on and off strictly alternately and its reported state equals the debounced input.", "quantifier": "every input history", "why_tests_cant": "unbounded histories", "anchors": [{"file": "buttons/latching_button.h", "symbols": ["LatchingButtonTemplate"]}]}
{"id": "C32", "title": "The rotary encoder counts detents", "statement": "However a knob is turned back and forth, the counter follows its position within one quarter step, and while it stays within 120 quarter steps of its start the net number of steps reported equals the position: exactly on detents, within one detent in between. (The findings: the 8-bit counter wraps to 63 backward steps, one step per detent oscillates, and the interrupts are never attached.)", "quantifier": "every legal quadrature sequence", "why_tests_cant": "unbounded sequences", "anchors": [{"file": "buttons/rotary.h", "symbols": ["Rotary"]}]}
{"id": "C33", "title": "NEC remote codes survive transmission and nothing else is reported", "statement": "After a pause of at least 10 ms, and whatever the decoder did before, any sequence of NEC codes sent by the encoder (32 bit, 16 bit, repeats, silences, each followed by a pause of 10.15 ms) is reported exactly, in order and once each, even if every pulse is up to 149 microseconds too long or short. Conversely every report is caused by a complete frame of that very code.", "quantifier": "every sequence of codes, every prior decoder state, every timing error within tolerance, every alternating signal", "why_tests_cant": "2^32 codes times every prior history times every jitter", "anchors": [{"file": "ir/nec.h", "symbols": ["NECDecoder", "NECEncoder"]}]}
{"id": "C34", "title": "RC6 remote codes survive transmission", "statement": "After a pause, and whatever the decoder did before, any sequence of RC6 mode 0 codes is reported exactly, in order and once each, whether or not the receiver merges half bits of equal level, with up to 149 microseconds of error per pulse, provided the pauses are near multiples of 444 microseconds. The finding: with other pauses a code ending in a 1 bit is lost.", "quantifier": "every sequence of codes and toggle bits, every prior state, every timing error within tolerance, every merging", "why_tests_cant": "unbounded prior histories and all codes", "anchors": [{"file": "ir/rc6.h", "symbols": ["RC6Decoder", "RC6Encoder"]}]}
{"id": "C35", "title": "Blaster shots survive transmission and carry a checked payload", "statement": "After a pause, and whatever the decoder did before, every team/damage shot sent by the blaster encoder is decoded as the same team and damage and counts as a hit, with 99 microseconds of error per pulse; a frame with a wrong check byte is not a hit and a frame with a wrong prefix is ignored.", "quantifier": "every sequence of frames, every team, damage and check byte, every prior state, every timing error within tolerance", "why_tests_cant": "all payloads and pulse sequences", "anchors": [{"file": "ir/blaster.h", "symbols": ["BlasterDecoder", "BlasterEncoder"]}]}
{"id": "C36", "title": "The IR receiver hands over edges in order", "statement": "Under any interleaving of the pin interrupt with the steps of the main loop, as long as at most 15 events wait, the decoders receive an empty event and then the recorded events in order, none lost or torn. The findings: the read and write slots are offset by one, so the newest event is withheld until the next edge, and a full buffer of 16 overwrites the oldest.", "quantifier": "every interleaving of interrupt and main loop", "why_tests_cant": "interrupt timing", "anchors": [{"file": "ir/receiver.h", "symbols": ["IRReceiver"]}]}
{"id": "C37", "title": "Image compression is lossless", "statement": "Decoding the PQOI encoding of any image returns exactly its pixels and consumes exactly the encoded bytes.", "quantifier": "every pixel sequence of every length, every pair of in-sync codec states", "why_tests_cant": "images are unbounded and the codec has a 64-entry adaptive state", "anchors": [{"file": "pqoi/pqoi.h", "symbols": ["PqoiEncoder::encodePixels", "PqoiDecoder::DecodeBlock"]}]}
{"id": "C38", "title": "Streaming image decoding does not depend on how input arrives", "statement": "Feeding the compressed bytes to the streaming decoder in any sequence of pieces, and filling the rows of a display from them in any schedule, shows exactly the rows of the image, and once all bytes have arrived every row can be completed; for any bytes, valid or not, the pixels shown do not depend on the schedule.", "quantifier": "every split of input and output", "why_tests_cant": "2^n splits", "anchors": [{"file": "pqoi/pqoi.h", "symbols": ["PqoiStreamingDecoder::read"]}]}
{"id": "C39", "title": "Image decoding never writes more than the promised overrun", "statement": "For every input, valid or not, decoding until the end of the requested area writes at most 32 pixels past it, and stops earlier only when the streaming input is used up. The findings: translucent segments of a damaged file overrun their 64 pixel array, and the non-streaming decoder reads past the end of its input.", "quantifier": "every byte sequence", "why_tests_cant": "malformed input is arbitrary", "anchors": [{"file": "pqoi/pqoi.h", "symbols": ["PQOI_DECODE_ONE", "PqoiOutputChunk"]}]}
{"id": "C40", "title": "Images with transparency survive compression", "statement": "Decoding the alpha encoding of any image of pixels and alphas returns exactly the alphas, and the pixels except where fully transparent; showing it over a row of pixels blends every pixel by its alpha; the encoding fits the buffer allocated for it.", "quantifier": "every row of pixels and alphas", "why_tests_cant": "unbounded rows", "anchors": [{"file": "pqoi/pqoi.h", "symbols": ["AlphaEncoder::encodePixelsWithAlpha", "AlphaDecoder::DecodeBlockWithAlphas"]}]}
{"id": "C41", "title": "Sound selection stays in range and avoids repeats", "statement": "Choosing a random file of an effect always yields an existing file number; with three or more files no file is drawn twice in a row, also with selections in between; with three or more sub files the same file does not play the same sub file twice in a row; every other file can be drawn; stepping to the next file visits all files in turn; a selected file is the one played.", "quantifier": "every file count, selection history and random value", "why_tests_cant": "random choices over unbounded histories", "anchors": [{"file": "sound/effect.h", "symbols": ["Effect::RandomFile", "randomize"]}]}
{"id": "C42", "title": "Scanned sound files are the files later opened", "statement": "After scanning the directories of a font in which the files of a set are consistently named (flat, redundant or efficient layout, with or without alternatives and sub files, in any order, any letter case and mixed with unrelated files), the set is taken from the first directory that has any; the names generated for the choices are exactly those of the files between the smallest and largest numbers found; the missing-file warning is given exactly when one of these does not exist, and without it every generated name is that of a scanned file.", "quantifier": "every naming scheme, set of files, listing order and mixture with unrelated files", "why_tests_cant": "naming schemes multiply", "anchors": [{"file": "sound/effect.h", "symbols": ["Effect::Scan", "Effect::GetName"]}]}
{"id": "C43", "title": "Wav decoding does not depend on read sizes", "statement": "The samples PlayWav produces from a data chunk do not depend on how the file is split into reads or how many samples the consumer asks for at a time; they are the file's frames in order, except that the last frame is not played.", "quantifier": "every data chunk, every split into reads and requests", "why_tests_cant": "unbounded chunks and splits", "anchors": [{"file": "sound/playwav.h", "symbols": ["PlayWav::loop", "DecodeBytes4"]}]}
{"id": "C44", "title": "Mixed audio never overflows the output", "statement": "Whatever the streams and volume, each mixed output sample lies in the 16-bit range and silence in gives silence out.", "quantifier": "every set of input samples and volume state", "why_tests_cant": "unbounded histories", "anchors": [{"file": "sound/dynamic_mixer.h", "symbols": ["AudioDynamicMixer::read"]}]}
{"id": "C45", "title": "Volume and click-avoidance ramps reach their target without overshoot", "statement": "A ramp moves monotonically towards its target by at most the configured speed per step, reaches it after finitely many steps and stays.", "quantifier": "every start, target, speed and number of steps", "why_tests_cant": "unbounded step counts", "anchors": [{"file": "sound/click_avoider_lin.h", "symbols": ["ClickAvoiderLin"]}, {"file": "sound/volume_overlay.h", "symbols": ["VolumeOverlay"]}]}
{"id": "C46", "title": "A transition shows the old color at its start, the new one at its end, and ends on time", "statement": "A timed transition's progress starts at 0, never decreases while time moves forward, never exceeds full scale, equals full scale once the duration has passed, and the transition then reports done and shows exactly the new color, across clock wrap.", "quantifier": "every duration, every schedule of frames, every start time including clock wrap", "why_tests_cant": "frame schedules are unbounded", "anchors": [{"file": "transitions/base.h", "symbols": ["TransitionBaseX", "TransitionHelper"]}, {"file": "transitions/fade.h", "symbols": ["TrFadeX", "TrSmoothFadeX"]}]}
{"id": "C47", "title": "Composite transitions sequence their parts", "statement": "A concatenation runs its parts one after the other, is done exactly when the last is done, and in between shows the part that is running; a join is done exactly when all parts are; a sequence cycles through its alternatives; a loop of N runs its part N times.", "quantifier": "every combination of component transitions and schedules", "why_tests_cant": "nesting and schedules are unbounded", "anchors": [{"file": "transitions/concat.h", "symbols": ["TrConcat2", "TrConcat3"]}, {"file": "transitions/join.h", "symbols": ["TrJoin"]}, {"file": "transitions/sequence.h", "symbols": ["TrSequence"]}, {"file": "transitions/loop.h", "symbols": ["TrLoopNX"]}]}
{"id": "C48", "title": "Blade-style functions stay in their documented range", "statement": "Clamped functions lie in their interval; scaling maps 0..32768 into the given interval with exact end points; smooth step rises monotonically from 0 to 32768; linear and circular sections cover exactly the requested fraction of the blade's LEDs, summing to the section's length.", "quantifier": "every input value, led, blade length", "why_tests_cant": "all values and blade lengths", "anchors": [{"file": "functions/clamp.h", "symbols": ["ClampF"]}, {"file": "functions/scale.h", "symbols": ["Scale"]}, {"file": "functions/smoothstep.h", "symbols": ["SmoothStep"]}, {"file": "functions/linear_section.h", "symbols": ["LinearSectionF"]}, {"file": "functions/circular_section.h", "symbols": ["CircularSectionF"]}]}
{"id": "C49", "title": "Counting functions count pulses", "statement": "IncrementModuloF equals (number of pulses times increment) modulo max; IncrementWithReset equals the pulses since the last reset, capped; a threshold pulse fires once per excursion above the threshold with hysteresis.", "quantifier": "every pulse history", "why_tests_cant": "unbounded histories", "anchors": [{"file": "functions/increment.h", "symbols": ["IncrementModuloFSVF", "ThresholdPulseFSVF"]}, {"file": "functions/effect_increment.h", "symbols": ["IncrementWithResetSVF"]}]}
{"id": "C50", "title": "Slow-change functions never overshoot", "statement": "ChangeSlowly moves towards its target by at most speed times elapsed time, never past it; HoldPeak is never below its input and does not fall during the hold time.", "quantifier": "every input history and frame schedule", "why_tests_cant": "unbounded histories", "anchors": [{"file": "functions/change_slowly.h", "symbols": ["ChangeSlowlySVF"]}, {"file": "functions/hold_peak.h", "symbols": ["HoldPeakF"]}]}
{"id": "C51", "title": "Sub-blades address exactly their own pixels", "statement": "Each kind of sub-blade maps its LED indices one-to-one into the pixels first..last of the parent, forwards, reversed, strided or zig-zag; sub-blades over disjoint ranges never touch the same pixel.", "quantifier": "every geometry and every LED index", "why_tests_cant": "unbounded geometries", "anchors": [{"file": "blades/sub_blade.h", "symbols": ["SubBladeWrapper", "SubBladeWrapperReverse", "SubBladeWrapperWithStride", "SubBladeWrapperZZ"]}]}
{"id": "C52", "title": "A shared parent blade is active exactly while some sub-blade is", "statement": "After any sequence of activations and deactivations of sub-blades the parent has been activated and deactivated alternately, and is active exactly when at least one sub-blade is; the sub-blades form one ring visiting each exactly once.", "quantifier": "every number of sub-blades, every sequence of operations", "why_tests_cant": "unbounded sequences", "anchors": [{"file": "blades/sub_blade.h", "symbols": ["SubBlade", "Activate", "Deactivate", "SomeSubBladeIsActive"]}]}
{"id": "C53", "title": "Shared power pins stay on while anyone needs them", "statement": "With shared power pins, a pin is driven high exactly when at least one user has it powered, for up to 255 users; repeated requests by one user count once.", "quantifier": "every sequence of power requests by every set of users", "why_tests_cant": "unbounded sequences", "anchors": [{"file": "blades/power_pin.h", "symbols": ["PowerPinSingleton", "PowerPinWrapper"]}]}
{"id": "C54", "title": "Only one blade at a time owns the shared pixel buffer", "statement": "Under any interleaving of the blades' update loops and power commands, a blade finishes a frame only if it has owned the shared frame buffer continuously since it began it.", "quantifier": "every interleaving of loop steps of any number of blades", "why_tests_cant": "cooperative schedules are unbounded", "anchors": [{"file": "blades/ws2811_blade.h", "symbols": ["WS2811_Blade::Loop", "WS2811_Blade::Power", "current_blade"]}]}
{"id": "C55", "title": "Dimming never brightens and never overflows", "statement": "A dimmed blade at 0..100% shows per channel a value no larger than the original, 0% is black, 100% is unchanged, and the order of brightness is preserved.", "quantifier": "every color and fraction", "why_tests_cant": "all colors and fractions", "anchors": [{"file": "blades/dim_blade.h", "symbols": ["DimBladeWrapper"]}]}
{"id": "C56", "title": "Background tasks run while linked and not after", "statement": "After any sequence of link and unlink operations the loop list contains exactly the linked loopers, each once; unlinking removes only that one.", "quantifier": "every sequence of link/unlink", "why_tests_cant": "unbounded pointer histories", "anchors": [{"file": "common/looper.h", "symbols": ["Looper"]}]}
{"id": "C57", "title": "The last owner of a shared pointer frees the object, exactly once", "statement": "Under any sequence of copy, assign and destroy operations on LinkedPtr, an object is freed exactly when its last owner goes away. The finding: plain-pointer assignment leaves stale ring links.", "quantifier": "every sequence of operations on any number of pointers", "why_tests_cant": "unbounded heap histories", "anchors": [{"file": "common/linked_ptr.h", "symbols": ["LinkedPtr"]}]}
{"id": "C58", "title": "Menus nest like a stack and wrap around", "statement": "Entering and leaving modes nests like a stack: leaving returns to the mode that was active before and re-activates it; a menu's position stays within its size and next/previous are inverse.", "quantifier": "every sequence of push/pop and next/prev", "why_tests_cant": "unbounded histories", "anchors": [{"file": "modes/mode.h", "symbols": ["pushMode", "popMode"]}, {"file": "modes/menu_base.h", "symbols": ["MenuBase"]}]}
{"id": "C59", "title": "Paths join and split consistently", "statement": "Appending a name to a path puts exactly one slash between them; taking the directory of the result gives back the path, and undoing that restores it. Creating a directory asks for every directory on the way, outermost first, and leaves the path unchanged. Everything stays inside the path buffer as long as the result fits.", "quantifier": "every path and component", "why_tests_cant": "unbounded strings", "anchors": [{"file": "common/lsfs.h", "symbols": ["PathHelper"]}]}
{"id": "C60", "title": "Current directories are searched in order", "statement": "The list of font directories is visited first to last by next and last to first by previous, each exactly once.", "quantifier": "every list of directories", "why_tests_cant": "unbounded lists packed in one buffer", "anchors": [{"file": "ProffieOS.ino", "symbols": ["next_current_directory", "previous_current_directory", "last_current_directory"]}]}
{"id": "C61", "title": "Preset editing behaves like a list editor", "statement": "Any sequence of selecting, editing, moving, duplicating and deleting presets leaves the saved file holding exactly the list that the same operations produce on a plain list, and the preset in use and its number agree with it.", "quantifier": "every start list, every sequence of edits, positions and texts without leading spaces", "why_tests_cant": "histories are unbounded and each step goes through writing and re-reading the file", "anchors": [{"file": "common/current_preset.h", "symbols": ["CurrentPreset::SaveAt", "CurrentPreset::SetPreset", "CurrentPreset::Load"]}, {"file": "props/prop_base.h", "symbols": ["PropBase::Parse"]}]}
{"id": "C62", "title": "The box filter returns the average of the last N values", "statement": "After at least N values have been pushed, get() equals the exact sum of the last N pushed values divided by N; the filter never accumulates drift, however long it runs.", "quantifier": "every window size, every sequence of pushed values", "why_tests_cant": "drift in a running sum only shows after long histories", "anchors": [{"file": "common/box_filter.h", "symbols": ["BoxFilter::filter", "BoxFilter::get", "BoxFilter::clear"]}]}
{"id": "C63", "title": "Reducing a 16-bit color to 8 bits by dithering stays in range and is accurate", "statement": "For every color and every LED position the dithered value is a byte within one step of the exact value, the average over every 4x4 tile is within 0.55 of a step, and select picks the largest usable fraction.", "quantifier": "all 2^48 colors and all LED coordinates", "why_tests_cant": "the input space is too large and the error is a statement about all of it", "anchors": [{"file": "common/color.h", "symbols": ["Color16::dither", "Color16::select", "Color8::dither"]}]}
{"id": "C64", "title": "Rotating the hue keeps the brightest and darkest channel", "statement": "For every color and every rotation angle, the largest and smallest channel value of the result equal those of the input, so no color becomes brighter or greyer by rotation.", "quantifier": "all colors and all angles", "why_tests_cant": "the input space is too large", "anchors": [{"file": "common/color.h", "symbols": ["Color16::rotate", "HSL"]}]}
{"id": "C65", "title": "Motion processing is requested while needed and 20 seconds longer", "statement": "After any sequence of blade switching and motion requests, motion is requested exactly while some blade is on or less than 20 seconds have passed since the last request or switch-off.", "quantifier": "every history of switching, requests and clock values, while the clock has not wrapped since", "why_tests_cant": "histories are unbounded", "anchors": [{"file": "common/saber_base.h", "symbols": ["SaberBase::MotionRequested", "SaberBase::RequestMotion", "SaberBase::TurnOff"]}]}
{"id": "C66", "title": "Different button events have different case labels", "statement": "Two combinations of button, event and held modifier buttons get the same event id only if they are the same combination (not counting the button itself among its modifiers).", "quantifier": "all 17 single buttons, all 256 events, all sets of modifiers", "why_tests_cant": "a collision anywhere in the space of combinations makes a prop react to the wrong event", "anchors": [{"file": "common/events.h", "symbols": ["EVENTID", "compress_button"]}]}
{"id": "C67", "title": "A fast button misses no press and a floating pin button needs eleven agreeing votes", "statement": "A fast button reports a click in a loop exactly if there was at least one falling edge since the previous loop; a floating pin button changes state only after eleven agreeing readings in a row, and always does then.", "quantifier": "every interleaving of edges and loops, every sequence of readings", "why_tests_cant": "interleavings and histories are unbounded", "anchors": [{"file": "buttons/fast_button.h", "symbols": ["FastButton"]}, {"file": "buttons/floating_button.h", "symbols": ["FloatingButtonBase::Vote"]}]}
{"id": "C68", "title": "The infrared transmitter sends the pulses it is asked for", "statement": "For every pulse up to 0.1 s, the bytes queued for the hardware have the requested level and add up to the number of whole 38 kHz periods in the pulse, so that it is at most 27 microseconds short.", "quantifier": "every level and length up to 100000 microseconds", "why_tests_cant": "the input space is large and the chunking is a loop", "anchors": [{"file": "ir/stm32_ir.h", "symbols": ["signal"]}]}
{"id": "C69", "title": "Blending a layer over an image is exact in every color channel", "statement": "Blending a premultiplied pixel with 0..32 parts of background gives, in each of the three channels, background*parts/32 plus the pixel's channel, without spilling into a neighbouring channel; premultiplying with the encoder always yields such a pixel.", "quantifier": "all pairs of pixels and all alphas", "why_tests_cant": "2^37 combinations of packed fields", "anchors": [{"file": "pqoi/pqoi.h", "symbols": ["AlphaDecoder::alphaBlend", "AlphaEncoder::premultiply"]}]}
{"id": "C70", "title": "A triggered effect follows its envelope", "statement": "From the frame in which a trigger detects its effect, its value is 0 for the delay, rises linearly to full over the fade-in, stays full for the sustain time, falls linearly to 0 over the fade-out and stays 0, in every frame and whatever state it was in before.", "quantifier": "every set of durations up to 3294 s, every frame schedule with frames less than 1000 s apart, clock wrap included", "why_tests_cant": "the value depends on every earlier frame and on the wrap of a 32-bit clock", "anchors": [{"file": "functions/trigger.h", "symbols": ["TriggerSVF"]}]}
{"id": "C71", "title": "Blinking, strobe and sequence keep time without drift", "statement": "A blinking function is dark then bright within each period; a strobe is dark for 1000/frequency ms and then bright for its on-time; consecutive periods follow each other exactly, however the frames fall; a sequence shows the bits of its words in order, over and over.", "quantifier": "every period, duty cycle and frame schedule with at least one frame per phase", "why_tests_cant": "unbounded schedules; drift only shows after many periods", "anchors": [{"file": "functions/blinking.h", "symbols": ["BlinkingSVF"]}, {"file": "functions/strobe.h", "symbols": ["StrobeF"]}, {"file": "functions/sequence.h", "symbols": ["SequenceF"]}]}
{"id": "C72", "title": "Selections wrap around", "statement": "A selection function shows the entry whose number is the selector modulo the number of entries, for every selector value, and never reads outside its list.", "quantifier": "every non-empty list and every selector", "why_tests_cant": "all lists and all 32-bit selectors", "anchors": [{"file": "functions/int_select.h", "symbols": ["IntSelect", "IntSelectX"]}]}
{"id": "C73", "title": "A bump stays in range and reads only its table", "statement": "The value of a bump is between 0 and 32768 at every LED and is 0 further away than its table reaches; no LED reads outside the table.", "quantifier": "every blade position, width multiplier and LED", "why_tests_cant": "all positions and blade lengths", "anchors": [{"file": "functions/bump.h", "symbols": ["BumpBase"]}]}
{"id": "C74", "title": "A lit pixel blade keeps its power, and powers off only after the delay", "statement": "Once turned on, a pixel blade's power pins are not switched off before it is turned off or deactivated, whatever the blades' loops and other events do; and a blade cuts its power by itself only after the configured delay has passed since it first asked to, with no ignition or effect in between.", "quantifier": "every sequence of loop steps, on, off, effect, style and activation calls of any number of blades, at any times", "why_tests_cant": "the delay and the ignition race with the loop's waiting points; schedules and times are unbounded", "anchors": [{"file": "blades/ws2811_blade.h", "symbols": ["WS2811_Blade::PowerOff", "WS2811_Blade::Loop", "WS2811_Blade::SB_On2", "WS2811_Blade::SB_Off2"]}]}
{"id": "C75", "title": "Every pixel bit becomes the right pulse", "statement": "When a pixel is converted for the LED data line, each channel byte of its dithered color appears in the order the blade was declared with, highest bit first, each bit as one timer byte: the long pulse for a one, the short pulse for a zero, for every pair of pulse lengths.", "quantifier": "every 16-bit color, byte order, frame number, position, and every pair of pulse values", "why_tests_cant": "2^48 colors times 30 byte orders times 65536 pulse pairs, computed four bits at a time with multiplications and masks", "anchors": [{"file": "blades/stm32l4_ws2811.h", "symbols": ["WS2811PinBase::read", "set01"]}]}
{"id": "C76", "title": "A strip receives all its pixels in order", "statement": "While a frame is sent, the bytes leaving the DMA are the pixels in order with no gap, repetition or stale byte, then zeros, provided each half-buffer interrupt is served before the next; sending stops only after the last pixel, and then every pixel was fetched.", "quantifier": "every number of LEDs, pixel size, initial memory content, and every interleaving of DMA transfers and timely interrupts", "why_tests_cant": "the outcome depends on when each interrupt runs relative to each DMA transfer and on stale memory, over unboundedly long strips", "anchors": [{"file": "blades/stm32l4_ws2811.h", "symbols": ["FillTo", "Fill", "show", "DoRefill1", "DoRefill2", "DoRead"]}, {"file": "blades/ws2811_blade.h", "symbols": ["displayMemory"]}]}
{"id": "C77", "title": "Blades sharing the color ring never mix frames", "statement": "The pixels fetched for sending are exactly those of the frames the blades ended, in the order they were ended, each as it was when ended and for the blade that drew it; drawing the next frame never disturbs one waiting to be sent; no blade is queued twice, and once the queue is empty the whole ring is free.", "quantifier": "every number of blades and sizes, and every interleaving of drawing, ending, fetching, finishing and restarting", "why_tests_cant": "the drawing program, the pixel interrupt and the done interrupt interleave arbitrarily around a ring with wrap-around", "anchors": [{"file": "blades/stm32l4_ws2811.h", "symbols": ["BeginFrame", "EndFrame", "IsReadyForBeginFrame", "IsReadyForEndFrame", "read", "queue", "kick", "DoDoneCB"]}, {"file": "blades/ws2811_blade.h", "symbols": ["set"]}]}
{"id": "C78", "title": "Clocked strips get framed pixels of the right brightness", "statement": "A frame for a clocked strip is a start block of zeros, one block per pixel consisting of a brightness byte 0xE0 to 0xFF and the channels in the declared order, and an end block of ones, each byte highest bit first; level times channel is within two steps of the color's value.", "quantifier": "every list of colors and every byte order", "why_tests_cant": "2^48 colors per pixel with a per-pixel division; the rounding of level and multiplier interact", "anchors": [{"file": "blades/spiled_pin.h", "symbols": ["OutByte", "OutColor", "BeginFrame", "EndFrame"]}]}
{"id": "C79", "title": "Menus of files show the sorted list", "statement": "A menu filled from a command's output (fonts, tracks, styles) shows the lines in alphabetical order without regard to case, each distinct line at its own position, and stepping to the next line from any line gives its successor in that order.", "quantifier": "every list of output lines, in every order", "why_tests_cant": "any number of lines of any content in any order; the program never holds them all and runs the command once per key stroke", "anchors": [{"file": "common/command_parser.h", "symbols": ["SortedLineHelper", "SortedLineFinder", "RunCommandAndFindNextSortedLine", "RunCommandAndGetSingleLine"]}, {"file": "common/stdout.h", "symbols": ["CommandOutputCaptureHelper", "GetNextLineCommandOutput"]}, {"file": "modes/sorted_list_menues.h", "symbols": ["SelectFromListMode"]}]}
{"id": "C80", "title": "Drawing on the display changes exactly the pixels named", "statement": "Setting a pixel and drawing lines and filled rectangles inside a display of any size lights exactly the pixels named and leaves all others; reading a pixel tells whether it is lit; clearing, inverting and mirroring act on every pixel. ClearRect is claimed to darken exactly its rectangle; that is false for rectangles that do not start in the top row, and mirroring a 64-row screen top to bottom is undefined.", "quantifier": "every screen width and height (8, 16, 32, 64 rows), every screen content, every rectangle", "why_tests_cant": "the number of screen contents is astronomical and the bit arithmetic differs per height", "anchors": [{"file": "display/monoframe.h", "symbols": ["SetPixel", "GetPixel", "DrawVLine", "DrawHLine", "DrawRect", "ClearRect", "Clear", "IsClear", "Invert", "FlipX", "FlipY", "ReverseBits"]}]}
{"id": "C81", "title": "Text on the display shows exactly its glyphs, clipped to the screen", "statement": "Drawing a text at any position, also one that sticks out of the screen on any side, lights exactly the pixels of the glyphs placed one after the other (a newline returns to the left edge 16 rows lower) that lie on the screen; nothing else changes and no memory outside of the screen is accessed. It fails for the character 127 (beyond the 95 glyphs of a font), for lines entirely below the screen (undefined shift) and for glyphs with 64-bit columns (never drawn).", "quantifier": "every font, text, position and screen content", "why_tests_cant": "texts, positions and fonts are unbounded, and the clipping shifts differ for each combination", "anchors": [{"file": "display/monoframe.h", "symbols": ["Draw", "Draw2", "DrawText"]}, {"file": "display/glyph.h", "symbols": ["Glyph", "GLYPHDATA"]}]}
{"id": "C82", "title": "Images are shown as drawn", "statement": "An image file as wide as the screen is shown pixel by pixel as stored, turned upside down when the file is stored bottom to top (BMP) and inverted when asked for. An image as wide as the screen is high is claimed to be shown turned by a quarter; the conversion that does it is correct but never selected, so such images appear garbled.", "quantifier": "every image content, every screen width that is a multiple of the height, heights 8, 16, 32 and 64", "why_tests_cant": "the conversion permutes words in cycles through a bit matrix transposition; image contents are unbounded", "anchors": [{"file": "display/monoframe.h", "symbols": ["ConvertLandscape", "ConvertPortrait", "transpose"]}, {"file": "display/ssd1306.h", "symbols": ["ReadImage", "ConvertToNative"]}]}
{"id": "C83", "title": "Animations play their frames in order", "statement": "A tall image file (PBM or BMP) shows its frames from the top to the bottom of the image, over and over, whatever was shown before; drawing the screen again without stepping shows the same frame again. A file of several single-screen images shows them once each and keeps the last. It fails if the first frame of an animation is drawn again after a file with fewer frames was shown: the header of the file is then shown as pixels.", "quantifier": "every image file with any number of frames, every previous state, every history of steps and redraws", "why_tests_cant": "file contents, frame counts and histories are unbounded; the position in the file is carried along through seeks", "anchors": [{"file": "display/ssd1306.h", "symbols": ["ReadImage", "FillBuffer", "FillFrameBuffer2", "SetFile"]}]}
{"id": "C84", "title": "Every command line received is run exactly once, as typed", "statement": "Whatever bytes arrive over a serial connection, each completed line with a command on it is echoed and run once, in order, with its first word as command and the rest after the blanks as argument; blank lines do nothing; a line cut off by a disconnect is dropped; no memory outside the line buffer is touched. When memory runs out within a line the beginning is dropped and the rest of the line is run as if it were a command of its own.", "quantifier": "every sequence of bytes, disconnects and failing allocations", "why_tests_cant": "byte streams and the points where allocation fails or the connection drops are unbounded", "anchors": [{"file": "common/serial.h", "symbols": ["Parser", "Loop", "ParseLine", "Run"]}]}
{"id": "C85", "title": "An RFID tag is reported exactly when it was read intact", "statement": "A tag code is reported exactly when a complete message with a correct checksum has arrived; the code is the one in the message; a single wrong digit is never reported; after any noise, the next message that follows a pause is recognised. A start byte directly before a message makes the message go unrecognised.", "quantifier": "every sequence of characters and pauses, every tag", "why_tests_cant": "message streams with noise are unbounded; the checksum must catch all single-digit errors of 2^40 codes", "anchors": [{"file": "common/serial.h", "symbols": ["RFIDParser", "Loop", "ReadHexDigit"]}]}
{"id": "C86", "title": "Spoken numbers mean the number", "statement": "Speaking any whole number plays existing sounds whose words, heard in order, mean that number, and they all fit into the sound queue; a number with decimals is followed by point and its two digits; a color is announced by the file named after its red, green and blue in hexadecimal. Negative numbers are not spoken: a negative sound number is selected.", "quantifier": "every int from 0 to 2^31-1, all negative ints, every color of 2^24", "why_tests_cant": "two billion numbers through a recursion; queue overflow depends on the number of words", "anchors": [{"file": "sound/sound_library.h", "symbols": ["SayWhole", "SayNumber"]}, {"file": "sound/sound_queue.h", "symbols": ["SoundToPlay", "SoundQueue"]}]}
{"id": "C87", "title": "A blade is only switched off when it is dark", "statement": "When a style gives the blade permission to be switched off in a frame, every LED shows black in that frame; and as long as the blade stays off and no effect happens to it, every later frame is black too, whatever happened before.", "quantifier": "every composition of the modelled styles, layers, functions and transitions, every history of frames, times, effects and random numbers", "why_tests_cant": "the permission is computed from static knowledge of each part, the colors from its state; agreement is needed for all compositions and all later frames", "anchors": [{"file": "styles/blade_style.h", "symbols": ["FunctionRunResult", "LayerRunResult"]}, {"file": "styles/layers.h", "symbols": ["Compose"]}, {"file": "styles/alpha.h", "symbols": ["AlphaL", "AlphaMixL"]}, {"file": "styles/inout_helper.h", "symbols": ["InOutTrL"]}, {"file": "styles/inout_sparktip.h", "symbols": ["InOutSparkTipX"]}, {"file": "styles/cylon.h", "symbols": ["Cylon"]}, {"file": "styles/color_cycle.h", "symbols": ["ColorCycleBase"]}, {"file": "styles/fire.h", "symbols": ["StyleFireBase"]}, {"file": "functions/ifon.h", "symbols": ["InOutFuncX", "InOutHelperF"]}, {"file": "functions/linear_section.h", "symbols": ["LinearSectionF"]}, {"file": "styles/style_ptr.h", "symbols": ["Style"]}]}
{"id": "C88", "title": "Ignition and retraction are delayed by the given time", "statement": "Below IgnitionDelay a style sees the blade on exactly when it has been on, without interruption, for more than the given milliseconds; below RetractionDelay it sees it off exactly when it has been off that long. Clock wrap-around does not matter.", "quantifier": "all delays below 2^31, all sequences of frames and their times, all styles below", "why_tests_cant": "the clock wraps after 49 days; every sequence of presses and frame times", "anchors": [{"file": "styles/ignition_delay.h", "symbols": ["IgnitionDelayX"]}, {"file": "styles/retraction_delay.h", "symbols": ["RetractionDelayX"]}]}
{"id": "C89", "title": "Pixelate shows blocks of one color", "statement": "On a blade longer than a block, Pixelate<COLOR, N> shows each block of N LEDs in the current color of the first LED of the block, in every frame. On a blade of at most N LEDs the color is never refreshed.", "quantifier": "all block sizes, blade lengths, colors and frames", "why_tests_cant": "the memory is carried from frame to frame; short blades fail only after the first frame", "anchors": [{"file": "styles/pixelate.h", "symbols": ["PixelateX"]}]}
{"id": "C90", "title": "Clashes are not reported in their quiet times", "statement": "After a clash report, a button press or release, or a request by the prop to ignore clashes, no clash or stab event is reported before the respective quiet time (100 ms, 400 ms when the event was used, 50 ms for buttons, the requested time) is over, and one turn of the main loop reports at most one. Exceptions: when a held button's modifier is cleared while a clash is put aside, two are reported in the same millisecond; a press does not silence a clash that is already put aside, or if the prop uses the counted press.", "quantifier": "every sequence of shocks, main-loop turns, button events and ignore requests at non-decreasing times", "why_tests_cant": "timeouts are extended, replaced and deferred depending on the order of events; histories are unbounded", "anchors": [{"file": "props/prop_base.h", "symbols": ["IgnoreClash", "Clash", "Clash2", "Loop", "Event"]}, {"file": "buttons/button_base.h", "symbols": ["Send"]}]}
{"id": "C91", "title": "A clash after quiet is reported, once and with its full strength", "statement": "A shock after the quiet times is reported in that turn of the main loop, or put aside for at least 3 ms while a button is held and then reported with the strongest shock of that time; further shocks while it vibrates only raise its strength; the effect is shown exactly if the event was not used, the blade is on and there is no lockup. Vibration at intervals below 100 ms hides every later clash.", "quantifier": "every history, every strength, every train of shocks", "why_tests_cant": "whether a shock is heard depends on the whole history of quiet times", "anchors": [{"file": "props/prop_base.h", "symbols": ["Clash", "Clash2", "Loop", "SB_Accel"]}, {"file": "common/saber_base.h", "symbols": ["UpdateClashStrength"]}]}
{"id": "C92", "title": "A twist is reported exactly when the blade was twisted", "statement": "A twist is reported only if the blade turned around its axis to one side for 90 to 300 ms and, less than 200 ms later, to the other side for 90 to 300 ms without interruption; every clean movement of that kind is reported when it ends, if the blade has moved and rested before. The first turn after power-on is not seen, and one turn may count for two twists.", "quantifier": "every sequence of calls of both gesture detectors, every gyro and accelerometer value (in thousandths), from 251 ms after power-on on", "why_tests_cant": "strokes are merged, dropped, closed by the other detector and shifted through five slots; histories are unbounded", "anchors": [{"file": "props/prop_base.h", "symbols": ["DetectTwist", "DoGesture", "GetStrokeGroup", "ProcessStrokes"]}]}
{"id": "C93", "title": "A shake is reported exactly when the blade was shaken, a swing when it was swung", "statement": "A shake is reported only after five thrusts forward, back, forward, back, forward, each at most 250 ms after the one before; every clean movement of that kind is reported; two reports share no thrust if the last thrust of the first took more than 10 ms (a shorter one makes four thrusts count twice). A swing is reported exactly when the speed exceeds 250 degrees per second for the first time since it was below 100.", "quantifier": "every sequence of calls of both gesture detectors; every sequence of swing speeds", "why_tests_cant": "strokes are merged, dropped and shifted through five slots; histories are unbounded", "anchors": [{"file": "props/prop_base.h", "symbols": ["DetectShake", "DoGesture", "DetectSwing"]}]}
{"id": "C94", "title": "Switching on and off lights exactly the blades asked for", "statement": "Ignition effects name only dark blades, retractions and blasts only lit ones, and together they tell which blades are lit at any time. An accepted request to switch on first sends the pre-on effect, reports the saber as on, and lights exactly the requested blades when the pre-on sound is over; cancelling it, or switching everything off, leaves the saber dark until it is asked to light again; switching off some blades puts out exactly those; a preset change leaves the same blades lit. Exceptions: cancelling the ignition of a second blade puts out the first without a retraction; of two requests during one pre-on sound only the second counts; cd during it leaves a dark saber that says it is on; a preset change during it lights all blades.", "quantifier": "every history of on, fast-on, off, preset, cd, lockup and sound events, every blade set, every font", "why_tests_cant": "the blades, the pending ignition and the font's state live in three objects that are updated by callbacks in every order; histories are unbounded", "anchors": [{"file": "props/prop_base.h", "symbols": ["On", "FastOn", "Off", "SetPreset", "BladeOff", "UpdatePreon", "CommonIgnition"]}, {"file": "common/saber_base.h", "symbols": ["TurnOn", "TurnOff", "DoOn", "DoOff"]}, {"file": "sound/hybrid_font.h", "symbols": ["SB_Preon", "SB_On", "SB_Off", "Loop"]}]}
{"id": "C95", "title": "The hum follows the blades", "statement": "With a prop that switches all blades together and without cd, the hum is on exactly while the blades are lit, fades out after they are switched off and then ends, and no null pointer is used while a wav player is free when needed; post-off effects are never more than retractions. Exceptions: the hum of a second blade switched on and off alone never ends; cd while lit leaves a silent lit saber; two blades of a monophonic font without power-off sound switched off one after the other use a null pointer; switching on before the power-off sound is over sends the post-off effect while lit.", "quantifier": "every history, every font, every length of the sounds", "why_tests_cant": "the font is a state machine of its own that hears of the blades only through callbacks; histories are unbounded", "anchors": [{"file": "sound/hybrid_font.h", "symbols": ["SB_Preon", "SB_On", "SB_Off", "SetHumVolume", "Loop", "PlayMonophonic"]}, {"file": "props/prop_base.h", "symbols": ["Off", "SetPreset", "chdir"]}]}
{"id": "C96", "title": "Lockups begin and end in pairs", "statement": "Lockup effects alternate: each begin is followed by the end of the same kind before the next begin, and they tell which lockup there is; the looping lockup sound plays only during a lockup and is the one of its kind; switching off a lit saber or letting go ends the lockup and its sound. Exceptions: a lockup begun during the pre-on sound stays when the ignition is cancelled; lightning block during another lockup begins a second one, with the sound of the first.", "quantifier": "every history of lockup commands, clashes with buttons held, releases, switching on and off and preset changes", "why_tests_cant": "lockups are begun and ended by commands, buttons and switching off in every order", "anchors": [{"file": "props/prop_base.h", "symbols": ["Off", "Parse"]}, {"file": "props/saber.h", "symbols": ["Event2"]}, {"file": "sound/hybrid_font.h", "symbols": ["SB_BeginLockup", "SB_EndLockup"]}]}
{"id": "C97", "title": "Unmuting brings back the volume", "statement": "As long as nobody sets the volume, it is either the original one or 0, and unmuting always brings back the original; muted by a double click, the saber gets its volume back when it is switched off. Exceptions: a volume set while muted is lost on unmuting; while muted, 0 is saved as the volume.", "quantifier": "every history of mute, unmute, toggle, double clicks, switching on and off", "why_tests_cant": "the saved volume and two flags are updated by commands, buttons and switching off in every order", "anchors": [{"file": "props/prop_base.h", "symbols": ["SetMute", "Off", "Parse", "PollSaveColorChange"]}, {"file": "props/saber.h", "symbols": ["Event2"]}]}
{"id": "C98", "title": "A blaster's shots never exceed its rounds", "statement": "With a magazine for N rounds every stun or kill shot uses one; reloading or putting the clip in gives N, taking it out leaves none; there is never a shot without a round, empty is reported only when none is left, and the bullet count shown is the one left. Without a limit it is never empty. Pulling the trigger with no other button held does exactly what rounds, jam and mode say. Exceptions: autofire uses no rounds; a clip detected by a plain button disables the trigger while it is in.", "quantifier": "every history of buttons, clip, clashes, presets, power and commands; every magazine size, random number and font", "why_tests_cant": "histories are unbounded and shots, reloads, jams and power changes may come in any order", "anchors": [{"file": "props/blaster.h", "symbols": ["Fire", "Reload", "ClipIn", "ClipOut", "GetBulletCount", "Event2"]}, {"file": "buttons/button_base.h", "symbols": ["Send"]}, {"file": "props/prop_base.h", "symbols": ["Event"]}]}
{"id": "C99", "title": "A jammed blaster does not fire until it is banged", "statement": "After a jam there is no shot, no autofire and no empty report until it is unjammed; a bang unjams a jammed blaster and does nothing otherwise; without a configured jam percentage it never jams.", "quantifier": "every history, every sequence of random numbers", "why_tests_cant": "jams depend on random numbers and stay across any number of other events", "anchors": [{"file": "props/blaster.h", "symbols": ["CheckJam", "Fire", "Clash"]}]}
{"id": "C100", "title": "A blaster's modes and autofire", "statement": "Announced modes follow each other in the documented cycle, every shot is of the mode announced last, and the mode stays while autofire is going on. A click changes the mode unless autofire was started and not ended by the trigger; releasing the trigger with no other button held ends autofire, and so does switching off a lit blaster. Exceptions: a release while another button is held does not end it; switching off before the blade lit does not end it, and then no release will; after a low battery switched it off during autofire, clicks no longer change the mode.", "quantifier": "every history of buttons, presets, power and commands other than the one that starts autofire", "why_tests_cant": "autofire is remembered in three places (mode, flag, lockup) that are updated by different events in any order", "anchors": [{"file": "props/blaster.h", "symbols": ["SetBlasterMode", "NextBlasterMode", "Fire", "Event2"]}, {"file": "props/prop_base.h", "symbols": ["Event", "Off"]}]}
{"id": "C101", "title": "A detonator explodes only if it was armed and released", "statement": "Whenever it explodes, the arming sound had been heard to its end while the button was held, the button was released after that and not pressed again, and the sound of the release is over. Held long enough, released and waited for, it does explode and is dark then. Exceptions: switching it off does not stop a pending explosion; switched on by command after an explosion it is still armed; a double click ends a lockup that never began.", "quantifier": "every history of button events, power latch, times and sound lengths", "why_tests_cant": "the timer, the armed flag and the power state are separate and updated in any order", "anchors": [{"file": "props/detonator.h", "symbols": ["SetNextAction", "PollNextAction", "beginArm", "blast", "Event2"]}]}
{"id": "C102", "title": "A blaster without power-on sound is always on", "statement": "If the font has no power-on sound, the blaster is on, or about to be, after every change of preset that the style does not refuse, and a low battery does not switch it off. The header's documentation says the opposite (on if there is a power-on sound).", "quantifier": "every state and every font", "why_tests_cant": "the state before the preset change is arbitrary", "anchors": [{"file": "props/blaster.h", "symbols": ["SetPreset", "CheckLowBattery"]}]}
{"id": "C103", "title": "Saved presets are one list per directory, through edits and power cuts", "statement": "Whatever files the card holds at first, and however the two preset files were written and damaged since, choosing, editing, moving, duplicating, deleting and rotating presets, changing colours, changing the blade and switching off and on give what they would give on one plain list per save directory. Power lost at any point of a save leaves the list from before or the list from after it.", "quantifier": "every initial card content, every history of these operations, every point at which power is lost during a save, every set of compiled-in presets", "why_tests_cant": "the list is kept in two files with iteration counters and a cache of which one is current; histories and points of power loss are unbounded", "anchors": [{"file": "common/current_preset.h", "symbols": ["CurrentPreset", "OpenPresets2", "SaveAt", "CreateINI", "Load", "SetPreset"]}, {"file": "props/prop_base.h", "symbols": ["SetPreset", "SaveState", "SaveColorChangeIfNeeded", "FindBlade", "ResumePreset"]}]}
{"id": "C104", "title": "The preset menu moves, deletes and inserts what it says", "statement": "Up and down exchange the preset in use with its neighbour and beep at the ends; delete removes the preset in use and refuses the only one, so that a saber is never left without presets; insert, as long as nothing was saved, puts the selected preset before the one in use. Exceptions: once something was saved an inserted preset is not seen by the saber and is lost at its next save, and after two insertions an edit is lost at power-off; after a deletion another preset than the selected one is inserted, moving down restores the deleted one, and the previous preset is a compiled-in one.", "quantifier": "every history of menu entries, commands, blade changes and power cuts", "why_tests_cant": "the menu works on a second copy of the preset with its own cache, after any history of saves", "anchors": [{"file": "modes/preset_modes.h", "symbols": ["MovePresetUpEntry", "MovePresetDownEntry", "DeletePresetMenu", "SelectPresetEntry", "InsertSelectedPresetEntry"]}, {"file": "common/current_preset.h", "symbols": ["SaveAt", "OpenPresets2"]}]}
{"id": "C105", "title": "The chosen preset is found again and other blades' presets are left alone", "statement": "A preset chosen by number, edited and recoloured is in use again after switching off and on. What is done with one blade does not change what is saved for another, and changing the blade changes nothing that is saved if no colour change is pending. Rotating makes the last saved preset the first and uses it. Exceptions: a pending colour change writes the preset over one of the new blade's; rotating recolours the rotated preset; with nothing saved rotating moves the preset in use instead of the last; after a move by the menu another preset is in use after switching off and on.", "quantifier": "every history, every number in range, every sequence of edits and colour changes", "why_tests_cant": "the number saved and the list are in different files and written at different times", "anchors": [{"file": "props/prop_base.h", "symbols": ["set_preset", "rotate_presets", "SaveState", "SaveColorChangeIfNeeded", "FindBlade"]}, {"file": "common/current_preset.h", "symbols": ["SetPreset"]}]}
{"id": "C106", "title": "The amplifier has power whenever a sound plays, and not for long afterwards", "statement": "Unless it was switched off by the amp off command, the amplifier has power and the DAC runs whenever a sound plays, and for 30 ms after it was enabled. When no sound has played and nothing has enabled it for 30 ms, three calls of its loop function, 20 ms apart, switch both off, provided the loop function was called within 30 ms of each enabling or while a sound played, and millis() does not wrap. Exceptions: enabled without a sound and with a later loop call (of the 30 ms, 20 ms are spent in the enabling itself), it stays on until enabled again; at the wrap of millis() it may stay on for 49 days; after amp off the next sound is not heard.", "quantifier": "every history of sounds, enablings, loop calls at any times, commands and passing time", "why_tests_cant": "the loop function is a state machine with sleeps, called at any times; histories are unbounded and the failures need particular times", "anchors": [{"file": "sound/amplifier.h", "symbols": ["Amplifier", "Active", "Enable", "Loop", "Parse"]}, {"file": "common/state_machine.h", "symbols": ["SLEEP", "YIELD"]}]}
{"id": "C107", "title": "The booster stays on while anything needs it, and not for long afterwards", "statement": "Once asked for, by EnableBooster or because the amplifier got power, the booster stays on without a break as long as a blade is on, the style or another part needs power, a sound plays, or 10 s have not passed. When nothing has needed it for 10 s, eleven calls of its loop function, 100 ms apart, switch it off. Exception: a sound that starts when the amplifier is already on does not ask for the booster, and may play with the booster off.", "quantifier": "every history of sounds, blades, requests, loop calls at any times and passing time", "why_tests_cant": "needs begin and end between the samples taken by a sleeping state machine", "anchors": [{"file": "common/booster.h", "symbols": ["Booster", "Active", "Enable", "Loop"]}, {"file": "props/prop_base.h", "symbols": ["NeedsPower"]}, {"file": "sound/amplifier.h", "symbols": ["Enable"]}]}
{"id": "C108", "title": "The SD card stays mounted while it is used, is let go afterwards and comes back", "statement": "Once mounted, the card stays mounted without a break as long as a sound plays, a stream or a lock needs it, a blade is on, or a second has not passed and no computer is connected. When it has not been used for 2.03 s (30 ms if a computer is connected) the next call of its loop function leaves it unmounted. While it is in use, a working card is mounted again by the first call of its loop function after a second. Exception: with a computer connected and no sound or blade, a card that was just mounted may be unmounted at once.", "quantifier": "every history of sounds, streams, blades, USB connections, mounts, loop calls at any times and passing time", "why_tests_cant": "mounting and letting go depend on the order and times of unbounded histories", "anchors": [{"file": "common/sd_card.h", "symbols": ["SDCard", "Active", "Mount", "Loop"]}]}
{"id": "C109", "title": "The buffers that sound is played from are filled, the emptiest first", "statement": "One run of the filler leaves every stream's buffer full, or the stream at its end, as long as the reads needed (two for each stream and one for each short answer) are no more than 50. Whenever a stream is read, it has room and no stream wanted more at that moment; a paused player counts as wanting almost nothing. Nothing is read while the SD card is locked. Exception: a stream whose reads give nothing, without being at its end, keeps all streams that want less from being read.", "quantifier": "every number of streams, fill level, pause state and answers of the sources", "why_tests_cant": "starvation depends on the fill levels and answers of all streams together, of which there are unboundedly many", "anchors": [{"file": "sound/audio_stream_work.h", "symbols": ["ProcessAudioStreams"]}, {"file": "sound/buffered_audio_stream.h", "symbols": ["FillBuffer", "real_space_available"]}, {"file": "sound/buffered_wav_player.h", "symbols": ["space_available"]}]}
{"id": "C110", "title": "Requests to fill buffers never get the filler stuck or run it twice at once", "statement": "Under every interleaving of requests, reads by the audio interrupt, locking of the SD card and steps of the filler, at most one run is queued or under way, and the request flag is set exactly then; a run ends after a bounded number of its own steps; buffers stay within their bounds; and a request made between runs with the card free fills all buffers. Exceptions: a request made in the last step of a run is lost, and requests made while the card is locked are dropped and not made up for when it is unlocked.", "quantifier": "every interleaving of interrupts with the steps of the filler", "why_tests_cant": "races depend on the exact point of interruption", "anchors": [{"file": "sound/audio_stream_work.h", "symbols": ["scheduleFillBuffer", "ProcessAudioStreams", "LockSD"]}, {"file": "sound/buffered_audio_stream.h", "symbols": ["read", "FillBuffer"]}]}
{"id": "C111", "title": "The battery counts as low only after a second of low readings", "statement": "The battery voltage shown is that of the last reading and never outside the range of the voltages read. Readings are at least 1 ms apart, and the first call of the loop function 1 ms or more after one takes the next if the converter is ready. The battery counts as low exactly when the last 1001 readings were low: no computer connected, at least 0.5 V and less than 3.0 V, or 2.6 V under load. That takes a second at least.", "quantifier": "every history of loop calls at any times, readings, converter delays, USB connections, load changes and passing time", "why_tests_cant": "the count depends on an unbounded history of readings at arbitrary times", "anchors": [{"file": "common/battery_monitor.h", "symbols": ["BatteryMonitor", "Loop", "IsLow", "low", "battery", "SetPinHigh"]}]}
{"id": "C112", "title": "A low battery turns the saber off and is announced, but not too often", "statement": "A check that finds the battery low, with a style that is not the charging style, leaves the saber off, and announces the low battery if the last announcement, or the start, was more than 15 s before. No other check turns the saber off or announces anything, and announcements are more than 15 s apart. With one blade the lower limit of 2.6 V applies while it is on. Exceptions: with two blades, turning one off brings back the higher limit although the other is on; an effect on a blade that is off brings the lower limit although nothing is on.", "quantifier": "every history of readings, checks, blades and passing time", "why_tests_cant": "announcement times and the shared load flag depend on whole histories", "anchors": [{"file": "props/prop_base.h", "symbols": ["CheckLowBattery", "LowBatteryOff"]}, {"file": "common/battery_monitor.h", "symbols": ["SetLoad", "low"]}, {"file": "blades/simple_blade.h", "symbols": ["SB_On2", "SB_Off2", "SB_Effect2"]}]}
{"id": "C113", "title": "Power LEDs never get more current than they bear", "statement": "Whatever the battery voltage, the series resistor and the color asked for, the average current through a power LED, when the duty cycle limits it, is no more than the LED's maximum. The LED is not dimmed if the current would be no more than the maximum anyway, and otherwise by less than one of 65535 steps more than necessary. Levels are between 0 and 65535.", "quantifier": "every LED description with sensible data (all that come with the program have), every battery voltage, resistor and color", "why_tests_cant": "the current is the solution of an equation with arbitrary real parameters; tests sample a few voltages", "anchors": [{"file": "blades/drive_logic.h", "symbols": ["DriveLogic", "PWMMultiplier", "PWM", "PWM_overdrive"]}, {"file": "blades/leds.h", "symbols": ["CreeXPE2White", "CreeXPE2Red"]}, {"file": "blades/pwm_pin.h", "symbols": ["LSanalogWrite"]}]}
{"id": "C114", "title": "The LEDs of a blade together make up the color asked for", "statement": "Red, green and blue LEDs get just their parts of the color. With a white LED beside LEDs that leave the white to it, its light and each of theirs add up to the color. Leaving the white to another LED makes none brighter, and black is dark for every LED that has a color. Exception: leaving another color than white to another LED can make an LED nearly fully bright that should be dark.", "quantifier": "every color and every selection of LEDs", "why_tests_cant": "there are 2^48 colors and any LED colors", "anchors": [{"file": "blades/drive_logic.h", "symbols": ["ColorSelector", "Select"]}]}
{"id": "C115", "title": "A blade of LEDs on PWM pins has power when it should, starts dark and leaves others alone", "statement": "A blade that is on has power. A blade without power is dark. On, effects and a new style give it power; it loses power when it goes idle, is deactivated, or its style lets it go while it is off, and not otherwise. When it gets power it starts dark, not with what it showed before. Nothing done to one blade changes another or its light.", "quantifier": "every set of blades with pins of their own on any timers (at most 100 pins), and every history of operations on them", "why_tests_cant": "blades share timers through use counts, so what one shows depends on the histories of all", "anchors": [{"file": "blades/simple_blade.h", "symbols": ["Simple_Blade", "Power", "Activate", "Deactivate", "SB_On2", "SB_Off2", "SB_Effect2", "allow_disable", "Loop"]}, {"file": "blades/pwm_pin.h", "symbols": ["LSanalogWriteSetup", "LSanalogWriteTeardown", "LSPWM_Pin"]}]}
{"id": "C116", "title": "PWM timers run exactly while needed", "statement": "A timer runs exactly while some blade with power has a pin on it, and timer 3, which starts the others, while any has. So the LEDs of a powered blade show the levels its style sets.", "quantifier": "every set of blades with pins of their own on any timers (at most 100 pins), and every history of operations on them", "why_tests_cant": "reference counts are right only if setups and teardowns pair up in every history", "anchors": [{"file": "blades/pwm_pin.h", "symbols": ["LSanalogWriteSetup", "LSanalogWriteTeardown"]}]}
{"id": "C117", "title": "A blade is recognised by its resistor", "statement": "The configuration chosen is the first of those whose resistor is nearest to that measured; so a blade is recognised if the measurement is off by less than half the distance to any other. If none is within 100 megaohms it is the first. With a blade detection pin, a configuration for an empty saber is chosen when there is no blade and one for a blade when there is, if there are such. A resistor measured with a pullup comes out within one step of the converter, larger readings mean larger resistors, and an average lies between the measurements.", "quantifier": "every list of configurations, every resistor, pullup and reading", "why_tests_cant": "resistors, tolerances and configurations are arbitrary numbers", "anchors": [{"file": "blades/blade_id.h", "symbols": ["ExternalPullupBladeID", "BridgedPullupBladeID", "AverageBladeIDNTimes", "NO_BLADE_RangeID"]}, {"file": "props/prop_base.h", "symbols": ["FindBestConfig", "id"]}]}
{"id": "C118", "title": "The saber follows changes of the blade", "statement": "Exactly the blades of the current configuration are active. Putting a blade in or taking it out, and the command scanid, choose the right configuration for what is measured; the loop function does so if a scan since its last call found another one than the current, and only then; nothing else changes the configuration. The rest of the program is then told, once, that a blade came or went, or that the font may be new. Scans are more than the configured time apart and happen when it has passed. Exception: a configuration with a missing blade is reported the first time, but the next identification uses a null pointer.", "quantifier": "every history of scans, loop calls, detections, commands and passing time", "why_tests_cant": "measurements may change between the scan and the switch, and any number of changes may come in any order", "anchors": [{"file": "props/prop_base.h", "symbols": ["FindBlade", "FindBladeAgain", "ScanBladeIdNow", "PollScanId", "UNSET_BLADE_STYLE"]}, {"file": "props/saber.h", "symbols": ["Event2"]}, {"file": "blades/ws2811_blade.h", "symbols": ["Loop"]}]}
{"id": "C119", "title": "Buttons do what the prop's table says", "statement": "With the default prop, in any history: once POWER and AUX have been let go there is no lockup, and a lockup lasts only while one of them is down and the saber is on or about to be. If no button is down and no menu open, a click of one button does what the table at the top of saber.h says for its length and the state of the saber: POWER turns on and off, long clicks of POWER start the soundtrack or a force effect, AUX blocks a blaster or selects the next preset. A double click of POWER from off turns on muted. Exception: if something else calls the saber off while it is about to ignite, a lockup survives all releases.", "quantifier": "every history of button reads, hits, twists, ignitions and calls to Off(), every time of every press and release, any number of reads in between", "why_tests_cant": "the loops of several buttons interleave with motion events and share the modifiers, and times are arbitrary", "anchors": [{"file": "props/saber.h", "symbols": ["Event2"]}, {"file": "props/prop_base.h", "symbols": ["Event", "On", "Off", "Clash2", "SetMute"]}, {"file": "buttons/button_base.h", "symbols": ["Loop", "Send", "SendClick"]}]}
{"id": "C120", "title": "Combinations of buttons and hits", "statement": "With the default prop: hitting something while POWER or AUX is held starts a lockup, a drag if the tip pointed down or a melt for a stab, which ends with the button; off, with POWER, it selects the next preset; the release is then no click and further hits do nothing. Holding AUX and clicking POWER while off is the previous preset; holding POWER and clicking AUX while on is force lightning until POWER is let go. Only a short click of POWER or a call to Off() turns the saber on or off. Unless an ignition is called off, the saber is muted only while on. Exceptions: calling off a muted ignition leaves the saber muted; with DUAL_POWER_BUTTONS the exchange of the buttons makes both POWER; a quick second click of AUX blocks twice.", "quantifier": "every history, every combination of times of presses, hits and releases", "why_tests_cant": "a used modifier must suppress the click of the held button whatever comes between", "anchors": [{"file": "props/saber.h", "symbols": ["Event2"]}, {"file": "props/prop_base.h", "symbols": ["Event", "Clash2"]}, {"file": "buttons/button_base.h", "symbols": ["Loop", "SendClick"]}]}
{"id": "C121", "title": "Turning the hilt changes a setting smoothly and within its range", "statement": "In a mode that changes a setting by turning the hilt, every value set is between 0 and 32767; select keeps the last one and cancel sets the value the setting had on entry, whatever was turned, clicked or loaded in between. For wrap-around settings the value follows the total rotation (so many turns for the whole range) and coming back to the same rotation gives exactly the same value. For settings with ends, turning one way never moves the value the other way, it moves in proportion between the ends, the bump is felt only at an end, and each end can be reached from anywhere. Exceptions: opening a setting with ends and not turning lowers it by 1 percent of the range; at the top end the button that goes up jumps to the bottom.", "quantifier": "every sequence of sensor readings of a hilt that turns by less than half a turn between two loops, every number of revolutions of at least one, every margin, every way of storing the setting", "why_tests_cant": "the sensor only shows angles up to full turns, and rotation is accumulated over arbitrarily many loops", "anchors": [{"file": "common/angle.h", "symbols": ["Angle", "TRUNC", "fromFixed", "fromFixedWithMargin", "increment_with_guardrails", "fixed", "fixed_with_margin"]}, {"file": "modes/smooth_mode.h", "symbols": ["SmoothBase", "SmoothWraparoundMode", "SmoothMode", "DeltaAngle"]}]}
{"id": "C122", "title": "Turning the hilt steps through a menu without skipping or flickering", "statement": "In a menu, the number of steps forth minus steps back times the step size never differs from the total rotation since the menu was opened by more than the reach of an entry (33.75 degrees for the default 6 steps per turn); spun faster than a turn per second the steps are smaller by the square of the speed. Held still, no step is taken. After a step, a step the other way is only taken when the hilt has been turned back by at least the dead zone (7.5 degrees by default).", "quantifier": "every sequence of readings of a hilt that turns by at most one step between loops, any spin, any number of steps per turn from 4, any dead zone up to 100 percent", "why_tests_cant": "it is an invariant over arbitrarily long turning in both directions across the point where the sensor wraps", "anchors": [{"file": "modes/stepped_mode.h", "symbols": ["SteppedModeBase", "mode_Loop", "stepsize", "twistsize"]}, {"file": "common/angle.h", "symbols": ["Angle"]}]}
{"id": "C123", "title": "Editing one style argument in the menu changes that argument only", "statement": "In the style argument menus, whatever the user does in whatever order, an operation either changes no style at all or it is the one that stores, and then exactly one argument of one style changes: the argument chosen, one the style really uses, of the style of the blade being edited in the current preset; it becomes the value shown, the style stays the same style and every other argument reads as before. Looking, turning and then cancelling changes nothing and leads back to the argument list. A number changes by the steps turned, around its maximum; a color saved is the color shown when it is opened again. Exceptions: storing a fraction or a time leaves the argument list as well; a time that is opened and stored unturned becomes another time; reset to default looks up the wrong argument for builtin styles; the place in the list is kept for a style with fewer arguments, and selecting there is undefined.", "quantifier": "every sequence of menu operations over presets and blades, every table of named styles, every style text without a blank at its end, every maximum of the arguments", "why_tests_cant": "the edited text, the argument offset of builtin styles and the list of arguments interact over arbitrarily long sessions", "anchors": [{"file": "modes/style_option_modes.h", "symbols": ["SelectArgSmoothMode", "SelectArgTime", "SelectArgNumber", "SelectArgMode"]}, {"file": "modes/style_argument_helpers.h", "symbols": ["GetArg", "SetArg", "GetColorArg", "SetColorArg", "GetIntArg", "SetIntArg"]}, {"file": "modes/color_menues.h", "symbols": ["ColorSelectMode", "ResetColorToDefaultEntry", "SaveColorEntry"]}, {"file": "styles/style_parser.h", "symbols": ["GetArgInfo", "GetArgument", "SetArgument"]}]}
{"id": "C124", "title": "Copying style settings in the menu affects the selected blade's style only", "statement": "Apply settings, apply colors, reset settings and reset colors change exactly one style text: that of the blade whose style was selected, in the current preset. It keeps the words that name it and takes the arguments (or the colors, or nothing) of the selected style. Apply colors to all blades gives every other blade of the current preset the selected blade's colors and touches nothing else. Exceptions: when another blade is being edited its style does not change; without a selected style applying to all blades and resetting the settings are undefined; choosing another style from the list never changes to that style but drops all arguments; the list says the preset number as the blade and the blade number as the preset.", "quantifier": "every state of the menus, every preset, blade and style text", "why_tests_cant": "the texts and the two blade numbers kept by the menus are arbitrary", "anchors": [{"file": "modes/style_option_modes.h", "symbols": ["SelectStyleEntry", "ApplyColorsFromSelectedStyleEntry", "ApplyColorsToAllBladesEntry", "ApplyStyleArumentsFromSelectedStyleEntry", "ResetColorsEntry", "ResetStyleArgumentsEntry", "SelectStyleMenu"]}, {"file": "styles/style_parser.h", "symbols": ["CopyArguments", "CopyColorArguments", "GetBuiltinPos"]}, {"file": "common/current_preset.h", "symbols": ["GetStyle", "SetStyle", "mk_builtin_str"]}]}
{"id": "C125", "title": "Devices share the I2C bus in turn", "statement": "Whatever devices lock, queue for and unlock the I2C bus, from the main loop and from interrupts in any interleaving, the lock behaves as a queue: a device that is already using the bus or waiting for it is refused, any other request for a turn is accepted; accepted requests are served in the order in which they were accepted, each exactly once; from the moment a device gets the bus until it gives it back nobody else gets it and nobody is called; the first in line is called as soon as the holder gives the bus back. This supposes that a device does not give back the bus between being given it and being called: otherwise a null pointer is followed or another device is called twice. A device that only tries the lock instead of queueing may be refused for ever while others take turns.", "quantifier": "every sequence of lock, queue and unlock calls of any number of devices, with the call of the next device coming any time later", "why_tests_cant": "the linked queue threads through the devices and is changed from interrupts; its order over arbitrarily long histories and any number of devices is not a finite set of cases", "anchors": [{"file": "common/i2cdevice.h", "symbols": ["I2CLock", "I2CLockAndRun", "I2CUnlock", "RunLocked"]}]}
{"id": "C126", "title": "The I2C bus is on while it is asked for and sleeps otherwise", "statement": "The bus is first started a second after the loop first ran. Once on it stays on without interruption for as long as the loop always runs within two seconds of the latest request by any device, however long that is and across overflow of the millisecond counter. It is switched off the first time the loop runs more than two seconds after the latest request and then stays off until there is one. A request while it sleeps is refused, but the next run of the loop, if within two seconds, starts it and then requests are granted. Exceptions: after 24.9 days without a request it starts by itself; holding the bus does not keep it on.", "quantifier": "every history of requests and runs of the loop, at any times", "why_tests_cant": "the 32-bit clock wraps after 49 days and its comparison after half that", "anchors": [{"file": "common/i2cbus.h", "symbols": ["Loop", "used", "inited"]}, {"file": "common/state_machine.h", "symbols": ["SLEEP", "YIELD"]}]}
{"id": "C127", "title": "Smooth swings follow the angle turned", "statement": "While a swing lasts, the volumes of its two sounds depend only on the angle the hilt has turned since it began and on the strength of the swing: not on how fast, in how many steps or with what interruptions of up to a second it was turned. The two volumes add up to the volume of the swing; the transitions to the one and the other sound follow each other at the configured distances, each over its configured width. If one transition ends before the next begins the volumes change smoothly: the part of each sound changes by no more than the angle turned over the smallest width. The search for the next transition ends whenever the two separations are positive together. Exceptions: with wider transitions the volumes jump; with separations of zero in the configuration file the first swing hangs the board.", "quantifier": "every sequence of motions of any speeds at any times within a swing, every configuration", "why_tests_cant": "the loop swaps the two sounds any number of times within one motion, and rotations add up over arbitrarily many motions", "anchors": [{"file": "sound/smooth_swing_v2.h", "symbols": ["SB_Motion", "Swap", "rotate", "begin", "end"]}, {"file": "sound/smooth_swing_config.h", "symbols": ["SmoothSwingConfigFile"]}]}
{"id": "C128", "title": "Swing sounds are heard during swings and only while the blade is on", "statement": "A swing begins when the speed reaches the threshold and lasts until it falls below nine tenths of it. Every motion sets the hum volume once, after everything else, between 0 and 1: full outside swings, ducked by the strength of the swing within. Outside swings the swing sounds are only ever set to silence. From turning off the main blade until turning it on no swing sound is started and none gets a volume but zero. A new pair of sounds is picked only while the hum plays; it is the low and the high sound of the same number, each started silent; once a pair plays the next one starts at least a second later. Exceptions: at the end of a swing the sounds are stopped at once instead of fading; the separations are those of the players, not of the low and high sound.", "quantifier": "every history of turning on and off, motions at any times, random numbers and free players", "why_tests_cant": "the state machine, its hysteresis and the swapping of players interact over arbitrarily long histories", "anchors": [{"file": "sound/smooth_swing_v2.h", "symbols": ["SB_Motion", "PickRandomSwing", "SB_On", "SB_Off", "Activate", "Deactivate"]}]}
{"id": "C129", "title": "Several colors on a blade are shown in order and in equal shares", "statement": "Mixing any number of colors by a function from 0 to 32768 shows, at each value, the color that far on the way from the first to the last, each stretch between neighbours being equally long, rounded down per channel; 0 and 32768 are exactly the first and last color, and with three or more colors values outside the range show the first or last. A gradient takes equal steps along the colors, starting with exactly the first; the last LED is short of the last color by less than LEDs - 1 parts in 32768. Remap shows the color at the place its function names, and never asks for an LED the blade does not have. Exceptions: with two colors, values outside the range wrap around; the last LED of a gradient need not be the last color; a gradient on one LED divides by zero; mixing by RampF is not the gradient; remapping by the inverse of RampF is not the reversed blade.", "quantifier": "every list of colors, every function value, every number of LEDs", "why_tests_cant": "the number of colors is unbounded and each has a template tree of its own", "anchors": [{"file": "styles/mix.h", "symbols": ["Mix", "MixHelper2"]}, {"file": "styles/gradient.h", "symbols": ["Gradient"]}, {"file": "styles/remap.h", "symbols": ["Remap"]}, {"file": "functions/ramp.h", "symbols": ["RampF"]}, {"file": "common/typelist.h", "symbols": ["SplitTypeList"]}]}
{"id": "C130", "title": "Color sequences keep time and color selections show the selected color", "statement": "A color sequence that is run at least once per color shows color number k in the kth period since its start, without drift, also when the clock wraps around. After a pause of more than ten periods it starts over, after a shorter one it catches up by a color in each run; it always shows one of its colors. A color selected by a function is number f modulo the number of colors, also for negative f. The transition begins exactly when that number changes and runs from the color selected before to the one selected now; once it is done the selected color is shown. Exception: a new selection during a transition makes the blade jump to the color it had not yet reached.", "quantifier": "every sequence of run times and function values, every number of colors (up to 256 for selections)", "why_tests_cant": "the times are a history of any length on a clock that wraps around", "anchors": [{"file": "styles/sequence.h", "symbols": ["ColorSequence"]}, {"file": "styles/color_select.h", "symbols": ["ColorSelect"]}]}
{"id": "C131", "title": "Stripes move at the asked speed and never leave gaps", "statement": "A stripes style shows at each LED one color at the strength of a sine of its place in the pattern plus the end of the color before it, and nothing else; between two stripes of one color it is nowhere darker than 86 percent. The pattern moves by speed times time, whatever the frame times, up to one 1024th of a position per frame; the distance of LEDs in the pattern is inverse to the width. With hard stripes a pixel that lies within one stripe has exactly its color. Exceptions: a width function that returns 0 divides by zero; a pause of over two seconds overflows; where two hard stripes meet the pixel may be far too dark; hard stripes wider than 50000 are black.", "quantifier": "every list of colors, width, speed, LED number and sequence of frame times", "why_tests_cant": "sums over any number of frames and any number of colors; the faults are at single positions", "anchors": [{"file": "styles/stripes.h", "symbols": ["StripesBase", "StripesHelper", "HardStripesBase"]}, {"file": "common/sin_table.h", "symbols": ["sin_table"]}, {"file": "common/range.h", "symbols": ["intersect_with_stripes"]}]}
{"id": "C132", "title": "Sparkles spread, fade and never overflow", "statement": "However a sparkling style is run and whatever the random numbers, for spark intensities up to 1727 (the default is 1024) it stays within its memory, every LED's value is between 0 and 32768 and no heat wraps around. Every 10 ms or more each LED gets 570/1024 of its own heat and 200/1024 of each neighbour's, and the LED drawn gets the spark; in between nothing changes. Without new sparks every LED is dark after 170 updates. Exceptions: the last LED loses all its heat in each update and the last but one gets the heat the last should have; an intensity of 32768 leaves the LED dark.", "quantifier": "every blade length, chance, intensity up to 1727, and every history of run times and random numbers", "why_tests_cant": "overflow would need an unlucky history of draws; the bound is a limit over histories of any length", "anchors": [{"file": "functions/sparkle.h", "symbols": ["SparkleBase", "SparkleF"]}]}
{"id": "C133", "title": "Blasts start bright, fade out in the asked time and stay in range", "statement": "The blast fadeout of a blade is the sum of what its remembered blasts give, cut at 32768: each gives 32768 at first and falls to zero in FADEOUT_MS, so the sum only falls while no blast is added and is zero when all are older. Effects of other types or on other blades do not count. A blast wave is always in 0 .. 32768; an LED nearer to the front of the wave than 32 / WAVE_SIZE of the blade gets the hump's value there, faded, one that is 33 / WAVE_SIZE or more away gets nothing. A random effect is located on the lower 70 percent of the blade. Exceptions: between 32 and 33 the hump's table is read past its end; one blast never reaches 32768 but only 32640; a fadeout of over 7 seconds is cut short because the effect is forgotten; one random location in 22937 is two blade lengths away from the hilt.", "quantifier": "every list of remembered effects (up to ten), every time, LED, blade length and all parameters (FADEOUT_MS at least 2)", "why_tests_cant": "the out-of-range read happens at single combinations of LED, time and place; times wrap around", "anchors": [{"file": "functions/blast.h", "symbols": ["BlastF", "BlastFadeoutF", "blast_hump"]}, {"file": "common/saber_base.h", "symbols": ["EffectLocation", "GetEffects"]}, {"file": "functions/effect_position.h", "symbols": ["EffectPosition"]}]}
{"id": "C134", "title": "Noise stays in range and changes no faster than asked", "statement": "Slow noise is between 0 and 32768 and moves at most SPEED per millisecond, taking one random step per millisecond for gaps up to 100 ms. Brown noise gives every LED a value between 0 and 32768 that differs from its neighbour's by at most GRADE. Random blinking shows each LED full or dark, keeps the pattern for 10^9 / MILLIHZ microseconds and then gives every LED its own new random bit. Exceptions: after a gap of over 100 ms slow noise takes a single step; MILLIHZ 0 divides by zero.", "quantifier": "every history of run times and random numbers, every speed, grade, frequency and number of LEDs", "why_tests_cant": "random walks of any length", "anchors": [{"file": "functions/brown_noise.h", "symbols": ["SlowNoise", "BrownNoiseF"]}, {"file": "functions/random_blink.h", "symbols": ["RandomBlinkF"]}]}
{"id": "C135", "title": "Times since an effect and since ignition are right", "statement": "The time since an effect is exact up to 1000 seconds and afterwards at least 1000 seconds and never more than the truth, for every history of calls at most 54 minutes apart, also when the clock wraps around. The ignition flash is full in the frame that first sees the blade on, falls to zero in MILLIS milliseconds (up to 131072) and stays zero. Exceptions: a style made more than 71 minutes after start that has seen no effect answers with an arbitrary, possibly small time; a flash longer than 131 seconds becomes full again after 131 seconds.", "quantifier": "every history of calls, effects and switchings", "why_tests_cant": "the clock wraps around after 71 minutes and the histories are longer", "anchors": [{"file": "functions/time_since_effect.h", "symbols": ["TimeSinceEffectSVF"]}, {"file": "functions/on_spark.h", "symbols": ["OnSparkFSVF"]}]}
{"id": "C136", "title": "Beeps are played whole, in order and at their pitch", "statement": "However the beeper is read, in reads of any sizes, it gives exactly the square waves asked for, one after the other, each for its whole length: the samples do not depend on how they are read, and the beeper says it is playing until the last has been given. A beep on a beeper at rest starts up and changes sign every half period, a whole period being 44100 / frequency samples rounded down to even. Silence is zero after the rest of the half wave before it. Samples are 0, 200 or -200. Of beeps asked for at once the first sixteen are kept. Exceptions: a beep too short for one sample is never finished and blocks the beeper; above 22050 Hz there is no sound.", "quantifier": "every queue of beeps, every sequence of reads of any sizes, every frequency and length", "why_tests_cant": "the reads are cut by the sound buffer at places unrelated to the beeps", "anchors": [{"file": "sound/beeper.h", "symbols": ["Beeper", "read", "Beep", "Silence", "isPlaying"]}]}
{"id": "C137", "title": "The blade length menu sets what it shows, or nothing", "statement": "However the menu is turned, selecting gives the chosen blade the length that is shown by the one lit LED: the old length plus the steps, around the ends, always between 1 and the number of LEDs; it is saved on the card, and the running style uses it. Other blades keep theirs. Cancelling leaves all lengths as they were, and while the menu is open the card keeps the old ones. Exceptions: without a card a selected length is lost at once; a stored length that does not suit the blade is shown and can be selected again; with a blade without LEDs turning divides by zero.", "quantifier": "every number of blades, blade, stored lengths, and every sequence of steps", "why_tests_cant": "the menu works on a copy that is overwritten, saved and read back in between", "anchors": [{"file": "modes/settings_menues.h", "symbols": ["ChangeBladeLengthBlade1", "ShowLengthStyle"]}, {"file": "modes/menu_base.h", "symbols": ["MenuBase"]}, {"file": "props/prop_base.h", "symbols": ["GetBladeLength", "SetBladeLength", "UpdateStyle", "AllocateBladeStyles"]}]}
{"id": "C138", "title": "Other setting menus keep or restore the setting", "statement": "Stepping the color variation changes it by one per step (around 2^32), tells the styles each time, and cancelling restores it exactly; either way the color change mode ends. Selecting a clash threshold sets the value said, cut to whole G, 0 to 15; cancelling leaves it. In the menus hum and effects are quiet, and leaving the menus restores their volumes. A switch turns over each time it is selected and says its new value. Exceptions: what is said is the threshold that is set only at three places of the dial; selecting at the starting value takes 1 G from any whole threshold other than 0, 1, 4, 9; when the font has been changed in the menu the old font's volumes are restored.", "quantifier": "every setting and every sequence of steps, values and font changes", "why_tests_cant": "the drift and the wrong volumes only show after particular histories", "anchors": [{"file": "modes/color_change_modes.h", "symbols": ["SteppedVariationMode"]}, {"file": "modes/settings_menues.h", "symbols": ["SmoothClashThresholdMode"]}, {"file": "modes/top_menu_wrapper.h", "symbols": ["TopMenuWrapper"]}, {"file": "modes/bool_setting.h", "symbols": ["DirectBoolEntry", "IndirectBoolEntries"]}, {"file": "common/saber_base.h", "symbols": ["UpdateVariation", "SetVariation", "SetColorChangeMode"]}]}
{"id": "C139", "title": "Images drawn in the air are the images given", "statement": "The image tools' compressed tables give back every column exactly, whatever the image: each column is decoded from its own offset to the bytes it was made from, without leaving a buffer, although columns share and overlap data; a column that is there already takes no more data. The encoder's output is in the documented format, fits its buffer, and the decoder reads every text in that format. The tool for numbered colors names each pixel's color by its number, and fails only with more than 256 colors. Between its two angles the style shows the column that far into the image, stretched over the blade; ContinuousPOV always picks a column of the image and moves by the angle swept. Exceptions: a color column of 87 pixels or more in one color makes the tool abort; outside its angles the style keeps showing the last column (or divides by a number never set) instead of going dark; repeated and mirrored, it reads before the start of the table below its first angle and never shows the second half of the image between its angles; the last column is never shown by ContinuousPOV.", "quantifier": "every image, every column up to 256 bytes or without a long repeat, every angle, blade length, clock and swing speed", "why_tests_cant": "matches, runs and literal stretches interact, and the tables overlap, differently in every image", "anchors": [{"file": "pov_tools/rle.h", "symbols": ["rle_encode_internal", "rle_encode", "rle_decode"]}, {"file": "pov_tools/pgmtorle.cc", "symbols": ["main"]}, {"file": "pov_tools/pnmquantizedtorle.cc", "symbols": ["main"]}, {"file": "styles/pov.h", "symbols": ["rle_decode", "POVStyleBase", "StylePOV", "ContinuousPOV"]}]}
{"id": "C140", "title": "Sound alternatives and color variation stay together", "statement": "With SyncAltToVariance in the style, after each turn of the synchronizer the font's alternative is the one the color variation stands for (the variation modulo the number of alternatives), whatever was done to either in between. The side that was changed decides, the variation if both were; a sound is played exactly when the variation decides, and not when the style starts. Nothing happens while nothing changes, or when the font has no alternatives.", "quantifier": "every sequence of variation changes, alternative changes and turns, every number of alternatives", "why_tests_cant": "which side wins depends on the history since the last turn", "anchors": [{"file": "functions/alt.h", "symbols": ["SyncAltToVarianceSVF"]}, {"file": "sound/hybrid_font.h", "symbols": ["EFFECT_ALT_SOUND"]}, {"file": "common/saber_base.h", "symbols": ["SetVariation", "UpdateVariation"]}]}
{"id": "C141", "title": "Each LED gets the style's color, on the length that is set", "statement": "A style's frame sets every LED of the blade once, in order, to the style's color: unchanged if the style handles color variation itself, the blade has no colors or the variation is a multiple of 32768, and otherwise with its hue turned by the variation; dimming scales every channel of all colors that are not overdriven. On a blade that is set shorter the style's frame fills the shorter length and the other LEDs are black. The length finder lights exactly the LED the variation names (the last if it is too far), says its number, waits more than three seconds between numbers, and three seconds after speaking what it said last is what is lit. RGBCycle shows red, green and blue once each in three successive milliseconds. Exceptions: a step below the first LED lights the last one; a stored length below -1 sets LEDs before the first.", "quantifier": "every style, blade length, stored length, variation, dimming, clock and sequence of variations", "why_tests_cant": "histories of clock readings and variations, and lengths of any relation to the blade", "anchors": [{"file": "styles/style_ptr.h", "symbols": ["StyleHelper"]}, {"file": "styles/blade_shortener.h", "symbols": ["BladeShortenerWrapper"]}, {"file": "styles/length_finder.h", "symbols": ["LengthFinder"]}, {"file": "styles/rgb_cycle.h", "symbols": ["RGBCycle"]}]}
{"id": "C142", "title": "The extrapolated motion value is on the line through the last samples", "statement": "Whatever was pushed and asked before, and however often the 32-bit microsecond clock has gone round, the value given for a time is on the least squares line through the last SIZE samples, and the slope is that line's slope. So samples on a line are continued along it and equal samples stay equal, even at one single time; older samples leave no trace; it is ready exactly when SIZE samples came since it was cleared; the newest is the one pushed last; clearing makes the given value the only sample. This holds while the samples it may measure time from (the last SIZE+1023) are less than 2^32 microseconds old.", "quantifier": "every SIZE from 1 to 1024, every sequence of pushes and queries, every clock", "why_tests_cant": "the sums are kept incrementally and rebuilt every 1024 pushes: only an invariant over all histories shows that they stay those of the last samples", "anchors": [{"file": "common/extrapolator.h", "symbols": ["Extrapolator", "IncrementalLine", "push", "get", "slope", "clear", "ready", "last"]}]}
{"id": "C143", "title": "Readers of the analog-digital converter do not mix up their values", "statement": "Any number of readers may share the converter. The value a reader gets was measured on its own pin after it started, whatever the others did; two never read at once, and a reader can start exactly when no other has started without having got its value. Waiting for one's turn never uses a null pointer and ends after four conversions at most. AnalogReadPinF gives eight times what its pin measures if nobody reads. Exceptions: if another reader (the battery monitor, say) has started, its first run never ends; a reader that is deleted while it reads keeps all others from starting for ever.", "quantifier": "every number of readers, every sequence of starts, queries and ends of conversions", "why_tests_cant": "the readers share one converter and interleave in any order", "anchors": [{"file": "common/analog_read.h", "symbols": ["AnalogReader", "Start", "Done", "LoopUntilStart", "loop"]}, {"file": "functions/readpin.h", "symbols": ["AnalogReadPinSVF"]}]}
{"id": "C144", "title": "Sound output has no gaps", "statement": "If each interrupt of the sound output comes before the half of the buffer that plays is over, what is heard is two halves of silence and then every sample the mixer gave, once and in order, filled up with silence where it gave too few. If interrupts are missed each half still plays whole: the block before is heard again. A Teensy's converter gets the highest twelve bits of each sample. Exception: when the interrupts stop, the last two blocks are repeated for ever.", "quantifier": "every buffer size, channel count and coding, every time of each interrupt within its half, every sequence of blocks", "why_tests_cant": "the interrupt comes at any moment while the other half plays, for an unbounded number of halves", "anchors": [{"file": "sound/dac.h", "symbols": ["LS_DAC", "isr", "begin", "current_position"]}]}
{"id": "C145", "title": "Waves and sparks run out from where they began", "statement": "A TrWave shows only within 32/SIZE of a blade's length from its front, which runs both ways from the centre it had when it began and passes a blade's length in WAVE_MS; within 2/SIZE it shows at 255/256 of what is left of its fade time, nowhere stronger, and the nearer to the front the more. When its time is over it shows nothing and is done. A TrSpark shows exactly around a front that runs a blade's length in its time. Centre and size are those of the first frame, whatever they become. Exceptions: a size below zero reads outside a table; a WAVE_MS function that becomes zero divides by zero.", "quantifier": "every blade length up to 65535 LEDs, every centre, size, speed and time without overflow, every sequence of frames, every LED", "why_tests_cant": "frames come at any time and the parameters are functions that change from frame to frame", "anchors": [{"file": "transitions/wave.h", "symbols": ["TrWaveX", "TrSparkX"]}, {"file": "functions/blast.h", "symbols": ["blast_hump"]}, {"file": "transitions/base.h", "symbols": ["TransitionBaseX"]}]}
{"id": "C146", "title": "A colour cycle fills the ring in its time", "statement": "TrColorCycle shows nothing of the new colour at its first frame and every LED wholly in it when it is done. In between the new colour is one arc of the ring, each LED shows it by the part of the LED that is in the arc, and the arc is the part of the blade that the time passed is of the whole time, to a 16384th of an LED, if the time is at most 16384 ms per LED. It turns at a speed that goes evenly from START_RPM to END_RPM; at a constant speed it turns with the clock however time is cut into frames, and it goes on where it was after a pause of more than a second. Exception: with more than 16384 ms per LED all can go dark just before the end.", "quantifier": "every blade length, time, speed and start position, every sequence of frames, every LED", "why_tests_cant": "frames come at any time; the arc wraps around at any place", "anchors": [{"file": "transitions/colorcycle.h", "symbols": ["TrColorCycleX"]}, {"file": "common/range.h", "symbols": ["Range"]}, {"file": "common/math.h", "symbols": ["fract"]}]}
{"id": "C147", "title": "A sound player in use is not given to someone else", "statement": "However pointers to the players are constructed, copied, moved, assigned, freed and destroyed, the count of a player is the number of pointers to it. A player handed out as free neither plays nor is pointed to, and none is handed out only when each plays or is pointed to. A sound is cut off for a new one only if no player is free, nobody points to its player, its effect may be killed and no other that may be is nearer to its end. The player of an effect is one that plays it, if any does. Exception: != between two pointers says whether they are equal.", "quantifier": "every number of players and pointers, every sequence of operations on pointers and of sounds starting and ending", "why_tests_cant": "pointers are held by fonts, menus, props and styles that come and go in any order", "anchors": [{"file": "common/ref.h", "symbols": ["RefPtr"]}, {"file": "sound/sound.h", "symbols": ["GetFreeWavPlayer", "GetWavPlayerPlaying", "GetOrFreeWavPlayer"]}, {"file": "sound/buffered_wav_player.h", "symbols": ["AddRef", "SubRef", "Available"]}]}
{"id": "C148", "title": "A screen file tells the layers what its lines say", "statement": "For every list of layer, file, restart, time and variable lines, with either line end, the layers of a screen are told exactly what the lines say, in their order; comments and the blanks before them change nothing. Whatever a file holds, no layer is told anything that does not exist, and once there are too many layer lines the rest is ignored. A file that is shown already goes on undisturbed without a restart line. Exceptions: a restart line before the file line also restarts later layers and screens, a last line without a line end is dropped, file, time or a variable without a value uses a null pointer, and the rest of a line over 165 characters is read as another line.", "quantifier": "every screen file, every number of layers, every set of files shown before", "why_tests_cant": "the files are written by users and authors of fonts, with any text in them", "anchors": [{"file": "display/layer_controller.h", "symbols": ["SCRReader", "parse_variable_source", "loop"]}]}
{"id": "C149", "title": "The status LED blinks as often as it is told and is off when there is nothing to show", "statement": "Whatever it did before and whatever the schedule of its loop, a request for N blinks shows N flashes of a quarter of a second, half a second apart, then a second and a half of dark; it repeats if asked to, each round beginning once the last is over, and otherwise ends. In every history the LED is off when there is nothing to show, is never set beyond its range, lights wholly at the start of every 2.048 s while charging, and otherwise pulses 50 to 250 times a minute. Exception: after blinks the pulse does not begin in the dark.", "quantifier": "every state before, every schedule of the loop, every number of blinks, every loop rate", "why_tests_cant": "error codes are told by counting flashes; the loop's timing and what else the board does vary", "anchors": [{"file": "common/status_led.h", "symbols": ["StatusLED", "Loop", "Blink"]}]}
{"id": "C150", "title": "Sin, Saw and PulsingF go round with the clock, whatever the frame rate", "statement": "However the time is cut into frames, Saw and Sin are where RPM turns a minute take them, also for a negative RPM; Saw is that far from LOW to HIGH, Sin follows the sine between them, neither is ever outside of them, and after a whole number of turns the value is the same again. PulsingF repeats every PULSE_MILLIS milliseconds and stays from 1 to 32767. Exception: PulsingF is undefined ever after a PULSE_MILLIS of 0.", "quantifier": "every RPM, LOW, HIGH and PULSE_MILLIS, every list of frames, every start of the position", "why_tests_cant": "frames come at any times, with the microsecond clock wrapping among them", "anchors": [{"file": "functions/sin.h", "symbols": ["SinSVF", "SawSVF", "PulsingFSVF"]}, {"file": "common/sin_table.h", "symbols": ["sin_table"]}]}
{"id": "C151", "title": "Screens and pictures are read as their files say, whenever the buffer is filled", "statement": "For every file and every interleaving of filling the buffer, taking characters and seeking, each character taken is the one at the reader's place in the file, and the place is what the reader believes. Without seeks the characters taken are a beginning of the file, and all of it exactly when the end is reported; at any place in the file there is something to take after at most two fillings; a missing file is at its end at once. Exceptions: past the end of the file the end is never reported, and a seek before the file is opened is forgotten.", "quantifier": "every file, every schedule of filling, reading and seeking, of any length", "why_tests_cant": "the buffer is filled by whatever runs the audio streams, at times that depend on everything else", "anchors": [{"file": "display/layer_controller.h", "symbols": ["BufferedFileReader", "FillBuffer", "SEEK", "TELL", "ATEOF", "getc"]}]}
