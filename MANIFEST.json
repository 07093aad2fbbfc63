{
 "claims": [
  {
   "property": "C01",
   "status": "proved",
   "theorems": [
    "C01_atomic",
    "C01_atomic_equal_length",
    "C01_mixture_refuted",
    "C01_first_save_refuted"
   ],
   "note": "The unconditional claim is refuted, the conditional one proved. Once a first save has completed: every history without an interruption leaving 21..27 bytes unstored, or without one leaving 37..51 bytes unstored (C01_atomic), and every interruption point when all saves have equal size (C01_atomic_equal_length). With both kinds of interruption and different sizes a concrete history loads a mixture (C01_mixture_refuted). Before the first completed save two interruptions suffice (C01_first_save_refuted)."
  },
  {
   "property": "C02",
   "status": "proved",
   "theorems": [
    "C02_checksum_single_byte",
    "C02_damage_detected"
   ],
   "note": ""
  },
  {
   "property": "C03",
   "status": "proved",
   "theorems": [
    "C03_key_value_round_trip",
    "C03_one_line"
   ],
   "note": ""
  },
  {
   "property": "C04",
   "status": "proved",
   "theorems": [
    "C04_read_back",
    "C04_load"
   ],
   "note": ""
  },
  {
   "property": "C05",
   "status": "proved",
   "theorems": [
    "C05_save_at"
   ],
   "note": ""
  },
  {
   "property": "C06",
   "status": "proved",
   "theorems": [
    "C06_int_round_trip",
    "C06_key_int_round_trip",
    "C06_float_round_trip",
    "C06_negative_float_refuted"
   ],
   "note": "Integers fully; non-negative decimals to two places; negative decimals are corrupted by the writer (C06_negative_float_refuted)."
  },
  {
   "property": "C07",
   "status": "proved",
   "theorems": [
    "C07_Read",
    "C07_Read_end",
    "C07_write_read",
    "C07_other_build",
    "C07_word_line_refuted",
    "C07_empty_value_refuted"
   ],
   "note": "For files made of well-formed lines; a bare word or an empty value swallows the next line (refuted theorems)."
  },
  {
   "property": "C08",
   "status": "proved",
   "theorems": [
    "C08_GetArg",
    "C08_Shift"
   ],
   "note": ""
  },
  {
   "property": "C09",
   "status": "proved",
   "theorems": [
    "C09_SetArgument",
    "C09_overflow_refuted",
    "C09_trailing_blank_refuted"
   ],
   "note": "For strings without trailing blank that name a known style, arguments that do not select the style, and results under 512 bytes; outside these the claim is false of the code and refuted by the *_refuted theorems."
  },
  {
   "property": "C10",
   "status": "proved",
   "theorems": [
    "C10_CopyArguments",
    "C10_ResetArguments",
    "C10_CopyArgumentsAfter_text",
    "C10_CopyArgumentsAfter_refuted",
    "C10_CopyArgumentsAfter_position_refuted",
    "C10_CopyArgumentsKeep",
    "C10_CopyColorArguments"
   ],
   "note": "The CopyArguments(from,to,n) form can overflow its buffer (refuted theorem); all other forms fit exactly."
  },
  {
   "property": "C11",
   "status": "proved",
   "theorems": [
    "C11_defaults"
   ],
   "note": ""
  },
  {
   "property": "C12",
   "status": "proved",
   "theorems": [
    "C12_popcount",
    "C12_members",
    "C12_set_clear",
    "C12_next",
    "C12_prev",
    "C12_prev_next",
    "C12_next_visits_all",
    "C12_next_full_circle",
    "C12_nth",
    "C12_shift"
   ],
   "note": "nth past the last member reads outside the array; stated in C12_nth."
  },
  {
   "property": "C13",
   "status": "proved",
   "theorems": [
    "C13_compare_is_dictionary_order",
    "C13_consistent_order",
    "C13_greater_equal_refuted"
   ],
   "note": "operator>= is wrong (refuted theorem)."
  },
  {
   "property": "C14",
   "status": "proved",
   "theorems": [
    "C14_startswith",
    "C14_endswith",
    "C14_FirstWord",
    "C14_words_sound",
    "C14_words_of_join",
    "C14_CountWords"
   ],
   "note": ""
  },
  {
   "property": "C15",
   "status": "proved",
   "theorems": [
    "C15_pattern_round_trip",
    "C15_match_sound",
    "C15_format_fits",
    "C15_no_star_refuted"
   ],
   "note": "A pattern without star divides by zero (refuted theorem)."
  },
  {
   "property": "C16",
   "status": "proved",
   "theorems": [
    "C16_near_times_compare_correctly",
    "C16_before_exactly",
    "C16_durations"
   ],
   "note": ""
  },
  {
   "property": "C17",
   "status": "proved",
   "theorems": [
    "C17_MOD_is_remainder",
    "C17_clamp_nearest"
   ],
   "note": ""
  },
  {
   "property": "C18",
   "status": "proved",
   "theorems": [
    "C18_sqrt_exact",
    "C18_sqrt_all_ints_refuted"
   ],
   "note": "Exact below 2^29; refuted for all ints."
  },
  {
   "property": "C19",
   "status": "proved",
   "theorems": [
    "C19_stripes_count",
    "C19_count_unique",
    "C19_far_stripe_refuted"
   ],
   "note": "Exact while no product overflows; refuted for far stripes."
  },
  {
   "property": "C20",
   "status": "proved",
   "theorems": [
    "C20_circular_buffer_is_fifo"
   ],
   "note": ""
  },
  {
   "property": "C21",
   "status": "proved",
   "theorems": [
    "C21_buffered_audio_in_order"
   ],
   "note": ""
  },
  {
   "property": "C22",
   "status": "proved",
   "theorems": [
    "C22_sound_queue"
   ],
   "note": ""
  },
  {
   "property": "C23",
   "status": "proved",
   "theorems": [
    "C23_mix8",
    "C23_mix16",
    "C23_mixcolors",
    "C23_scale_union",
    "C23_mix_clamped_refuted"
   ],
   "note": "mix_clamped is refuted for its own clamp bound (C23_mix_clamped_refuted): a finding."
  },
  {
   "property": "C24",
   "status": "proved",
   "theorems": [
    "C24_bytes_sent",
    "C24_combine",
    "C24_invert",
    "C24_eco",
    "C24_rgbw_refuted"
   ],
   "note": "Byte orders with four channels are refuted for invert and combine (C24_rgbw_refuted): a finding."
  },
  {
   "property": "C25",
   "status": "proved",
   "theorems": [
    "C25_in_range",
    "C25_ops_in_range",
    "C25_fade",
    "C25_opaque_hides",
    "C25_transparent_neutral",
    "C25_between",
    "C25_flatten",
    "C25_conversion_refuted"
   ],
   "note": "The conversion from straight to premultiplied color is refuted (C25_conversion_refuted): a finding."
  },
  {
   "property": "C26",
   "status": "proved",
   "theorems": [
    "C26_remembered",
    "C26_stale_refuted"
   ],
   "note": "Holds while effects are queried at least every 71 minutes; afterwards old effects become young again (C26_stale_refuted)."
  },
  {
   "property": "C27",
   "status": "proved",
   "theorems": [
    "C27_detector",
    "C27_same_time_refuted"
   ],
   "note": "Two effects in the same microsecond with a query in between lose the second (C27_same_time_refuted)."
  },
  {
   "property": "C28",
   "status": "proved",
   "theorems": [
    "C28_sets",
    "C28_lockup",
    "C28_switching"
   ],
   "note": ""
  },
  {
   "property": "C29",
   "status": "proved",
   "theorems": [
    "C29_debounce",
    "C29_release_refuted"
   ],
   "note": "Pressing is debounced; releasing is not (C29_release_refuted)."
  },
  {
   "property": "C30",
   "status": "proved",
   "theorems": [
    "C30_button_cycle",
    "C30_delivery",
    "C30_slow_polls_refuted"
   ],
   "note": "For quick polls; slow polls can repeat hold events (C30_slow_polls_refuted). handlers are arbitrary."
  },
  {
   "property": "C31",
   "status": "proved",
   "theorems": [
    "C31_latching"
   ],
   "note": ""
  },
  {
   "property": "C32",
   "status": "proved",
   "theorems": [
    "C32_tracks",
    "C32_detents",
    "C32_resync",
    "C32_wrap_refuted",
    "C32_one_step_refuted"
   ],
   "note": "For a knob whose interrupts are attached, which the code's Setup forgets to do; refuted beyond 127 quarter steps and for one step per detent."
  },
  {
   "property": "C33",
   "status": "proved",
   "theorems": [
    "C33_nec",
    "C33_no_false_codes",
    "C33_no_false_short"
   ],
   "note": ""
  },
  {
   "property": "C34",
   "status": "proved",
   "theorems": [
    "C34_rc6",
    "C34_pause_refuted"
   ],
   "note": "Refuted for pauses that are not near a multiple of 444 us (C34_pause_refuted): a finding."
  },
  {
   "property": "C35",
   "status": "proved",
   "theorems": [
    "C35_shots",
    "C35_encoder"
   ],
   "note": ""
  },
  {
   "property": "C36",
   "status": "proved",
   "theorems": [
    "C36_in_order",
    "C36_lag_refuted",
    "C36_overflow_refuted"
   ],
   "note": "The lag of one event and the overwriting at 16 waiting events are findings (C36_lag_refuted, C36_overflow_refuted)."
  },
  {
   "property": "C37",
   "status": "proved",
   "theorems": [
    "C37_lossless",
    "C37_size",
    "C37_file"
   ],
   "note": ""
  },
  {
   "property": "C38",
   "status": "proved",
   "theorems": [
    "C38_rows",
    "C38_progress",
    "C38_any_input"
   ],
   "note": ""
  },
  {
   "property": "C39",
   "status": "proved",
   "theorems": [
    "C39_overrun",
    "C39_rows",
    "C39_block",
    "C39_alpha_refuted",
    "C39_input_end_refuted"
   ],
   "note": "For the streaming decoder. C39_alpha_refuted and C39_input_end_refuted: damaged files overrun the stack array of the non-streaming alpha decoder and are read past their end."
  },
  {
   "property": "C40",
   "status": "proved",
   "theorems": [
    "C40_alphas",
    "C40_file",
    "C40_layer"
   ],
   "note": "The encoder may read one alpha past the end of the row; the theorem holds for every value of it."
  },
  {
   "property": "C41",
   "status": "proved",
   "theorems": [
    "C41_in_range",
    "C41_always_some",
    "C41_no_repeat",
    "C41_no_repeat_sub",
    "C41_every_file",
    "C41_next",
    "C41_selected",
    "C41_two_refuted",
    "C41_past_end_refuted"
   ],
   "note": "With two files repeats happen (C41_two_refuted); selecting one past the end is never left by stepping (C41_past_end_refuted): findings."
  },
  {
   "property": "C42",
   "status": "proved",
   "theorems": [
    "C42_generated",
    "C42_warning",
    "C42_exists",
    "C42_above_127_refuted",
    "C42_alternative_names",
    "C42_stray_refuted",
    "C42_sub_digits_refuted",
    "C42_extension_refuted"
   ],
   "note": "Assumes numbering starts at 127 or below and that no half-matching stray file is present; C42_above_127_refuted, C42_stray_refuted, C42_sub_digits_refuted, C42_extension_refuted show why."
  },
  {
   "property": "C43",
   "status": "proved",
   "theorems": [
    "C43_prefix",
    "C43_all",
    "C43_schedule_independent",
    "C43_stop",
    "C43_keeps_samples",
    "C43_exact",
    "C43_loud_refuted",
    "C43_padding_refuted",
    "C43_hang_refuted"
   ],
   "note": "For files whose chunks need no padding and whose samples do not overflow the upsampler; C43_loud_refuted, C43_padding_refuted, C43_hang_refuted are findings."
  },
  {
   "property": "C44",
   "status": "proved",
   "theorems": [
    "C44_mix",
    "C44_range",
    "C44_silence_sign",
    "C44_blocks",
    "C44_volume_refuted"
   ],
   "note": "For volumes whose product with a full-scale sum fits an int (C44_volume_refuted shows the bound is needed)."
  },
  {
   "property": "C45",
   "status": "proved",
   "theorems": [
    "C45_steps",
    "C45_monotone",
    "C45_arrives",
    "C45_overlay",
    "C45_history",
    "C45_read",
    "C45_told",
    "C45_now_refuted"
   ],
   "note": "Volumes up to 65535; C45_now_refuted: set_volume_now truncates larger ones."
  },
  {
   "property": "C46",
   "status": "proved",
   "theorems": [
    "C46_colors",
    "C46_progress",
    "C46_shown",
    "C46_reverse",
    "C46_monotone",
    "C46_smooth",
    "C46_smooth_refuted",
    "C46_long_refuted",
    "C46_ends_at_new",
    "C46_stays_done",
    "C46_blink_refuted",
    "C46_fade_color",
    "C46_wipe",
    "C46_helper"
   ],
   "note": "Progress, done and color of every modelled transition tree, over all frame histories and clock wrap. Refuted corners: fades whose length*scale exceeds 2^31 (C46_long_refuted), the cubic curve may step back by one (C46_smooth_refuted), TrBlink ends at the old color (C46_blink_refuted)."
  },
  {
   "property": "C47",
   "status": "proved",
   "theorems": [
    "C47_concat",
    "C47_concat_color",
    "C47_join",
    "C47_extend",
    "C47_sequence",
    "C47_sequence_first_refuted",
    "C47_select",
    "C47_loop",
    "C47_loop_extra",
    "C47_loop_refuted",
    "C47_effect"
   ],
   "note": "Concatenation, join, extend, sequence, select, loops and effects for arbitrary parts. Refuted corners: the first pick of TrSequence is not the first alternative (C47_sequence_first_refuted); TrLoopN runs parts that are not done right after begin() once more (C47_loop_refuted, C47_loop_extra)."
  },
  {
   "property": "C48",
   "status": "proved",
   "theorems": [
    "C48_clamp",
    "C48_scale",
    "C48_scale_refuted",
    "C48_invert",
    "C48_mult",
    "C48_layer",
    "C48_layers",
    "C48_compare",
    "C48_mod",
    "C48_ramp",
    "C48_extension",
    "C48_smooth_step",
    "C48_smooth_monotone",
    "C48_smooth_outside",
    "C48_smooth_monotone_refuted",
    "C48_smooth_end_refuted",
    "C48_linear",
    "C48_linear_sum",
    "C48_circular",
    "C48_circular_sum"
   ],
   "note": "Clamp, scale, invert, multiply, layer, comparisons, modulo, ramp, extension, smooth step, linear and circular sections. Smooth step rises up to a rounding error of 2 (C48_smooth_monotone); the exact claim is refuted (C48_smooth_monotone_refuted, C48_smooth_end_refuted), and scaling between ends more than 65535 apart overflows (C48_scale_refuted)."
  },
  {
   "property": "C49",
   "status": "proved",
   "theorems": [
    "C49_modulo",
    "C49_negative_refuted",
    "C49_with_reset",
    "C49_never_reset",
    "C49_threshold"
   ],
   "note": "Modulo counter, counter with reset, threshold pulse over all pulse histories. Negative increments refuted (C49_negative_refuted)."
  },
  {
   "property": "C50",
   "status": "proved",
   "theorems": [
    "C50_toward",
    "C50_speed",
    "C50_arrives",
    "C50_stall_refuted",
    "C50_peak",
    "C50_hold",
    "C50_plateau_refuted"
   ],
   "note": "ChangeSlowly and HoldPeak over all histories and clock wrap. Refuted corners: with short frames and a low speed ChangeSlowly never moves (C50_stall_refuted); a plateau does not renew the hold time (C50_plateau_refuted)."
  },
  {
   "property": "C51",
   "status": "proved",
   "theorems": [
    "C51_pixels",
    "C51_order",
    "C51_disjoint",
    "C51_columns",
    "C51_primary",
    "C51_partial_row_refuted",
    "C51_first_unchecked_refuted",
    "C51_barback",
    "C51_barback_range",
    "C51_barback_rotated_refuted"
   ],
   "note": "For every stride, zig-zag and rotation. Partial last rows (C51_partial_row_refuted), an unchecked first LED (C51_first_unchecked_refuted) and BRG/GBR bar backs (C51_barback_rotated_refuted) are refuted."
  },
  {
   "property": "C52",
   "status": "proved",
   "theorems": [
    "C52_ring",
    "C52_active",
    "C52_run"
   ],
   "note": "For every sequence of activations and deactivations."
  },
  {
   "property": "C53",
   "status": "proved",
   "theorems": [
    "C53_shared",
    "C53_repeat",
    "C53_256_refuted",
    "C53_plain_refuted"
   ],
   "note": "For up to 255 simultaneous users; the 256th user (C53_256_refuted) and unshared pins (C53_plain_refuted) are refuted."
  },
  {
   "property": "C54",
   "status": "proved",
   "theorems": [
    "C54_owned",
    "C54_frames",
    "C54_gives_up",
    "C54_turn_comes",
    "C54_unset_refuted",
    "C54_power_up_refuted",
    "C54_stuck_refuted"
   ],
   "note": "Ownership for all histories; the content of frames as long as styles stay and no frame is sent in the call that powers up; turns come round. Refuted: removing a style while waiting (C54_unset_refuted), the first frame after power-up (C54_power_up_refuted), and deactivating a waiting blade that was never powered, which blocks all others (C54_stuck_refuted)."
  },
  {
   "property": "C55",
   "status": "proved",
   "theorems": [
    "C55_dim"
   ],
   "note": "Dimming of 16-bit channels; overdrive is passed on undimmed."
  },
  {
   "property": "C56",
   "status": "proved",
   "theorems": [
    "C56_linked",
    "C56_pass",
    "C56_pass_ends",
    "C56_double_link_refuted",
    "C56_relink_refuted",
    "C56_relink_endless_refuted",
    "C56_neighbour_refuted"
   ],
   "note": "For every list and every handler that follows the rules (a looper may unlink itself). Refuted: linking twice, a handler that relinks itself, and a handler that unlinks itself and its neighbour."
  },
  {
   "property": "C57",
   "status": "proved",
   "theorems": [
    "C57_frees",
    "C57_once",
    "C57_raw_refuted"
   ],
   "note": "For every history in which a shared pointer is not overwritten by a plain pointer; that case is refuted (C57_raw_refuted)."
  },
  {
   "property": "C58",
   "status": "proved",
   "theorems": [
    "C58_nesting",
    "C58_twice_refuted",
    "C58_outermost_refuted",
    "C58_turning",
    "C58_empty_refuted",
    "C58_entries"
   ],
   "note": "Nesting for every history in which a mode is pushed only while it is not on the stack; refuted: pushing twice, popping the outermost mode, a menu without entries."
  },
  {
   "property": "C59",
   "status": "proved",
   "theorems": [
    "C59_append",
    "C59_append_refuted",
    "C59_append_ext",
    "C59_dirname",
    "C59_append_dirname",
    "C59_mkdir",
    "C59_absolute_refuted",
    "C59_no_slash_refuted"
   ],
   "note": "For all paths that fit the buffer; refuted: overflow, creating directories of absolute paths, undoing the directory of a name without slash."
  },
  {
   "property": "C60",
   "status": "proved",
   "theorems": [
    "C60_directories",
    "C60_refused",
    "C60_empty_refuted",
    "C60_long_refuted"
   ],
   "note": "For all lists that fit; refuted: an empty entry ends the list, a long list overflows the buffer."
  },
  {
   "property": "C61",
   "status": "proved",
   "theorems": [
    "C61_edit_session"
   ],
   "note": "The choice between the two files is the subject of C01; here the last saved text is read back."
  },
  {
   "property": "C62",
   "status": "proved",
   "theorems": [
    "C62_box_filter",
    "C62_clear_refuted"
   ],
   "note": "Clearing is refuted (C62_clear_refuted): index 0 keeps its old value. A finding."
  },
  {
   "property": "C63",
   "status": "proved",
   "theorems": [
    "C63_dither",
    "C63_undithered_exact",
    "C63_tile_average",
    "C63_tile",
    "C63_select"
   ],
   "note": ""
  },
  {
   "property": "C64",
   "status": "proved",
   "theorems": [
    "C64_rotate"
   ],
   "note": ""
  },
  {
   "property": "C65",
   "status": "proved",
   "theorems": [
    "C65_motion"
   ],
   "note": ""
  },
  {
   "property": "C66",
   "status": "proved",
   "theorems": [
    "C66_event_ids"
   ],
   "note": "BUTTON_NONE and BUTTON_POWER share a label: no button is outside the claim."
  },
  {
   "property": "C67",
   "status": "proved",
   "theorems": [
    "C67_fast_button",
    "C67_floating"
   ],
   "note": ""
  },
  {
   "property": "C68",
   "status": "proved",
   "theorems": [
    "C68_transmitter"
   ],
   "note": "Assumes space in the transmit buffer."
  },
  {
   "property": "C69",
   "status": "proved",
   "theorems": [
    "C69_blend",
    "C69_premultiply"
   ],
   "note": ""
  },
  {
   "property": "C70",
   "status": "proved",
   "theorems": [
    "C70_trigger",
    "C70_gap_refuted"
   ],
   "note": "Envelope proved for every schedule with gaps below 1000 s. For longer gaps refuted (C70_gap_refuted)."
  },
  {
   "property": "C71",
   "status": "proved",
   "theorems": [
    "C71_blink",
    "C71_doc_refuted",
    "C71_strobe",
    "C71_sequence"
   ],
   "note": "Blinking, strobe, sequence. The documented meaning of promille 1000 is refuted (C71_doc_refuted)."
  },
  {
   "property": "C72",
   "status": "proved",
   "theorems": [
    "C72_select",
    "C72_selectx",
    "C72_negative_refuted"
   ],
   "note": "IntSelect for all selectors, IntSelectX for nonnegative ones; negative ones refuted (C72_negative_refuted)."
  },
  {
   "property": "C73",
   "status": "proved",
   "theorems": [
    "C73_bump",
    "C73_falling_refuted"
   ],
   "note": "Range and table bounds, given the multiplier and location computed in floating point. That a bump falls with distance is refuted (C73_falling_refuted)."
  },
  {
   "property": "C74",
   "status": "proved",
   "theorems": [
    "C74_stays",
    "C74_race_refuted",
    "C74_supply",
    "C74_delay"
   ],
   "note": "Stays on unless it was turned on while waiting to send its last frame (C74_race_refuted); the delay for every history."
  },
  {
   "property": "C75",
   "status": "proved",
   "theorems": [
    "C75_pulses"
   ],
   "note": "For all colors, byte orders and pulse values."
  },
  {
   "property": "C76",
   "status": "proved",
   "theorems": [
    "C76_in_order",
    "C76_linear",
    "C76_last_pixel_refuted",
    "C76_last_bit_refuted",
    "C76_proxy",
    "C76_proxy_refuted"
   ],
   "note": "For all strip lengths, initial memory and timely schedules on timer pins, and for strips shorter than the buffer; refuted: the last pixel of a strip one longer than the buffer, the last bit on a proxy pin, and on proxy pins one bit per half buffer (word array indexed as bytes), every other bit proved right."
  },
  {
   "property": "C77",
   "status": "proved",
   "theorems": [
    "C77_frames",
    "C77_drained"
   ],
   "note": "For all interleavings; blades keep to their turns as proved in C54. The list of queued blades stands for the linked list."
  },
  {
   "property": "C78",
   "status": "proved",
   "theorems": [
    "C78_bits",
    "C78_pixel",
    "C78_frame",
    "C78_dark_refuted"
   ],
   "note": "Exact framing; brightness within two steps where the byte does not overflow; refuted: at the top of each brightness band the byte wraps to zero."
  },
  {
   "property": "C79",
   "status": "proved",
   "theorems": [
    "C79_lines",
    "C79_single",
    "C79_next",
    "C79_menu",
    "C79_unlisted",
    "C79_last_refuted",
    "C79_duplicates_refuted",
    "C79_high_refuted",
    "C79_shift_refuted"
   ],
   "note": "The menu is correct for any number of lines whenever it answers, and always answers for up to 54 lines; refuted: an unlisted current value hides the last line, duplicates, bytes from 127, 81 lines overflow a shift."
  },
  {
   "property": "C80",
   "status": "proved",
   "theorems": [
    "C80_lines",
    "C80_screen",
    "C80_clear_rect",
    "C80_clear_rect_refuted",
    "C80_flip_64_refuted"
   ],
   "note": "For all screens and contents; refuted: ClearRect below the top row (the shift binds to the inverted mask, so all rows above are cleared too), FlipY of a 64-row screen (shifts an int by 32)."
  },
  {
   "property": "C81",
   "status": "proved",
   "theorems": [
    "C81_text",
    "C81_glyph",
    "C81_delete_refuted",
    "C81_below_refuted",
    "C81_tall_refuted"
   ],
   "note": "For all fonts, texts and positions with no line entirely below the screen; refuted: character 127, lines below the screen, 64-bit glyphs. Glyph columns beyond 127 and advances beyond 63 are stored as negative numbers and do not arise in the fonts modelled by `drawable`."
  },
  {
   "property": "C82",
   "status": "proved",
   "theorems": [
    "C82_landscape",
    "C82_portrait",
    "C82_portrait_refuted"
   ],
   "note": "For all images as wide as the screen; the quarter turn conversion is proved correct; refuted: it is never selected (layout not assigned in ReadImage)."
  },
  {
   "property": "C83",
   "status": "proved",
   "theorems": [
    "C83_loop",
    "C83_redraw_refuted",
    "C83_once"
   ],
   "note": "For all image files and histories of steps and redraws; refuted: redrawing the first frame after a file with fewer frames (the remembered row counter belongs to the previous file)."
  },
  {
   "property": "C84",
   "status": "proved",
   "theorems": [
    "C84_lines",
    "C84_unique",
    "C84_safe",
    "C84_too_long_refuted"
   ],
   "note": "For all streams of bytes other than 0 while memory lasts; no memory error in any stream; refuted: memory running out within a line runs the rest of that line."
  },
  {
   "property": "C85",
   "status": "proved",
   "theorems": [
    "C85_sound",
    "C85_complete",
    "C85_wrong_digit",
    "C85_restart_refuted"
   ],
   "note": "Soundness and completeness for all streams; refuted: a start byte directly before a message loses it."
  },
  {
   "property": "C86",
   "status": "proved",
   "theorems": [
    "C86_number",
    "C86_decimal",
    "C86_negative_refuted",
    "C86_color"
   ],
   "note": "For all non-negative ints; refuted for all negative ones. The float arithmetic of the decimals is exact in the model."
  },
  {
   "property": "C87",
   "status": "proved",
   "theorems": [
    "C87_now",
    "C87_until_ignition",
    "C87_linear_refuted",
    "C87_cylon_refuted",
    "C87_sparktip_refuted",
    "C87_fire_refuted"
   ],
   "note": "Instant claim for all compositions (centered LinearSectionF, Cylon on black); until-ignition claim for the steady ones; the exceptions are refuted. Floats are rational numbers."
  },
  {
   "property": "C88",
   "status": "proved",
   "theorems": [
    "C88_ignition_delay",
    "C88_retraction_delay",
    "C88_negative_refuted"
   ],
   "note": "For all delays from 0 to 2^31-1 and frames less than 2^31 ms apart; refuted: a negative retraction delay never retracts."
  },
  {
   "property": "C89",
   "status": "proved",
   "theorems": [
    "C89_pixelate",
    "C89_short_blade_refuted"
   ],
   "note": "Any number of frames (the conclusion re-establishes the hypothesis); short blades are proved frozen."
  },
  {
   "property": "C90",
   "status": "proved",
   "theorems": [
    "C90_quiet",
    "C90_boot",
    "C90_once",
    "C90_double_refuted",
    "C90_press_refuted",
    "C90_counted_refuted"
   ],
   "note": "The quiet times hold for every history in which no held modifier disappears while a clash is put aside; C90_double_refuted, C90_press_refuted and C90_counted_refuted show the exceptions."
  },
  {
   "property": "C91",
   "status": "proved",
   "theorems": [
    "C91_heard",
    "C91_deferred",
    "C91_vibration",
    "C91_effect",
    "C91_hidden_refuted",
    "C91_wrap_refuted"
   ],
   "note": "C91_hidden_refuted: vibration hides all later clashes; C91_wrap_refuted: a clash 49.7 days after another is taken for its vibration."
  },
  {
   "property": "C92",
   "status": "proved",
   "theorems": [
    "C92_sound",
    "C92_complete",
    "C92_first_refuted",
    "C92_shared_refuted"
   ],
   "note": "Sound and, for clean movements, complete; C92_first_refuted, C92_shared_refuted are findings. Times are taken from 251 ms after power-on: before, an unfinished stroke has the same zero end time as the past."
  },
  {
   "property": "C93",
   "status": "proved",
   "theorems": [
    "C93_sound",
    "C93_complete",
    "C93_disjoint",
    "C93_overlap_refuted",
    "C93_swing"
   ],
   "note": "Sound and, for clean movements, complete; C93_overlap_refuted: four thrusts counted for two shakes."
  },
  {
   "property": "C94",
   "status": "proved",
   "theorems": [
    "C94_effects",
    "C94_preon",
    "C94_stays_off",
    "C94_off",
    "C94_preset",
    "C94_resolves",
    "C94_cancel_refuted",
    "C94_second_refuted",
    "C94_cd_refuted",
    "C94_preset_refuted"
   ],
   "note": "C94_effects for props that ask for a pre-on only from dark; C94_cancel_refuted, C94_second_refuted, C94_cd_refuted, C94_preset_refuted are the exceptions."
  },
  {
   "property": "C95",
   "status": "proved",
   "theorems": [
    "C95_hum",
    "C95_silent",
    "C95_no_crash",
    "C95_postoff",
    "C95_postoff_why",
    "C95_blast",
    "C95_second_refuted",
    "C95_cd_refuted",
    "C95_crash_refuted",
    "C95_postoff_refuted"
   ],
   "note": "C95_second_refuted, C95_cd_refuted, C95_crash_refuted, C95_postoff_refuted are the exceptions."
  },
  {
   "property": "C96",
   "status": "proved",
   "theorems": [
    "C96_lockups",
    "C96_ends",
    "C96_cancel_refuted",
    "C96_lightning_refuted"
   ],
   "note": "C96_cancel_refuted and C96_lightning_refuted are the exceptions."
  },
  {
   "property": "C97",
   "status": "proved",
   "theorems": [
    "C97_restore",
    "C97_off",
    "C97_set_refuted",
    "C97_saved_refuted"
   ],
   "note": "C97_set_refuted and C97_saved_refuted are the exceptions."
  },
  {
   "property": "C98",
   "status": "proved",
   "theorems": [
    "C98_ammo",
    "C98_unlimited",
    "C98_trigger",
    "C98_autofire_refuted",
    "C98_clip_refuted"
   ],
   "note": "C98_autofire_refuted and C98_clip_refuted are the exceptions."
  },
  {
   "property": "C99",
   "status": "proved",
   "theorems": [
    "C99_jam",
    "C99_bang",
    "C99_never"
   ],
   "note": "Assumes the command that starts autofire is not used; rand() is any number."
  },
  {
   "property": "C100",
   "status": "proved",
   "theorems": [
    "C100_modes",
    "C100_steady",
    "C100_click",
    "C100_release",
    "C100_off",
    "C100_held_refuted",
    "C100_preon_refuted",
    "C100_stuck_refuted"
   ],
   "note": "C100_held_refuted, C100_preon_refuted, C100_stuck_refuted are the exceptions."
  },
  {
   "property": "C101",
   "status": "proved",
   "theorems": [
    "C101_explosion",
    "C101_explodes",
    "C101_pending_refuted",
    "C101_rearm_refuted",
    "C101_double_refuted"
   ],
   "note": "C101_pending_refuted, C101_rearm_refuted, C101_double_refuted are the exceptions."
  },
  {
   "property": "C102",
   "status": "proved",
   "theorems": [
    "C102_always_on",
    "C102_battery",
    "C102_doc_refuted"
   ],
   "note": "C102_doc_refuted: the documentation in the header says the opposite."
  },
  {
   "property": "C103",
   "status": "proved",
   "theorems": [
    "C103_one_list",
    "C103_state",
    "C103_reboot",
    "C103_cut_edit",
    "C103_cut_move",
    "C103_edit"
   ],
   "note": "For histories without the menu's insert entry; see C104 for that."
  },
  {
   "property": "C104",
   "status": "proved",
   "theorems": [
    "C104_up",
    "C104_down",
    "C104_ends",
    "C104_delete",
    "C104_never_empty",
    "C104_insert_first",
    "C104_insert_refuted",
    "C104_lost_edit_refuted",
    "C104_selected_refuted",
    "C104_after_delete_refuted"
   ],
   "note": "C104_insert_refuted, C104_lost_edit_refuted, C104_selected_refuted, C104_after_delete_refuted are the exceptions."
  },
  {
   "property": "C105",
   "status": "proved",
   "theorems": [
    "C105_resume",
    "C105_blade",
    "C105_others",
    "C105_rotate",
    "C105_blade_refuted",
    "C105_rotate_colour_refuted",
    "C105_rotate_first_refuted",
    "C105_move_refuted"
   ],
   "note": "C105_blade_refuted, C105_rotate_colour_refuted, C105_rotate_first_refuted, C105_move_refuted are the exceptions."
  },
  {
   "property": "C106",
   "status": "proved",
   "theorems": [
    "C106_powered",
    "C106_ready",
    "C106_goes_off",
    "C106_dac_last",
    "C106_stuck_refuted",
    "C106_wrap_refuted",
    "C106_command_refuted"
   ],
   "note": "C106_stuck_refuted, C106_wrap_refuted, C106_command_refuted are the exceptions."
  },
  {
   "property": "C107",
   "status": "proved",
   "theorems": [
    "C107_stays",
    "C107_goes_off",
    "C107_sound_refuted"
   ],
   "note": "C107_sound_refuted is the exception."
  },
  {
   "property": "C108",
   "status": "proved",
   "theorems": [
    "C108_stays",
    "C108_unmounts",
    "C108_remounts",
    "C108_usb_refuted"
   ],
   "note": "C108_usb_refuted is the exception."
  },
  {
   "property": "C109",
   "status": "proved",
   "theorems": [
    "C109_full",
    "C109_order",
    "C109_locked",
    "C109_starved_refuted"
   ],
   "note": "C109_starved_refuted is the exception."
  },
  {
   "property": "C110",
   "status": "proved",
   "theorems": [
    "C110_one_run",
    "C110_ends",
    "C110_bounds",
    "C110_filled",
    "C110_read_filled",
    "C110_lost_refuted",
    "C110_unlock_refuted"
   ],
   "note": "C110_lost_refuted and C110_unlock_refuted are the exceptions."
  },
  {
   "property": "C111",
   "status": "proved",
   "theorems": [
    "C111_range",
    "C111_spacing",
    "C111_next",
    "C111_shown",
    "C111_low",
    "C111_second"
   ],
   "note": "Voltages are rational numbers, not floats."
  },
  {
   "property": "C112",
   "status": "proved",
   "theorems": [
    "C112_off",
    "C112_only",
    "C112_apart",
    "C112_load",
    "C112_two_blades_refuted",
    "C112_effect_refuted"
   ],
   "note": "C112_two_blades_refuted and C112_effect_refuted are the exceptions."
  },
  {
   "property": "C113",
   "status": "proved",
   "theorems": [
    "C113_limit",
    "C113_current",
    "C113_bright",
    "C113_range",
    "C113_leds"
   ],
   "note": "Floats are rationals; the LED is the one of the code's own description: a voltage that grows linearly with the current, and a resistor."
  },
  {
   "property": "C114",
   "status": "proved",
   "theorems": [
    "C114_rgb",
    "C114_rgbw",
    "C114_less",
    "C114_black",
    "C114_subtract_refuted"
   ],
   "note": "C114_subtract_refuted is the exception."
  },
  {
   "property": "C115",
   "status": "proved",
   "theorems": [
    "C115_on",
    "C115_dark",
    "C115_power",
    "C115_fresh",
    "C115_others"
   ],
   "note": "STM32L4 timers; what a style does other than the levels it sets and whether it lets the blade go is arbitrary."
  },
  {
   "property": "C116",
   "status": "proved",
   "theorems": [
    "C116_timers",
    "C116_shown"
   ],
   "note": ""
  },
  {
   "property": "C117",
   "status": "proved",
   "theorems": [
    "C117_nearest",
    "C117_far",
    "C117_tolerance",
    "C117_detect",
    "C117_no_empty",
    "C117_resistor",
    "C117_bridged",
    "C117_monotone",
    "C117_average",
    "C117_range"
   ],
   "note": "Floats are rationals."
  },
  {
   "property": "C118",
   "status": "proved",
   "theorems": [
    "C118_active",
    "C118_config",
    "C118_told",
    "C118_detect",
    "C118_spacing",
    "C118_null_refuted",
    "C118_missing"
   ],
   "note": "C118_null_refuted is the exception. Presets and styles are left out here."
  },
  {
   "property": "C119",
   "status": "proved",
   "theorems": [
    "C119_let_go",
    "C119_held",
    "C119_let_go_refuted",
    "C119_click",
    "C119_double"
   ],
   "note": "C119_let_go_refuted is the exception. Latching buttons, blade detection and menus from MENU_SPEC_TEMPLATE are left out; C119_click is for sabers without DUAL_POWER_BUTTONS."
  },
  {
   "property": "C120",
   "status": "proved",
   "theorems": [
    "C120_hit",
    "C120_together",
    "C120_only",
    "C120_mute",
    "C120_mute_refuted",
    "C120_swap_refuted",
    "C120_blast_refuted"
   ],
   "note": "C120_mute_refuted, C120_swap_refuted and C120_blast_refuted are the exceptions. What letting go of AUX does after the color menu has been opened is not covered."
  },
  {
   "property": "C121",
   "status": "proved",
   "theorems": [
    "C121_sets",
    "C121_cancel",
    "C121_wrap",
    "C121_way",
    "C121_turn",
    "C121_bump",
    "C121_ends",
    "C121_still_refuted",
    "C121_click_refuted"
   ],
   "note": "C121_still_refuted and C121_click_refuted are the exceptions. Floats are exact rationals, with angles measured in units of half a turn / 16384. C121_cancel is for settings that read back what was set; powf in the volume and color modes is not modelled."
  },
  {
   "property": "C122",
   "status": "proved",
   "theorems": [
    "C122_track",
    "C122_fast",
    "C122_still",
    "C122_back"
   ],
   "note": "C122_track is for a hilt spun at no more than a turn per second, C122_fast for any spin. The buttons and commands that also step are one call of next() or prev() each (menu position: C58)."
  },
  {
   "property": "C123",
   "status": "proved",
   "theorems": [
    "C123_one",
    "C123_cancel",
    "C123_back",
    "C123_back_refuted",
    "C123_time_refuted",
    "C123_number",
    "C123_color",
    "C123_default_refuted",
    "C123_place_refuted"
   ],
   "note": "C123_back_refuted, C123_time_refuted, C123_default_refuted and C123_place_refuted are the exceptions. The modes that pick a color (hue, brightness, from a file) are one operation that shows any color. C123_number is for a value below the argument's maximum."
  },
  {
   "property": "C124",
   "status": "proved",
   "theorems": [
    "C124_selected",
    "C124_apply",
    "C124_apply_refuted",
    "C124_all",
    "C124_none_refuted",
    "C124_style_refuted",
    "C124_place_refuted"
   ],
   "note": "C124_apply_refuted, C124_none_refuted, C124_style_refuted and C124_place_refuted are the exceptions. Copying of colors is under the conditions of C10."
  },
  {
   "property": "C125",
   "status": "proved",
   "theorems": [
    "C125_queue",
    "C125_order",
    "C125_alone",
    "C125_next",
    "C125_early_refuted",
    "C125_starve_refuted"
   ],
   "note": "C125_early_refuted and C125_starve_refuted are the exceptions. C125_order, C125_alone and C125_next are about requests without recapture; C125_queue covers those too."
  },
  {
   "property": "C126",
   "status": "proved",
   "theorems": [
    "C126_awake",
    "C126_sleeps",
    "C126_wakes",
    "C126_first",
    "C126_spurious_refuted",
    "C126_held_refuted"
   ],
   "note": "Boards other than Teensy. C126_spurious_refuted and C126_held_refuted are the exceptions."
  },
  {
   "property": "C127",
   "status": "proved",
   "theorems": [
    "C127_angle",
    "C127_smooth",
    "C127_overlap_refuted",
    "C127_ends",
    "C127_hang_refuted"
   ],
   "note": "Floats are rationals. C127_overlap_refuted and C127_hang_refuted are the exceptions."
  },
  {
   "property": "C128",
   "status": "proved",
   "theorems": [
    "C128_hum",
    "C128_off",
    "C128_pairs",
    "C128_rate",
    "C128_cut_refuted",
    "C128_separation_refuted"
   ],
   "note": "C128_cut_refuted and C128_separation_refuted are the exceptions. The threshold is not negative; powf maps [0,1] to itself (hypothesis of C128_hum)."
  },
  {
   "property": "C129",
   "status": "proved",
   "theorems": [
    "C129_mix",
    "C129_ends",
    "C129_outside",
    "C129_outside_two_refuted",
    "C129_gradient",
    "C129_tip_refuted",
    "C129_one_led_refuted",
    "C129_ramp_refuted",
    "C129_remap",
    "C129_remap_same",
    "C129_remap_reverse_refuted"
   ],
   "note": "The theorems ending in _refuted are the exceptions. Inner styles give opaque colors, not layers."
  },
  {
   "property": "C130",
   "status": "proved",
   "theorems": [
    "C130_sequence",
    "C130_valid",
    "C130_late",
    "C130_select",
    "C130_fades",
    "C130_jump_refuted"
   ],
   "note": "C130_jump_refuted is the exception. More than 256 colors in a selection are not covered (the number is kept in a byte)."
  },
  {
   "property": "C131",
   "status": "proved",
   "theorems": [
    "C131_stripes",
    "C131_sine",
    "C131_bright",
    "C131_speed",
    "C131_width",
    "C131_zero_width_refuted",
    "C131_pause_refuted",
    "C131_hard",
    "C131_hard_edge_refuted",
    "C131_hard_wide_refuted"
   ],
   "note": "The theorems ending in _refuted are the exceptions. Products that overflow int are an outcome of their own; C131_speed says when there are none."
  },
  {
   "property": "C132",
   "status": "proved",
   "theorems": [
    "C132_safe",
    "C132_spread",
    "C132_tip",
    "C132_tip_refuted",
    "C132_hold",
    "C132_fades",
    "C132_strong_refuted"
   ],
   "note": "C132_tip_refuted and C132_strong_refuted are the exceptions. Random numbers are inputs, any within the documented range."
  },
  {
   "property": "C133",
   "status": "proved",
   "theorems": [
    "C133_fadeout",
    "C133_falls",
    "C133_long_refuted",
    "C133_wave_range",
    "C133_wave",
    "C133_edge_refuted",
    "C133_peak_refuted",
    "C133_where",
    "C133_where_refuted"
   ],
   "note": "The theorems ending in _refuted are the exceptions. The floats of BlastF are taken as exact rationals. OriginalBlastF (sine of a float) is not modelled."
  },
  {
   "property": "C134",
   "status": "proved",
   "theorems": [
    "C134_slow",
    "C134_steps",
    "C134_steps_refuted",
    "C134_brown",
    "C134_blink",
    "C134_blink_zero_refuted"
   ],
   "note": "The theorems ending in _refuted are the exceptions."
  },
  {
   "property": "C135",
   "status": "proved",
   "theorems": [
    "C135_flash",
    "C135_fades",
    "C135_long_flash_refuted",
    "C135_since",
    "C135_never_refuted"
   ],
   "note": "The theorems ending in _refuted are the exceptions. The effect found by the detector (C27) is an input."
  },
  {
   "property": "C136",
   "status": "proved",
   "theorems": [
    "C136_song",
    "C136_chunks",
    "C136_playing",
    "C136_tone",
    "C136_high_refuted",
    "C136_levels",
    "C136_silence",
    "C136_queue",
    "C136_stuck_refuted"
   ],
   "note": "C136_stuck_refuted and C136_high_refuted are the exceptions. Beep() is taken not to run in the middle of a read, and 44100 / frequency / 2 as exact before it is cut."
  },
  {
   "property": "C137",
   "status": "proved",
   "theorems": [
    "C137_cancel",
    "C137_select",
    "C137_disk",
    "C137_card_refuted",
    "C137_fit_refuted",
    "C137_none_refuted"
   ],
   "note": "The theorems ending in _refuted are the exceptions. What saving and reading a file do under power loss is C01."
  },
  {
   "property": "C138",
   "status": "proved",
   "theorems": [
    "C138_variation",
    "C138_threshold",
    "C138_threshold_cancel",
    "C138_said_refuted",
    "C138_keep_refuted",
    "C138_volume",
    "C138_volume_refuted",
    "C138_switch"
   ],
   "note": "The theorems ending in _refuted are the exceptions. powf is taken as exact; the values at whole thresholds are far from rounding. Volume and brightness menus (powf with other gammas) are covered only as far as the smooth mode is (C121)."
  },
  {
   "property": "C139",
   "status": "proved",
   "theorems": [
    "C139_format",
    "C139_encode",
    "C139_round_trip",
    "C139_short",
    "C139_color_refuted",
    "C139_size",
    "C139_tight",
    "C139_image",
    "C139_made",
    "C139_shared",
    "C139_smaller",
    "C139_colors",
    "C139_colors_fit",
    "C139_show",
    "C139_window",
    "C139_repeat",
    "C139_mirror_refuted",
    "C139_half_refuted",
    "C139_dark_refuted",
    "C139_continuous",
    "C139_sweep"
   ],
   "note": "The theorems ending in _refuted are the exceptions. Angles and speeds are rationals; reading image files and the gamma correction are not modelled."
  },
  {
   "property": "C140",
   "status": "proved",
   "theorems": [
    "C140_agree",
    "C140_change",
    "C140_first",
    "C140_idle",
    "C140_none"
   ],
   "note": "Alternatives are fewer than 2^31; the sound played for the change is not modelled."
  },
  {
   "property": "C141",
   "status": "proved",
   "theorems": [
    "C141_lit",
    "C141_says",
    "C141_pace",
    "C141_told",
    "C141_down_refuted",
    "C141_plain",
    "C141_count",
    "C141_turned",
    "C141_dim",
    "C141_short",
    "C141_negative_refuted",
    "C141_cycle"
   ],
   "note": "The theorems ending in _refuted are the exceptions. What turning a hue does is C64; DoHFLoop between LEDs is not modelled."
  },
  {
   "property": "C142",
   "status": "proved",
   "theorems": [
    "C142_line",
    "C142_slope",
    "C142_exact",
    "C142_steady",
    "C142_forget",
    "C142_ready",
    "C142_newest",
    "C142_clear"
   ],
   "note": "Floats are rationals: rounding, which the rebuilding every 1024 pushes is there to limit, is not modelled. Interrupts between the reads of update() are not modelled."
  },
  {
   "property": "C143",
   "status": "proved",
   "theorems": [
    "C143_value",
    "C143_turns",
    "C143_alone",
    "C143_null",
    "C143_wait",
    "C143_style",
    "C143_hang_refuted",
    "C143_dead_refuted"
   ],
   "note": "The theorems ending in _refuted are the exceptions. The temperature sensor's extra waits are not modelled; a conversion ends when the schedule says."
  },
  {
   "property": "C144",
   "status": "proved",
   "theorems": [
    "C144_stream",
    "C144_halves",
    "C144_stuck_refuted",
    "C144_teensy"
   ],
   "note": "C144_stuck_refuted is the exception. The filter and the second outputs are not modelled; the interrupt fills its half at once."
  },
  {
   "property": "C145",
   "status": "proved",
   "theorems": [
    "C145_ripple",
    "C145_nearer",
    "C145_over",
    "C145_spark",
    "C145_size_refuted",
    "C145_speed_refuted"
   ],
   "note": "The theorems ending in _refuted are the exceptions. For a time below 131072 ms, as the unsigned product wraps beyond; plain times, not bent ones."
  },
  {
   "property": "C146",
   "status": "proved",
   "theorems": [
    "C146_arc",
    "C146_start",
    "C146_end",
    "C146_done",
    "C146_turns",
    "C146_speed",
    "C146_pause",
    "C146_dark_refuted"
   ],
   "note": "C146_dark_refuted is the exception. Floats are rationals; plain times, not bent ones."
  },
  {
   "property": "C147",
   "status": "proved",
   "theorems": [
    "C147_count",
    "C147_released",
    "C147_free",
    "C147_none",
    "C147_playing",
    "C147_kill",
    "C147_kept",
    "C147_not_equal_refuted"
   ],
   "note": "C147_not_equal_refuted is the exception. Fewer than 2^32 pointers; the wait for a killed sound's end is one step."
  },
  {
   "property": "C148",
   "status": "proved",
   "theorems": [
    "C148_text",
    "C148_comment",
    "C148_skip",
    "C148_inside",
    "C148_over",
    "C148_goes_on",
    "C148_sticky_refuted",
    "C148_next_screen_refuted",
    "C148_last_refuted",
    "C148_bare_refuted",
    "C148_long_refuted"
   ],
   "note": "C148_sticky_refuted, C148_next_screen_refuted, C148_last_refuted, C148_bare_refuted and C148_long_refuted are the exceptions. Lines of up to 150 characters of value in C148_text."
  },
  {
   "property": "C149",
   "status": "proved",
   "theorems": [
    "C149_blink",
    "C149_once",
    "C149_again",
    "C149_off",
    "C149_range",
    "C149_pulse",
    "C149_charge",
    "C149_begin_refuted"
   ],
   "note": "C149_begin_refuted is the exception. Floats are rationals; the pin is the value last given to it."
  },
  {
   "property": "C150",
   "status": "proved",
   "theorems": [
    "C150_saw",
    "C150_sin",
    "C150_round",
    "C150_pulse_round",
    "C150_pulse",
    "C150_zero_refuted"
   ],
   "note": "C150_zero_refuted is the exception. Floats are rationals (and not-a-number), so that rounding is left out; RPM, LOW and HIGH are constant in the theorems about a list of frames."
  },
  {
   "property": "C151",
   "status": "proved",
   "theorems": [
    "C151_stream",
    "C151_whole",
    "C151_progress",
    "C151_missing",
    "C151_beyond_refuted",
    "C151_early_refuted"
   ],
   "note": "C151_beyond_refuted and C151_early_refuted are the exceptions. The ring is a queue (see the properties of circular_buffer.h); SEEK does not interrupt FillBuffer."
  }
 ]
}