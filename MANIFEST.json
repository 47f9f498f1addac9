{
 "claims": [
  {
   "property": "C01",
   "status": "proved",
   "theorems": [
    "C01_codec_roundtrip",
    "C01_type_ranges"
   ],
   "note": ""
  },
  {
   "property": "C02",
   "status": "proved",
   "theorems": [
    "C02_toowide_exact",
    "C02_error_has_no_effect",
    "C02_rejected_samples_invisible"
   ],
   "note": ""
  },
  {
   "property": "C03",
   "status": "proved",
   "theorems": [
    "C03_spec_roundtrip",
    "C03_accepted_specs"
   ],
   "note": ""
  },
  {
   "property": "C04",
   "status": "proved",
   "theorems": [
    "C04_write_read_roundtrip",
    "C04_writer_counters"
   ],
   "note": ""
  },
  {
   "property": "C05",
   "status": "proved",
   "theorems": [
    "C05_finalized_sizes"
   ],
   "note": ""
  },
  {
   "property": "C06",
   "status": "proved",
   "theorems": [
    "C06_drop_equals_finalize",
    "C06_live_writers_are_not_final"
   ],
   "note": ""
  },
  {
   "property": "C07",
   "status": "proved",
   "theorems": [
    "C07_flush_checkpoint",
    "C07_flushes_do_not_change_the_file"
   ],
   "note": ""
  },
  {
   "property": "C08",
   "status": "partial",
   "theorems": [
    "C08_midframe_flush_keeps_the_past_partial",
    "C08_midframe_flush_overwrites_refuted"
   ],
   "note": "The property is false of the code: a mid-frame flush leaves the stream position inside the header update, so later samples overwrite bytes (C08_..._refuted, for all inputs of that shape). The part that holds: everything written before the flush is in the file and UnfinishedSample is returned."
  },
  {
   "property": "C09",
   "status": "proved",
   "theorems": [
    "C09_append_is_concatenation"
   ],
   "note": ""
  },
  {
   "property": "C10",
   "status": "proved",
   "theorems": [
    "C10_buffered_append_position",
    "C10_append_resumes_at_the_end"
   ],
   "note": ""
  },
  {
   "property": "C11",
   "status": "proved",
   "theorems": [
    "C11_block_writer",
    "C11_low16_in_range",
    "C11_only_for_16_bit_integers"
   ],
   "note": ""
  },
  {
   "property": "C12",
   "status": "proved",
   "theorems": [
    "C12_iterator_count",
    "C12_wrong_kind_is_reported",
    "C12_too_wide_is_reported"
   ],
   "note": ""
  },
  {
   "property": "C13",
   "status": "proved",
   "theorems": [
    "C13_truncated_data"
   ],
   "note": ""
  },
  {
   "property": "C14",
   "status": "partial",
   "theorems": [
    "C14_missing_fmt_panics_refuted",
    "C14_no_panic_partial",
    "C14_parsing_terminates"
   ],
   "note": "False in general: a data chunk before any fmt chunk panics (refuted, for all such files). Proved: no panic for every byte string whose first chunk is fmt and that contains no Surge metadata tags; parsing terminates."
  },
  {
   "property": "C15",
   "status": "proved",
   "theorems": [
    "C15_unknown_chunks_invisible"
   ],
   "note": ""
  },
  {
   "property": "C16",
   "status": "proved",
   "theorems": [
    "C16_seek_consistent"
   ],
   "note": ""
  },
  {
   "property": "C17",
   "status": "partial",
   "theorems": [
    "C17_float_needs_32_bits",
    "C17_unsupported_depth_partial",
    "C17_unsupported_depth_writes_refuted",
    "C17_zero_depth_panics_refuted"
   ],
   "note": "The error is returned (partial), but Drop/new write the header into the stream first (refuted); depth 0 panics (refuted)."
  },
  {
   "property": "C18",
   "status": "partial",
   "theorems": [
    "C18_cue_spacing_partial",
    "C18_irregular_cues_accepted_refuted",
    "C18_no_spacing"
   ],
   "note": "Holds when no two neighbouring cues differ by exactly -1 (the code's sentinel); with such a difference irregular cues are accepted (refuted)."
  },
  {
   "property": "C19",
   "status": "proved",
   "theorems": [
    "C19_purge_releases_exactly_the_uncovered",
    "C19_pedal_history",
    "C19_pedal_history_from_any_buffer"
   ],
   "note": "All poly-mode histories; the pedal of channel 0 is treated as covering all channels even with MPE off, which the specification states explicitly."
  },
  {
   "property": "C20",
   "status": "partial",
   "theorems": [
    "C20_restrike_then_purge_panics_refuted",
    "C20_no_restrike_no_panic_partial"
   ],
   "note": "Re-striking a held key is followed by a panic when the pedal is lifted (refuted, for all such states)."
  },
  {
   "property": "C21",
   "status": "partial",
   "theorems": [
    "C21_msb_never_selected_refuted",
    "C21_selection_loses_msb_and_data_entry_panics_refuted",
    "C21_rpn_selection_partial"
   ],
   "note": ""
  },
  {
   "property": "C22",
   "status": "partial",
   "theorems": [
    "C22_pitch_bend_range_partial",
    "C22_other_rpns_change_nothing_partial",
    "C22_mpe_configured_from_any_channel_refuted"
   ],
   "note": ""
  },
  {
   "property": "C23",
   "status": "proved",
   "theorems": [
    "C23_registers_are_independent",
    "C23_every_register_readable"
   ],
   "note": ""
  },
  {
   "property": "C24",
   "status": "partial",
   "theorems": [
    "C24_routing_partial",
    "C24_channel_split_first_channel_panics_refuted"
   ],
   "note": ""
  },
  {
   "property": "C25",
   "status": "partial",
   "theorems": [
    "C25_at_most_one_voice_partial",
    "C25_two_or_more_voices_panic_refuted",
    "C25_synth_all_notes_off_single_scene_panics_refuted",
    "C25_synth_all_notes_off_partial"
   ],
   "note": "With at most one voice it works; with two or more it panics (refuted for all such scenes), and on the single-scene patch that SurgePatch::new builds (surge-scene/src/patch/init.rs:9) the synth command always panics."
  },
  {
   "property": "C26",
   "status": "partial",
   "theorems": [
    "C26_nothing_to_do_partial",
    "C26_one_softkilled_voice_is_freed_partial",
    "C26_playing_voice_freed_refuted",
    "C26_two_softkilled_last_panics_refuted"
   ],
   "note": "Nothing is freed below the bound and one softkilled voice is freed correctly; with two softkilled voices the wrong ones are freed or it panics (refuted for all lists of that shape)."
  },
  {
   "property": "C27",
   "status": "partial",
   "theorems": [
    "C27_oldest_released_first",
    "C27_else_oldest_playing",
    "C27_never_kills_twice",
    "C27_just_released_voice_passed_over_refuted"
   ],
   "note": "Among released voices with positive release age; see the theorem for the boundary case."
  },
  {
   "property": "C28",
   "status": "partial",
   "theorems": [
    "C28_single_trigger_falls_back_to_highest_partial",
    "C28_mono_silent_while_key_held_refuted",
    "C28_mpe_single_trigger_never_falls_back_refuted",
    "C28_mpe_mono_silent_while_key_held_refuted",
    "C28_pedal_release_uses_all_keys"
   ],
   "note": "Single-trigger modes without MPE do fall back; plain mono modes kill the voice and start none, MPE single-trigger never falls back (refuted)."
  },
  {
   "property": "C29",
   "status": "partial",
   "theorems": [
    "C29_set_parameter_panics_refuted",
    "C29_solo_clears_all_refuted",
    "C29_unsolo",
    "C29_voice_path",
    "C29_toggle_local",
    "C29_soloed_parameter_on"
   ],
   "note": "Set_parameter01 panics for every parameter (it reads it as Int and as Bool), and the solo handler clears every scene solo (refuted, for all states). Proved: un-soloing changes nothing else; the voice plays exactly the soloed channels, or the unmuted ones when none is soloed."
  },
  {
   "property": "C30",
   "status": "proved",
   "theorems": [
    "C30_mute_flags_are_a_set",
    "C30_far_steps_panic"
   ],
   "note": ""
  },
  {
   "property": "C31",
   "status": "proved",
   "theorems": [
    "C31_save_then_load",
    "C31_load_any_text_keeps_shape",
    "C31_number_text",
    "C31_load_fields"
   ],
   "note": "f32 Display/FromStr are universally quantified with exactly the round-trip facts used."
  },
  {
   "property": "C32",
   "status": "proved",
   "theorems": [
    "C32_steps",
    "C32_probabilities",
    "C32_out_of_range_reads_zero",
    "C32_set_probabilities",
    "C32_fresh",
    "C32_default"
   ],
   "note": ""
  },
  {
   "property": "C33",
   "status": "partial",
   "theorems": [
    "C33_no_shuffle_panics_refuted",
    "C33_advance_partial",
    "C33_loop_outside_pattern_panics_refuted"
   ],
   "note": "Panics whenever shuffle is not positive - the default (refuted); with loop points outside the pattern the second advance panics (refuted). With positive shuffle (2^-100..2^20), valid loop points and a 16-bit mask it is total and stays in the pattern, for every draw, in binary32 arithmetic."
  },
  {
   "property": "C34",
   "status": "partial",
   "theorems": [
    "C34_no_scale_loads_refuted",
    "C34_loaded_scale_refused_refuted",
    "C34_count_lines",
    "C34_cents_line",
    "C34_integer_line",
    "C34_ratio_line_refuted"
   ],
   "note": "False of the code: no text loads to a scale with a tone (refuted, for every text, with the exact outcome per text)."
  },
  {
   "property": "C35",
   "status": "partial",
   "theorems": [
    "C35_retune_linear",
    "C35_period",
    "C35_retune_keyed",
    "C35_unmapped_sound_refuted",
    "C35_octave_degrees_ignored_refuted",
    "C35_invalid_scale"
   ],
   "note": "Proved for every scale and every linear mapping (all keys, both directions), and for keyed mappings key by key. Refuted: octave_degrees is ignored, unmapped keys sound."
  },
  {
   "property": "C36",
   "status": "partial",
   "theorems": [
    "C36_new_in_range",
    "C36_history_in_range",
    "C36_float_never_fails",
    "C36_temposync_nan_refuted",
    "C36_raw_set_refuted",
    "C36_bool_panics_refuted",
    "C36_int_never_fails"
   ],
   "note": "Proved for every history of normalised and typed sets, NaN and infinities included, for float and integer descriptors. Refuted: the raw setter is unbounded; NaN with tempo sync on reaches to_int_unchecked (undefined behaviour); boolean parameters panic."
  },
  {
   "property": "C37",
   "status": "partial",
   "theorems": [
    "C37_float_round_trip",
    "C37_float_clamps",
    "C37_force_integer",
    "C37_normalise_inverse",
    "C37_int_ignores_input_refuted",
    "C37_int_scale_refuted",
    "C37_nil_reads_zero_refuted",
    "C37_bool_panics_refuted",
    "C37_float_reads_unit",
    "C37_float_monotone",
    "C37_int_stuck_refuted",
    "C37_typed_set",
    "C37_default_reads",
    "C37_default_value",
    "C37_switch_positions",
    "C37_mismatch"
   ],
   "note": "Float parameters: exact over the reals, in [0,1] and monotone in binary32. Refuted for integer parameters (the input is ignored), boolean parameters (panic) and Nil."
  },
  {
   "property": "C38",
   "status": "partial",
   "theorems": [
    "C38_morph",
    "C38_fallback",
    "C38_morph_alt_keeps",
    "C38_ends_f32",
    "C38_between_f32_refuted"
   ],
   "note": "Linear and between the ends over the reals, ends exact in binary32; in binary32 the result can leave the interval by one rounding step (refuted)."
  },
  {
   "property": "C39",
   "status": "partial",
   "theorems": [
    "C39_lag_converges_partial",
    "C39_lag_closed_form",
    "C39_lag_snaps",
    "C39_vlag_converges",
    "C39_lag_new_misses_target_refuted",
    "C39_first_value_snaps",
    "C39_vlag_fresh"
   ],
   "note": "Default-constructed lags converge (partial); Lag::new with another rate misses the target by the factor 250*rate (refuted)."
  },
  {
   "property": "C40",
   "status": "proved",
   "theorems": [
    "C40_ramp_is_linear",
    "C40_blocks_join",
    "C40_instantize",
    "C40_first_ramp_is_flat",
    "C40_next_ramp_continues"
   ],
   "note": ""
  },
  {
   "property": "C41",
   "status": "partial",
   "theorems": [
    "C41_ramp_partial",
    "C41_ramp_restarts_refuted",
    "C41_ramp_period_refuted",
    "C41_block_of_eight",
    "C41_constant_gain",
    "C41_smoothed_target",
    "C41_set_at_once"
   ],
   "note": "Within each 8 samples the gains are the ramp; after 8 samples the ramp restarts because the macro passes the registers by value (refuted for all longer blocks, exact and binary32)."
  },
  {
   "property": "C42",
   "status": "proved",
   "theorems": [
    "C42_trixpan_blocks",
    "C42_pan_law"
   ],
   "note": ""
  },
  {
   "property": "C43",
   "status": "partial",
   "theorems": [
    "C43_processed_exactly_when_input_present",
    "C43_always_on_is_always_processed",
    "C43_tail_rings_out_refuted",
    "C43_zero_tail_correct",
    "C43_counter_counts_silence",
    "C43_off_has_no_count"
   ],
   "note": ""
  },
  {
   "property": "C44",
   "status": "partial",
   "theorems": [
    "C44_held_range_partial",
    "C44_stages",
    "C44_stuck",
    "C44_trigger",
    "C44_release_refuted",
    "C44_stage_times"
   ],
   "note": "Proved: range in [0,1] for every history without release (rates >= 0, sustain 0 or 1), exact level and duration of each stage, stuck afterwards, trigger restarts. Refuted: the release stage adds the start level instead of scaling, so it jumps up (above 1) and then drops to 0."
  },
  {
   "property": "C45",
   "status": "partial",
   "theorems": [
    "C45_envelope_refuted",
    "C45_range_partial",
    "C45_stage_order_partial",
    "C45_attack_partial",
    "C45_decay_partial",
    "C45_quadratic_decay_refuted",
    "C45_release_partial",
    "C45_fresh",
    "C45_retrigger",
    "C45_unknown_attack_shape_panics"
   ],
   "note": "As shipped every digital block, release and quick release panics because get_output is todo!() (refuted, for all states). With get_output doing what it documents: range, order, exact attack, decay and release curves and termination are proved over the reals; the quadratic decay swings for ever near zero (refuted)."
  },
  {
   "property": "C46",
   "status": "proved",
   "theorems": [
    "C46_read",
    "C46_delay_accuracy",
    "C46_in_bounds"
   ],
   "note": "Proved over exact reals for every history: exact 12-tap window of the samples written dt+1 back, delay accurate to 1/256 sample for 32..2^18-13, all accesses in bounds for every run. The filters are any function on the two 32-sample blocks; the delay-time smoother's output is any function of the sample index."
  },
  {
   "property": "C47",
   "status": "proved",
   "theorems": [
    "C47_allpass_recurrence",
    "C47_allpass_conserves_energy",
    "C47_allpass_never_amplifies",
    "C47_zero_length_panics",
    "C47_default",
    "C47_default_position"
   ],
   "note": ""
  },
  {
   "property": "C48",
   "status": "proved",
   "theorems": [
    "C48_too_many_cells",
    "C48_layout",
    "C48_wrong_count"
   ],
   "note": "Proved for every sample list and size: frame-by-frame layout; a wrong count or fewer than three tables panics."
  },
  {
   "property": "C49",
   "status": "partial",
   "theorems": [
    "C49_level_count",
    "C49_in_bounds",
    "C49_filter_sum_refuted",
    "C49_pcm_unfiltered_refuted"
   ],
   "note": "Proved: level count, all accesses in bounds. Refuted: a coarser level is a single tap times a single parent sample (the accumulator is overwritten), so 16-bit tables are decimated unfiltered and shifted by 32 samples."
  },
  {
   "property": "C50",
   "status": "partial",
   "theorems": [
    "C50_eight_bit_refused",
    "C50_declared_frames",
    "C50_plain_sample",
    "C50_rejected",
    "C50_cue_only_refuted",
    "C50_frame_count_refuted",
    "C50_plain_length_refuted",
    "C50_stereo_refuted",
    "C50_srgo_without_srge_refuted",
    "C50_unreadable_refuted",
    "C50_file_name_refuted",
    "C50_truncated_refuted"
   ],
   "note": "Proved: layout of loaded files for declared frame lengths and plain samples, error cases. Refuted: cue-only files never load; panics on wrong frame counts, plain lengths not a multiple of the window, stereo, srgo without srge, unreadable files, other extensions, .wt files; truncated files load header bytes as samples."
  },
  {
   "property": "C51",
   "status": "partial",
   "theorems": [
    "C51_set_matches_new",
    "C51_ms_follows_rate",
    "C51_oversampled_rate_updates_refuted"
   ],
   "note": ""
  },
  {
   "property": "C52",
   "status": "partial",
   "theorems": [
    "C52_mid_side_lossless_partial",
    "C52_mid_side_lossless_f32",
    "C52_mid_side_f32_refuted",
    "C52_overrun_refuted"
   ],
   "note": "Exact over the reals, and in binary32 on a common grid; not lossless in binary32 in general, and lengths not a multiple of 4 quads overrun (refuted)."
  },
  {
   "property": "C53",
   "status": "partial",
   "theorems": [
    "C53_hardclip",
    "C53_limit_range",
    "C53_clamps",
    "C53_limit_range_int",
    "C53_hardclip8_sd_refuted",
    "C53_hardclip_blocks",
    "C53_hardclip8_range",
    "C53_hardclip_block_overrun_refuted",
    "C53_softclip_block",
    "C53_tanh7_block",
    "C53_softclip",
    "C53_softclip_wide",
    "C53_softclip2_refuted",
    "C53_softclip_f32",
    "C53_tanh_fast",
    "C53_tanh7_bounded",
    "C53_tanh7_single"
   ],
   "note": "hardclip8_sd clips at -7 (refuted), softclip2_f64 folds back (refuted), odd block lengths overrun (refuted). All other clippers hold, in binary32 for every input incl. NaN."
  },
  {
   "property": "C54",
   "status": "proved",
   "theorems": [
    "C54_byte_order",
    "C54_byte_swap_involution",
    "C54_i15_roundtrip",
    "C54_i15_exact",
    "C54_float_to_i15",
    "C54_int7"
   ],
   "note": ""
  },
  {
   "property": "C55",
   "status": "proved",
   "theorems": [
    "C55_unison_spread",
    "C55_total_level",
    "C55_unison_spread_f32",
    "C55_too_many_voices_panics"
   ],
   "note": ""
  },
  {
   "property": "C56",
   "status": "partial",
   "theorems": [
    "C56_fresh",
    "C56_output01",
    "C56_target_round_trip",
    "C56_target01_in_range",
    "C56_init_sets_both",
    "C56_no_overshoot_iff",
    "C56_converges_without_overshoot",
    "C56_convergence_rate",
    "C56_unipolar_safe",
    "C56_bipolar_overshoots_refuted",
    "C56_until_close",
    "C56_change_flag",
    "C56_output_moves_without_change_refuted"
   ],
   "note": ""
  },
  {
   "property": "C57",
   "status": "partial",
   "theorems": [
    "C57_families",
    "C57_constructors",
    "C57_covered",
    "C57_voice_or_scene_not_both_refuted",
    "C57_valid_modulation",
    "C57_no_voice_source_on_shared_parameter",
    "C57_modulate_modulators"
   ],
   "note": ""
  },
  {
   "property": "C58",
   "status": "partial",
   "theorems": [
    "C58_fact_chunk_invisible_partial",
    "C58_uhwt_payload_parsed_refuted"
   ],
   "note": "fact chunks of standard size are skipped; a uhWT chunk's payload is parsed as chunks (refuted)."
  },
  {
   "property": "C59",
   "status": "partial",
   "theorems": [
    "C59_even_chunks_readable_partial",
    "C59_odd_chunk_padding_refuted"
   ],
   "note": "Even-length chunks are fine; for odd-length chunks the pad byte is not skipped (refuted)."
  },
  {
   "property": "C60",
   "status": "partial",
   "theorems": [
    "C60_default_never_returns_refuted"
   ],
   "note": "default() recurses through default_default! without a base case: refuted for every stack depth."
  },
  {
   "property": "C61",
   "status": "partial",
   "theorems": [
    "C61_first_note_panics_refuted",
    "C61_poly_and_mono_notes_panic_refuted",
    "C61_portamento_retargets_first_gated_partial"
   ],
   "note": "create_voice's runtime construction is todo!(), so poly and mono notes always panic (refuted); the portamento path works. Scene.voices is a public Vec that no API call pushes to."
  },
  {
   "property": "C62",
   "status": "partial",
   "theorems": [
    "C62_second_scene_never_released_refuted",
    "C62_pedal_in_two_scene_mode_panics_on_new_patch_refuted",
    "C62_channel_split_pedal_partial",
    "C62_channel_split_pedal_matches_routing"
   ],
   "note": "Refuted: the shared hold buffer is emptied by the first scene's purge."
  },
  {
   "property": "C63",
   "status": "partial",
   "theorems": [
    "C63_learned_rpn_collides_with_cc_refuted",
    "C63_learned_cc_is_itself_partial",
    "C63_learned_nrpn_collides_with_cc_refuted"
   ],
   "note": "RPN/NRPN codes are truncated to u8, so they collide with CCs (refuted); plain CC learning is correct."
  },
  {
   "property": "C64",
   "status": "partial",
   "theorems": [
    "C64_processing_a_block_panics_refuted",
    "C64_one_finished_voice_partial",
    "C64_two_finished_voices_refuted",
    "C64_two_finished_last_panics_refuted",
    "C64_voice_ages_per_block"
   ],
   "note": "Freed indices are not adjusted for earlier removals (refuted); right for one finished voice. The block path itself starts with code that is todo!()."
  },
  {
   "property": "C65",
   "status": "proved",
   "theorems": [
    "C65_mpe_member_channel_bend",
    "C65_mpe_master_channel_bend",
    "C65_plain_bend",
    "C65_bend_in_range"
   ],
   "note": ""
  },
  {
   "property": "C66",
   "status": "partial",
   "theorems": [
    "C66_masked_step_not_skipped_refuted",
    "C66_jumps_go_to_unmasked_steps_partial"
   ],
   "note": "Refuted: a masked step is not skipped; partial: jumps land on unmasked steps only."
  },
  {
   "property": "C67",
   "status": "partial",
   "theorems": [
    "C67_loop_left_with_empty_mask_refuted",
    "C67_loop_kept_with_full_mask_partial",
    "C67_loop_stuck_on_first_step_refuted"
   ],
   "note": "Refuted: an empty mask ignores the loop, and the loop can get stuck on its first step; partial: with a full mask the position stays in the loop."
  },
  {
   "property": "C68",
   "status": "partial",
   "theorems": [
    "C68_probability_of_trigger",
    "C68_bad_probability_panics_refuted"
   ],
   "note": "The trigger law holds; unvalidated probabilities outside [0,1] panic (refuted)."
  },
  {
   "property": "C69",
   "status": "proved",
   "theorems": [
    "C69_mutation_changes_nothing_or_lands_in_unit",
    "C69_swing",
    "C69_swing_amount"
   ],
   "note": ""
  },
  {
   "property": "C70",
   "status": "partial",
   "theorems": [
    "C70_block_arithmetic",
    "C70_add_block_misaligned",
    "C70_accumulate_block",
    "C70_clear_block",
    "C70_copy_block",
    "C70_overrun_refuted",
    "C70_copy_overrun_refuted"
   ],
   "note": "Lengths that are not a multiple of the unroll factor overrun the block (refuted)."
  },
  {
   "property": "C71",
   "status": "partial",
   "theorems": [
    "C71_absmax_2",
    "C71_absmax_2_misaligned",
    "C71_absmax_refuted",
    "C71_squaremax",
    "C71_nan_never_greater"
   ],
   "note": "get_absmax uses a numeric cast as a bit mask, so normal-level blocks measure as silence (refuted); get_absmax_2 and get_squaremax are right."
  },
  {
   "property": "C72",
   "status": "partial",
   "theorems": [
    "C72_lerp_partial",
    "C72_lerp_endpoint_refuted",
    "C72_cubic"
   ],
   "note": "lerp rejects x = 1 by panicking (refuted)."
  },
  {
   "property": "C73",
   "status": "partial",
   "theorems": [
    "C73_noise_bounded",
    "C73_noise_o2_bounded",
    "C73_white",
    "C73_drift_bounded",
    "C73_drift_is_memoryless_refuted"
   ],
   "note": "Bounds hold; the drift state is never updated (refuted)."
  },
  {
   "property": "C74",
   "status": "proved",
   "theorems": [
    "C74_fasttanh",
    "C74_fastexp",
    "C74_fastsin_fastcos",
    "C74_clamp_to_pi"
   ],
   "note": ""
  },
  {
   "property": "C75",
   "status": "proved",
   "theorems": [
    "C75_windows",
    "C75_window_ends"
   ],
   "note": ""
  },
  {
   "property": "C76",
   "status": "partial",
   "theorems": [
    "C76_bitscan_refuted",
    "C76_sine16",
    "C76_sine16_shape",
    "C76_sign"
   ],
   "note": "bitscan_reverse counts trailing zeros (refuted)."
  },
  {
   "property": "C77",
   "status": "proved",
   "theorems": [
    "C77_megapan"
   ],
   "note": ""
  },
  {
   "property": "C78",
   "status": "partial",
   "theorems": [
    "C78_switches_ignored_refuted",
    "C78_absolute_switch",
    "C78_extended_is_scaling",
    "C78_new_parameter",
    "C78_clear_flags"
   ],
   "note": "set_extend_range and set_snap are stored but never read (refuted); absolute, tempo sync and clear_flags work."
  },
  {
   "property": "C79",
   "status": "proved",
   "theorems": [
    "C79_modulation_round_trip",
    "C79_unsupported_is_zero",
    "C79_difference"
   ],
   "note": ""
  },
  {
   "property": "C80",
   "status": "partial",
   "theorems": [
    "C80_notename",
    "C80_injective",
    "C80_negative_panics_refuted"
   ],
   "note": "Proved for all note numbers >= 0; negative ones that are not multiples of 12 panic (refuted, exactly those)."
  },
  {
   "property": "C81",
   "status": "partial",
   "theorems": [
    "C81_always_dotted_refuted",
    "C81_above_whole"
   ],
   "note": "Below a whole note every label says dotted (refuted, for every value); from one to two whole notes the label is right."
  },
  {
   "property": "C82",
   "status": "partial",
   "theorems": [
    "C82_no_mapping_loads_refuted",
    "C82_tune_a69_refuted",
    "C82_remap_standard",
    "C82_remap_standard_keeps_scale",
    "C82_integer_lines",
    "C82_remap_reference",
    "C82_default_reference",
    "C82_new_tuner",
    "C82_reset_keeps_pitch_refuted"
   ],
   "note": "The reader never yields a usable mapping and tune_a69_to has no effect or panics (refuted, for every text); remapping to the standard keyboard is proved."
  },
  {
   "property": "C83",
   "status": "partial",
   "theorems": [
    "C83_standard_inverse",
    "C83_lookup",
    "C83_monotone",
    "C83_octave",
    "C83_above_refuted",
    "C83_below_refuted",
    "C83_fresh_tuner_refuted",
    "C83_tuning_center",
    "C83_inverse_center_refuted",
    "C83_omega",
    "C83_count_refuted",
    "C83_clamped_lookup",
    "C83_clamped_below_refuted"
   ],
   "note": "Proved inside the table; outside it wraps, sawtooths or panics (refuted, exact behaviour); a new tuner answers 0; the inverse at the tuning centre is 1/pitch^2."
  },
  {
   "property": "C84",
   "status": "partial",
   "theorems": [
    "C84_range_partial",
    "C84_hold_partial",
    "C84_exceeds_one_refuted",
    "C84_release_partial",
    "C84_coefficient"
   ],
   "note": "Release panics as shipped (see C45). With get_output as documented: exact charge, discharge and release curves over the reals, termination, range [0,1.5]; the output exceeds 1 on every held note (refuted)."
  },
  {
   "property": "C85",
   "status": "partial",
   "theorems": [
    "C85_db_exact_and_linear",
    "C85_db_monotone",
    "C85_db_outside_refuted",
    "C85_clipscale",
    "C85_rate_exact_and_linear",
    "C85_rate_positive",
    "C85_rate_outside_refuted",
    "C85_waveshape",
    "C85_sine_warp",
    "C85_sine_warp_negative_refuted",
    "C85_uninitialised_refuted"
   ],
   "note": "Proved: exact/linear/monotone/positive inside the tables, waveshaper bounded for every argument, sine warp periodic and bounded for x >= -2. Refuted: outside the tables the index wraps (-385 dB is +127 dB), huge arguments panic, lookups before init are 0."
  },
  {
   "property": "C86",
   "status": "partial",
   "theorems": [
    "C86_phase_wrap",
    "C86_frequency",
    "C86_runaway_refuted",
    "C86_waveform",
    "C86_deform",
    "C86_bounded",
    "C86_output_ignored_refuted",
    "C86_deform_type_refuted",
    "C86_fresh_panics_refuted",
    "C86_noise_memoryless_refuted",
    "C86_shape_numbers"
   ],
   "note": "Proved over exact reals: phase wrap terminates, exact frequency, waveform formula, deform, bounds. Refuted: output never readable (get_output is 0), runaway phase above one turn per block, Deform has no type that suits all shapes, fresh parameters panic, noise memoryless."
  },
  {
   "property": "C87",
   "status": "partial",
   "theorems": [
    "C87_advance",
    "C87_loop",
    "C87_flags_only_on_turns",
    "C87_shuffle_refuted",
    "C87_step_overflow_refuted",
    "C87_glide",
    "C87_no_glide",
    "C87_step_value",
    "C87_fresh",
    "C87_smooth_passes_through",
    "C87_glide_passes_through"
   ],
   "note": "Proved: step order, looping, history, retrigger bits, glide bounds. Refuted: shuffle makes every other step 100x faster; steps >= 32 panic."
  },
  {
   "property": "C88",
   "status": "partial",
   "theorems": [
    "C88_key_trigger",
    "C88_random_refuted",
    "C88_freerun_refuted"
   ],
   "note": "Proved for key trigger. Refuted: random mode always uses step 0 (panics for loop end 0), free-running mode does not set the phase (panics when loop end < loop start)."
  },
  {
   "property": "C89",
   "status": "partial",
   "theorems": [
    "C89_block",
    "C89_crossfeed_ignored_refuted",
    "C89_dry",
    "C89_wet",
    "C89_modulation"
   ],
   "note": "Proved: the exact block equation (what is stored, what comes out), dry and wet limits, modulation bounds. Refuted: the crossfeed control has no effect, the feedback gain is used for both paths; the mix/feedback/width ramps restart every 8 samples (see C41)."
  },
  {
   "property": "C90",
   "status": "partial",
   "theorems": [
    "C90_rows",
    "C90_interpolation",
    "C90_kernel",
    "C90_i16_refuted",
    "C90_delay_line"
   ],
   "note": "Proved over exact reals, including the combination with the delay line (C46). Refuted: the 16-bit table adds 16384 instead of multiplying, every entry is 16383..16385."
  },
  {
   "property": "C91",
   "status": "proved",
   "theorems": [
    "C91_no_overlap",
    "C91_size_suffices",
    "C91_storage"
   ],
   "note": "Proved for every size and padding 0..11."
  },
  {
   "property": "C92",
   "status": "partial",
   "theorems": [
    "C92_power_of_two",
    "C92_other_lengths_refuted"
   ],
   "note": "Proved for powers of two. Refuted for every other length: the count of trailing zeros is reported."
  },
  {
   "property": "C93",
   "status": "partial",
   "theorems": [
    "C93_windows",
    "C93_symmetric_blackman",
    "C93_symmetric_blackman_harris_refuted"
   ],
   "note": "Proved over exact reals for n >= 2. Refuted: the symmetric Blackman-Harris window is asymmetric (exact difference given)."
  },
  {
   "property": "C94",
   "status": "partial",
   "theorems": [
    "C94_snaps_to_a_division",
    "C94_divisions_stay",
    "C94_monotone",
    "C94_nearest_refuted",
    "C94_split_outside_range"
   ],
   "note": "Snapping into the same octave, fixed points and monotonicity proved over exact reals for the bound_value path; nearest is refuted (the thresholds 1.167 and 1.41 are not the midpoints and a value just below the next octave snaps down to dotted)."
  },
  {
   "property": "C95",
   "status": "proved",
   "theorems": [
    "C95_channel_aftertouch",
    "C95_poly_aftertouch",
    "C95_modulation_wheel",
    "C95_bipolar_scale",
    "C95_mpe_pan_and_timbre"
   ],
   "note": "proved for every well-formed synth state, value and channel (rational arithmetic)"
  },
  {
   "property": "C96",
   "status": "proved",
   "theorems": [
    "C96_program_change",
    "C96_patches_distinct"
   ],
   "note": "proved"
  },
  {
   "property": "C97",
   "status": "partial",
   "theorems": [
    "C97_playscene_inverted_refuted",
    "C97_playing_scenes",
    "C97_notes_go_to_playing_scenes"
   ],
   "note": "partial: which scenes are routed to is proved; the flag the renderer computes for post-processing a scene is inverted (refuted: it is set exactly when the scene has no voices)"
  },
  {
   "property": "C98",
   "status": "partial",
   "theorems": [
    "C98_scene_b_follows_scene_a_refuted",
    "C98_control_step_unarmed",
    "C98_release_when_latched_partial",
    "C98_forced_release_partial",
    "C98_latched_note_only_when_silent",
    "C98_latched_note_panics_refuted"
   ],
   "note": "partial: freeing two or more voices panics (C25), so release is proved for scenes with at most one voice; in the synth's control step an armed scene B follows scene A's playing flag (refuted); the latched note itself always panics (refuted)"
  },
  {
   "property": "C99",
   "status": "proved",
   "theorems": [
    "C99_new_mpe_unit",
    "C99_last_key",
    "C99_poly_aftertouch_store",
    "C99_main_channel",
    "C99_single_trigger_release_any_member_channel"
   ],
   "note": "proved for the stored values and the single-trigger consequence"
  },
  {
   "property": "C100",
   "status": "partial",
   "theorems": [
    "C100_halted_engine_is_silent",
    "C100_clear_inputs_always_fails_refuted",
    "C100_no_block_completes_refuted"
   ],
   "note": "partial: silence while halted is proved; without an input bus the block ends in an alignment error for every buffer address (refuted), with one the input channels overlap, so no unhalted block completes"
  },
  {
   "property": "C101",
   "status": "partial",
   "theorems": [
    "C101_input_channels_overlap_refuted",
    "C101_output_channels_apart"
   ],
   "note": "partial: proved for the output buffer; refuted for the input buffer, whose right channel starts two samples after the left"
  },
  {
   "property": "C102",
   "status": "partial",
   "theorems": [
    "C102_scratch_block_partial",
    "C102_scratch_block_overruns_refuted",
    "C102_scratch_misaligned"
   ],
   "note": "partial: the block's own 256 cells are cleared, but 192 cells behind it are overwritten too (refuted); a block not 16-byte aligned is an error"
  },
  {
   "property": "C103",
   "status": "partial",
   "theorems": [
    "C103_effects_that_run_partial",
    "C103_bypass_inserts_swapped_refuted"
   ],
   "note": "partial: proved for bypass settings AllFX and SceneFXOnly; NoSendFX drops the inserts and AllFXOff keeps them (refuted)"
  },
  {
   "property": "C104",
   "status": "proved",
   "theorems": [
    "C104_scenes_are_summed",
    "C104_dry_output",
    "C104_output_is_bounded",
    "C104_muted_is_silent"
   ],
   "note": "proved; effects are arbitrary functions, bounds in binary32, muted silence in exact arithmetic"
  },
  {
   "property": "C105",
   "status": "proved",
   "theorems": [
    "C105_meter_bounds",
    "C105_meter_decay",
    "C105_meter_history"
   ],
   "note": "proved over exact reals"
  },
  {
   "property": "C106",
   "status": "proved",
   "theorems": [
    "C106_voices_have_their_own_lane",
    "C106_quads_cover_voices"
   ],
   "note": "proved"
  },
  {
   "property": "C107",
   "status": "partial",
   "theorems": [
    "C107_inconsistent_header_rejected",
    "C107_unknown_format_tag_unsupported",
    "C107_pcm_header",
    "C107_float_header",
    "C107_extensible_header",
    "C107_ragged_alignment_accepted_refuted"
   ],
   "note": "All headers with a minimal file around them: inconsistent -> FormatError, unknown kind -> Unsupported, PCM/float/extensible accepted exactly as described. Refuted part: the block alignment is divided by the channel count and the remainder dropped, so a ragged alignment is accepted. 32-bit PCM with a WAVEFORMATEX extension is refused (part of the exact description)."
  },
  {
   "property": "C108",
   "status": "partial",
   "theorems": [
    "C108_clm_chunk",
    "C108_srge_chunk",
    "C108_smpl_chunk_without_loop",
    "C108_smpl_chunk_with_loop",
    "C108_short_clm_panics_refuted"
   ],
   "note": "clm, srge, srgo, smpl proved for all field values. Refuted part: a clm chunk declaring fewer than 7 bytes makes opening panic (u32 underflow)."
  },
  {
   "property": "C109",
   "status": "partial",
   "theorems": [
    "C109_bounded_input_bounded_output",
    "C109_silence_decays",
    "C109_glide_stays_in_triangle",
    "C109_above_nyquist",
    "C109_unguarded_above_nyquist_blows_up_refuted",
    "C109_allpass_out_of_range"
   ],
   "note": "Over exact reals. Fixed coefficients (settled) are BIBO stable; during a glide only the frozen coefficient sets are shown to be in the stability triangle. Refuted for the unguarded designs above Nyquist (coeff_bp, bp2a, pka, morph; unused by other crates)."
  },
  {
   "property": "C110",
   "status": "proved",
   "theorems": [
    "C110_difference_equation",
    "C110_first_samples",
    "C110_block_is_samples",
    "C110_stereo_is_two_monos",
    "C110_variants_agree",
    "C110_slowlag",
    "C110_stereo_block_flushes"
   ],
   "note": "Over exact reals; all processing variants."
  },
  {
   "property": "C111",
   "status": "proved",
   "theorems": [
    "C111_lowpass",
    "C111_highpass",
    "C111_bandpass",
    "C111_peak",
    "C111_notch",
    "C111_allpass",
    "C111_lowpass2b",
    "C111_peak_eq",
    "C111_by_bandwidth",
    "C111_notch_resonance_limited"
   ],
   "note": "Over exact reals; peak_eq: DC gain and 0 dB only."
  },
  {
   "property": "C112",
   "status": "proved",
   "theorems": [
    "C112_sine_response"
   ],
   "note": "Over exact reals, settled coefficients."
  },
  {
   "property": "C113",
   "status": "proved",
   "theorems": [
    "C113_first_design_is_immediate",
    "C113_later_design_glides",
    "C113_registers_untouched",
    "C113_resonance_range",
    "C113_omega"
   ],
   "note": "Over exact reals; omega doubling is conditional on the tuner's octave law."
  },
  {
   "property": "C114",
   "status": "partial",
   "theorems": [
    "C114_morph_ignored_refuted"
   ],
   "note": "Refuted: the morph argument is unused (the code's own comment says so)."
  },
  {
   "property": "C115",
   "status": "partial",
   "theorems": [
    "C115_update_ratios",
    "C115_handle_tempo_refuted",
    "C115_fresh_unit"
   ],
   "note": "Update proved for every f64 tempo in binary floating point; the handle finding is universal over call histories."
  },
  {
   "property": "C116",
   "status": "partial",
   "theorems": [
    "C116_set_rate_normalises",
    "C116_default_starts_at_zero",
    "C116_phase_history",
    "C116_phase_from_default",
    "C116_n_steps",
    "C116_process_before_rate_refuted"
   ],
   "note": "Exact reals (no rounding drift); the division by zero of set_rate at the origin is shown as Panic (NaN in the code)."
  },
  {
   "property": "C117",
   "status": "proved",
   "theorems": [
    "C117_svf_stable",
    "C117_svf_coeff_frame"
   ],
   "note": "Exact reals, one lane (the code is lane-wise)."
  },
  {
   "property": "C118",
   "status": "proved",
   "theorems": [
    "C118_svf_centre_gain",
    "C118_svf_blocks_dc",
    "C118_svf_linear",
    "C118_svf_run_is_out"
   ],
   "note": "Exact reals, one lane."
  },
  {
   "property": "C119",
   "status": "partial",
   "theorems": [
    "C119_converges",
    "C119_no_overshoot",
    "C119_first_block_refuted"
   ],
   "note": "Exact reals; the quad filter's 64 additions of dcoeff per block are part of the modelled block."
  },
  {
   "property": "C120",
   "status": "partial",
   "theorems": [
    "C120_range",
    "C120_tanh_curve",
    "C120_tanh_rcp_error",
    "C120_tanh_huge_negative_refuted"
   ],
   "note": "Range in binary32 for every reciprocal behaviour; curve over exact reals; the huge-negative case is a finding in binary32."
  },
  {
   "property": "C121",
   "status": "partial",
   "theorems": [
    "C121_digi_quantises",
    "C121_digi_monotone",
    "C121_digi_silence_refuted",
    "C121_digi_overload_refuted"
   ],
   "note": "Exact reals with the conversion's round-to-even and 32-bit saturation."
  },
  {
   "property": "C122",
   "status": "partial",
   "theorems": [
    "C122_table_shapers_constant_refuted",
    "C122_table_shapers_level"
   ],
   "note": "Universal refutation: the table look-up ignores its offset; SSE packing modelled for all four lanes."
  },
  {
   "property": "C123",
   "status": "proved",
   "theorems": [
    "C123_lanes_independent",
    "C123_every_quad_is_four_lanes"
   ],
   "note": "Filters and shaper are arbitrary lane-wise functions of unit state and sample; arithmetic over exact reals; the input buffers have 64 samples."
  },
  {
   "property": "C124",
   "status": "proved",
   "theorems": [
    "C124_inactive_silent",
    "C124_inactive_irrelevant"
   ],
   "note": "Exact reals; an AND with an all-zero mask is modelled as 0."
  },
  {
   "property": "C125",
   "status": "partial",
   "theorems": [
    "C125_ramps",
    "C125_left_pan_overshoots_refuted"
   ],
   "note": "Exact reals. Refuted part: dout_l is added twice in qfc_write_outputs_dual."
  },
  {
   "property": "C126",
   "status": "proved",
   "theorems": [
    "C126_dispatch_never_unwraps_none"
   ],
   "note": "Arbitrary vector type and operations; in stereo/wide the debug-only reasonableness assertions are excluded."
  },
  {
   "property": "C127",
   "status": "proved",
   "theorems": [
    "C127_bypass"
   ],
   "note": "Exact reals; no filter, no shaper, zero feedback."
  },
  {
   "property": "C128",
   "status": "proved",
   "theorems": [
    "C128_feedback_bounded"
   ],
   "note": "Exact reals; saturating = bounded-output units."
  },
  {
   "property": "C129",
   "status": "partial",
   "theorems": [
    "C129_load_lane",
    "C129_no_clicks",
    "C129_left_pan_clicks_refuted"
   ],
   "note": "Exact reals; refuted part is the consequence of the C125 finding."
  },
  {
   "property": "C130",
   "status": "partial",
   "theorems": [
    "C130_balance",
    "C130_channel_pan_second_bus_refuted",
    "C130_pan_levels",
    "C130_two_bus_levels",
    "C130_one_bus_level"
   ],
   "note": "Exact reals; refuted part: calc_pan's second-bus amplitudes do not use the channel pan."
  },
  {
   "property": "C131",
   "status": "proved",
   "theorems": [
    "C131_svf_coefficients",
    "C131_svf_cutoff_monotone"
   ],
   "note": "Exact reals."
  },
  {
   "property": "C132",
   "status": "proved",
   "theorems": [
    "C132_silence_decays",
    "C132_two_pole_bounded",
    "C132_four_pole_bounded",
    "C132_glide"
   ],
   "note": "Exact reals, coefficients fixed during the run; stability shown for resonance at most 0.86 (q > 0)."
  },
  {
   "property": "C133",
   "status": "proved",
   "theorems": [
    "C133_dc",
    "C133_dc_converges",
    "C133_first_sample_forgotten"
   ],
   "note": "Exact reals; convergence at zero resonance."
  },
  {
   "property": "C134",
   "status": "proved",
   "theorems": [
    "C134_moog_coefficients",
    "C134_moog_bounded",
    "C134_moog_stages",
    "C134_glide",
    "C134_rest"
   ],
   "note": "Exact reals."
  },
  {
   "property": "C135",
   "status": "proved",
   "theorems": [
    "C135_hold",
    "C135_rate",
    "C135_above_sample_rate",
    "C135_bounded_f32",
    "C135_design"
   ],
   "note": "Rate in exact reals, bound in binary32."
  },
  {
   "property": "C136",
   "status": "partial",
   "theorems": [
    "C136_delay",
    "C136_delay_resolution",
    "C136_step_ideal_partial",
    "C136_run_ideal_partial",
    "C136_memory_safe_partial",
    "C136_inactive",
    "C136_extract_refuted",
    "C136_row_refuted",
    "C136_variants"
   ],
   "note": "Refuted for the shipped code (simd_extract is todo!(), row scaled after extraction); the partial theorems describe the filter with these two repaired, exact reals."
  },
  {
   "property": "C137",
   "status": "proved",
   "theorems": [
    "C137_low_pass",
    "C137_too_long_panics",
    "C137_reset"
   ],
   "note": "Exact reals; buffers are multiples of four samples (the code reads past other lengths)."
  },
  {
   "property": "C138",
   "status": "proved",
   "theorems": [
    "C138_downsample",
    "C138_upsample",
    "C138_upsample_too_long_panics"
   ],
   "note": "Exact reals; block lengths multiples of eight (down) and four (up)."
  },
  {
   "property": "C139",
   "status": "proved",
   "theorems": [
    "C139_never_adds_energy",
    "C139_all_pass"
   ],
   "note": "Exact reals."
  },
  {
   "property": "C140",
   "status": "partial",
   "theorems": [
    "C140_passes_dc",
    "C140_stops_nyquist",
    "C140_upsampling_halves_refuted"
   ],
   "note": "Exact reals; the refuted part is the level after upsampling."
  },
  {
   "property": "C141",
   "status": "proved",
   "theorems": [
    "C141_new"
   ],
   "note": "Coefficients are the decimal literals (the code rounds them to f32)."
  },
  {
   "property": "C142",
   "status": "proved",
   "theorems": [
    "C142_window_maximum"
   ],
   "note": "from init; exact reals"
  },
  {
   "property": "C143",
   "status": "partial",
   "theorems": [
    "C143_lookahead_sees_one_sample_in_128_refuted",
    "C143_peaks_pass_unlimited_refuted"
   ],
   "note": "refuted: get_lookahead reads leaf LOOKAHEAD-2 = 126 instead of the root 254"
  },
  {
   "property": "C144",
   "status": "partial",
   "theorems": [
    "C144_delays_128_and_never_amplifies",
    "C144_rates",
    "C144_uninitialised_refuted"
   ],
   "note": "reciprocal approximation as hypothesis; refuted without init (envelope 0)"
  },
  {
   "property": "C145",
   "status": "proved",
   "theorems": [
    "C145_attack",
    "C145_sustained_peak_is_limited",
    "C145_idle_recovery",
    "C145_balance"
   ],
   "note": "exact reciprocal in the sustained-peak theorem"
  },
  {
   "property": "C146",
   "status": "proved",
   "theorems": [
    "C146_diode_curve",
    "C146_ring_balanced"
   ],
   "note": "exact reals"
  },
  {
   "property": "C147",
   "status": "partial",
   "theorems": [
    "C147_carrier_frequency_quantised_refuted",
    "C147_standing_carrier_refuted",
    "C147_phase_stays_in_range"
   ],
   "note": "refuted: phase -= phase"
  },
  {
   "property": "C148",
   "status": "partial",
   "theorems": [
    "C148_output_stage",
    "C148_no_clipping_refuted",
    "C148_full_scale_flips_refuted",
    "C148_silence",
    "C148_stereo_lost_refuted",
    "C148_dry_is_coloured_refuted"
   ],
   "note": "refuted parts stated universally; low/high cut after the core not included"
  },
  {
   "property": "C149",
   "status": "proved",
   "theorems": [
    "C149_unison",
    "C149_too_many",
    "C149_gain_scale"
   ],
   "note": "bounds-checked arrays of 16"
  },
  {
   "property": "C150",
   "status": "proved",
   "theorems": [
    "C150_shapes_bounded",
    "C150_symmetry",
    "C150_shape4"
   ],
   "note": "input point anywhere in the unit disc; fastsin/fastcos error not included"
  },
  {
   "property": "C151",
   "status": "proved",
   "theorems": [
    "C151_oversampled_loop",
    "C151_memoryless",
    "C151_waveshape_index"
   ],
   "note": "waveshaper an arbitrary function; ramps as factor lists"
  },
  {
   "property": "C152",
   "status": "partial",
   "theorems": [
    "C152_output_is_not_decimated_refuted",
    "C152_later_samples_inaudible_refuted",
    "C152_writes_past_the_block_refuted"
   ],
   "note": "refuted; writes behind the 32-sample arrays are collected, their effect on other memory is not modelled"
  },
  {
   "property": "C153",
   "status": "proved",
   "theorems": [
    "C153_reverb_is_feedback_delay_network",
    "C153_reverb_runs_without_panic"
   ],
   "note": "exact reals; biquads, width and mix after the network not included; wrapping arithmetic"
  },
  {
   "property": "C154",
   "status": "proved",
   "theorems": [
    "C154_reverb_tail_dies_out",
    "C154_reverb_tail_never_grows"
   ],
   "note": "exact reals; wrapping arithmetic"
  },
  {
   "property": "C155",
   "status": "partial",
   "theorems": [
    "C155_predelay_underflow_refuted",
    "C155_first_sample_panics",
    "C155_no_run_survives",
    "C155_predelay_length"
   ],
   "note": "refuted (debug builds)"
  },
  {
   "property": "C156",
   "status": "proved",
   "theorems": [
    "C156_delays_fit_the_buffers",
    "C156_loop_gains",
    "C156_pans",
    "C156_initialised_reverb_tail_dies_out",
    "C156_initial_pans"
   ],
   "note": "float rounding of the products ignored"
  },
  {
   "property": "C157",
   "status": "proved",
   "theorems": [
    "C157_decay_rate"
   ],
   "note": "damping 0"
  },
  {
   "property": "C158",
   "status": "partial",
   "theorems": [
    "C158_room_zero_never_decays_refuted"
   ],
   "note": "refuted"
  },
  {
   "property": "C159",
   "status": "proved",
   "theorems": [
    "C159_settings_reach_the_network",
    "C159_next_block",
    "C159_init_tracked",
    "C159_preset_change_clears"
   ],
   "note": "ringout length not modelled"
  },
  {
   "property": "C160",
   "status": "proved",
   "theorems": [
    "C160_full_damping_freezes_output"
   ],
   "note": ""
  },
  {
   "property": "C161",
   "status": "partial",
   "theorems": [
    "C161_long_predelay_wraps_refuted"
   ],
   "note": "refuted"
  },
  {
   "property": "C162",
   "status": "partial",
   "theorems": [
    "C162_delay_reads_interpolated_past",
    "C162_long_delays_wrap_refuted",
    "C162_reachable"
   ],
   "note": "refuted for delays above 8191; exact reals"
  },
  {
   "property": "C163",
   "status": "proved",
   "theorems": [
    "C163_output_within_full_scale",
    "C163_soft_clip"
   ],
   "note": "exact reals"
  },
  {
   "property": "C164",
   "status": "proved",
   "theorems": [
    "C164_block_keeps_state_bounded"
   ],
   "note": "sine modes assume the phase misses the table edge (see C166)"
  },
  {
   "property": "C165",
   "status": "proved",
   "theorems": [
    "C165_flanger_never_explodes",
    "C165_no_feedback"
   ],
   "note": "modes 1 and 5 excluded because of C166"
  },
  {
   "property": "C166",
   "status": "partial",
   "theorems": [
    "C166_lfo_range",
    "C166_sine_table_edge_refuted",
    "C166_sample_and_hold_unipolar_refuted",
    "C166_reachable"
   ],
   "note": "refuted at the isolated phases where the sum is 1 or 2"
  },
  {
   "property": "C167",
   "status": "proved",
   "theorems": [
    "C167_comb_weights",
    "C167_other_voice_counts",
    "C167_modes"
   ],
   "note": ""
  },
  {
   "property": "C168",
   "status": "partial",
   "theorems": [
    "C168_in_range",
    "C168_mixed_kinds_refuted",
    "C168_ringmod_stuck_refuted",
    "C168_ringmod_reads_refuted",
    "C168_default_outside_refuted"
   ],
   "note": "refuted for ten parameters; raw set_value (patch/init.rs:18 and the mismatch handlers) is not among the operations"
  },
  {
   "property": "C169",
   "status": "partial",
   "theorems": [
    "C169_int_parameters_stuck_refuted"
   ],
   "note": "refuted for all fifteen"
  },
  {
   "property": "C170",
   "status": "partial",
   "theorems": [
    "C170_round_trip",
    "C170_nil_reads_zero_refuted",
    "C170_nil_where"
   ],
   "note": "refuted where the control type is Nil"
  },
  {
   "property": "C171",
   "status": "partial",
   "theorems": [
    "C171_typed_reads_refuted",
    "C171_reads_are_of_shipped"
   ],
   "note": "refuted for 66 reads; reads through a generic parameter argument (scene set.rs:11,32-33, modsource.rs:7,34) are in C29"
  },
  {
   "property": "C172",
   "status": "partial",
   "theorems": [
    "C172_predelay_panics_refuted",
    "C172_silent_until_then",
    "C172_any_tap_refuted",
    "C172_step_value"
   ],
   "note": "refuted; the step away from the wrap is proved exact"
  },
  {
   "property": "C173",
   "status": "proved",
   "theorems": [
    "C173_lossless",
    "C173_output_bounded",
    "C173_is_schroeder_allpass",
    "C173_too_long_panics"
   ],
   "note": "exact reals"
  },
  {
   "property": "C174",
   "status": "partial",
   "theorems": [
    "C174_lengths_fit",
    "C174_high_rate_refuted"
   ],
   "note": "refuted above 135414 Hz"
  },
  {
   "property": "C175",
   "status": "partial",
   "theorems": [
    "C175_delay_is",
    "C175_unmodulated",
    "C175_short_delays_exact",
    "C175_long_delay_refuted",
    "C175_fits"
   ],
   "note": "refuted for long delays"
  },
  {
   "property": "C176",
   "status": "partial",
   "theorems": [
    "C176_tail_passive",
    "C176_sizes_meet_it",
    "C176_frozen_low_damper_refuted",
    "C176_gains"
   ],
   "note": "refuted for coefficient 0; modulation 0 and zero input only; loop only (the pre-delay panics anyway)"
  },
  {
   "property": "C177",
   "status": "proved",
   "theorems": [
    "C177_superposition",
    "C177_mono_input"
   ],
   "note": "exact reals"
  },
  {
   "property": "C178",
   "status": "partial",
   "theorems": [
    "C178_second_block_refuted",
    "C178_jumps",
    "C178_step"
   ],
   "note": "refuted for low damping"
  },
  {
   "property": "C179",
   "status": "proved",
   "theorems": [
    "C179_loop_time",
    "C179_minus_60_dB",
    "C179_factor_below_1",
    "C179_monotone"
   ],
   "note": "delays only: the sections' own delay is not counted, as in the code"
  },
  {
   "property": "C180",
   "status": "proved",
   "theorems": [
    "C180_send_effect"
   ],
   "note": "layout condition is the one of the engine's buffers (Example)"
  },
  {
   "property": "C181",
   "status": "proved",
   "theorems": [
    "C181_triangle_and_saw",
    "C181_sine",
    "C181_phases_and_hold",
    "C181_long_phase",
    "C181_comb_delays"
   ],
   "note": "exact reals"
  },
  {
   "property": "C182",
   "status": "proved",
   "theorems": [
    "C182_block"
   ],
   "note": "exact reals; the invariant is preserved and holds initially"
  },
  {
   "property": "C183",
   "status": "proved",
   "theorems": [
    "C183_sine_cosine",
    "C183_sine_cosine_reduced",
    "C183_exponential",
    "C183_tanh",
    "C183_tangent"
   ],
   "note": "exact reals: rounding not included"
  },
  {
   "property": "C184",
   "status": "proved",
   "theorems": [
    "C184_shapes",
    "C184_carrier",
    "C184_sample",
    "C184_carrier_any_shape"
   ],
   "note": "exact reals"
  },
  {
   "property": "C185",
   "status": "partial",
   "theorems": [
    "C185_slow_rates",
    "C185_standard_tuning_pitched",
    "C185_period",
    "C185_fast_phase_refuted",
    "C185_fast_panics_refuted",
    "C185_max_rate",
    "C185_only_control_refuted",
    "C185_starts_in_the_middle"
   ],
   "note": "exact reals; refuted for rates above 1/8 cycle per block and for control-only calls"
  },
  {
   "property": "C186",
   "status": "proved",
   "theorems": [
    "C186_energy",
    "C186_never_louder",
    "C186_tail",
    "C186_tail_is_the_effect"
   ],
   "note": "exact reals, settled coefficients"
  },
  {
   "property": "C187",
   "status": "proved",
   "theorems": [
    "C187_bounded",
    "C187_is_the_effect",
    "C187_constant_settings",
    "C187_feedback_follows"
   ],
   "note": "exact reals, settled coefficients (LFO depth zero for the whole-history form)"
  },
  {
   "property": "C188",
   "status": "proved",
   "theorems": [
    "C188_full_mix",
    "C188_mono",
    "C188_right_ignores_left"
   ],
   "note": "exact reals; the code rounds the right channel's Q to f32"
  },
  {
   "property": "C189",
   "status": "partial",
   "theorems": [
    "C189_glide",
    "C189_constant_rate",
    "C189_monotone",
    "C189_legato_continuous",
    "C189_legato_at_end_refuted",
    "C189_shipped_refuted"
   ],
   "note": "exact reals; refuted at the end of a glide and as shipped"
  },
  {
   "property": "C190",
   "status": "partial",
   "theorems": [
    "C190_source",
    "C190_source_partial",
    "C190_source_refuted",
    "C190_unwanted_glide_refuted"
   ],
   "note": "refuted when exactly one of the two conditions holds"
  },
  {
   "property": "C191",
   "status": "partial",
   "theorems": [
    "C191_absolute_hz",
    "C191_relative",
    "C191_fraction_refuted",
    "C191_zero_shift_refuted",
    "C191_low_note_refuted"
   ],
   "note": "exact reals, strictly increasing tables"
  },
  {
   "property": "C192",
   "status": "partial",
   "theorems": [
    "C192_pitch",
    "C192_transpose",
    "C192_octave",
    "C192_bend",
    "C192_bend_shipped_refuted",
    "C192_keytrack",
    "C192_keytrack_toggled_refuted",
    "C192_oscillators",
    "C192_keytrack_switch_refuted",
    "C192_keytrack_off",
    "C192_cutoff"
   ],
   "note": "exact reals; refuted parts stated universally"
  },
  {
   "property": "C193",
   "status": "partial",
   "theorems": [
    "C193_level_law",
    "C193_wide",
    "C193_narrow_partial",
    "C193_narrow_refuted",
    "C193_routes",
    "C193_levels_partial",
    "C193_pfg_refuted",
    "C193_noise_colour_refuted"
   ],
   "note": "exact reals; oscillators' own output is arbitrary"
  },
  {
   "property": "C194",
   "status": "partial",
   "theorems": [
    "C194_store",
    "C194_first_voice_partial",
    "C194_other_voices_refuted",
    "C194_four_voices_refuted"
   ],
   "note": "memory modelled by f32 address, also past the end of the array"
  },
  {
   "property": "C195",
   "status": "partial",
   "theorems": [
    "C195_life",
    "C195_shipped_refuted"
   ],
   "note": "ages are i32"
  },
  {
   "property": "C196",
   "status": "partial",
   "theorems": [
    "C196_own_switch",
    "C196_gates_partial",
    "C196_stale_refuted",
    "C196_modulators",
    "C196_missing_refuted",
    "C196_no_object_refuted",
    "C196_toggle",
    "C196_new_voice_refuted"
   ],
   "note": "oscillators abstract; the shipped order of toggling"
  },
  {
   "property": "C197",
   "status": "partial",
   "theorems": [
    "C197_unchanged",
    "C197_changed",
    "C197_follows",
    "C197_twin_refuted"
   ],
   "note": "delay lines are not cleared by the code and not part of the unit"
  },
  {
   "property": "C198",
   "status": "partial",
   "theorems": [
    "C198_sync_keeps",
    "C198_own_lane",
    "C198_other_lanes",
    "C198_lane_range",
    "C198_round_trip",
    "C198_shared_lane_refuted"
   ],
   "note": "make_coeffs is UnitModel's; gains and mixes are QfModel.set_quad"
  },
  {
   "property": "C199",
   "status": "partial",
   "theorems": [
    "C199_sound",
    "C199_legacy_sound",
    "C199_legacy_shapes_refuted",
    "C199_legacy_shapes",
    "C199_frequency",
    "C199_concert_pitch",
    "C199_octave",
    "C199_bounded",
    "C199_restarts"
   ],
   "note": "exact reals; master_osc assumed readable; refuted for legacy waveforms 2, 3, 6, 8"
  },
  {
   "property": "C200",
   "status": "partial",
   "theorems": [
    "C200_feedback_refuted",
    "C200_feedback_vanishes_refuted",
    "C200_first_samples"
   ],
   "note": "exact reals; refuted"
  },
  {
   "property": "C201",
   "status": "partial",
   "theorems": [
    "C201_sound",
    "C201_fades_refuted",
    "C201_fade_time",
    "C201_bounded"
   ],
   "note": "exact reals; refuted in time"
  },
  {
   "property": "C202",
   "status": "partial",
   "theorems": [
    "C202_sound",
    "C202_starts_near_zero",
    "C202_fades_refuted",
    "C202_bounded"
   ],
   "note": "exact reals; refuted in time"
  },
  {
   "property": "C203",
   "status": "partial",
   "theorems": [
    "C203_mix",
    "C203_clamped",
    "C203_channels_refuted",
    "C203_second_half_unheard_refuted"
   ],
   "note": "the 64 x 2 array as memory; refuted"
  },
  {
   "property": "C204",
   "status": "partial",
   "theorems": [
    "C204_shipped_sine_refuted",
    "C204_shipped_fm_refuted",
    "C204_shipped_fm2_refuted",
    "C204_without_fm",
    "C204_legacy_fm",
    "C204_fm_depth"
   ],
   "note": "null read modelled as Panic; refuted"
  },
  {
   "property": "C205",
   "status": "partial",
   "theorems": [
    "C205_pan",
    "C205_outer_pans",
    "C205_delay_range",
    "C205_three_voices_refuted",
    "C205_rate_sync_refuted",
    "C205_delay_targets"
   ],
   "note": "exact reals; refuted: voices 0 and 3 coincide, tempo sync of Rate ignored"
  },
  {
   "property": "C206",
   "status": "proved",
   "theorems": [
    "C206_blocks",
    "C206_past_only",
    "C206_line_bounded",
    "C206_stable"
   ],
   "note": "exact reals; sinc table arbitrary; the filters' coefficients arbitrary"
  },
  {
   "property": "C207",
   "status": "proved",
   "theorems": [
    "C207_output",
    "C207_dry",
    "C207_width",
    "C207_filters_follow"
   ],
   "note": "exact reals; block operations sample by sample as proved in C41/C42/C70"
  },
  {
   "property": "C208",
   "status": "partial",
   "theorems": [
    "C208_turns",
    "C208_rate",
    "C208_distance",
    "C208_level",
    "C208_level_attained",
    "C208_tempo_sync_refuted"
   ],
   "note": "exact reals; refuted for tempo sync"
  },
  {
   "property": "C209",
   "status": "proved",
   "theorems": [
    "C209_blocks",
    "C209_past_only",
    "C209_short_delays",
    "C209_hears_the_average"
   ],
   "note": "exact reals; the sinc table is arbitrary (257*12 entries)"
  },
  {
   "property": "C210",
   "status": "partial",
   "theorems": [
    "C210_bass",
    "C210_bass_speed_refuted"
   ],
   "note": "exact reals; refuted"
  },
  {
   "property": "C211",
   "status": "partial",
   "theorems": [
    "C211_rows_refuted"
   ],
   "note": "refuted; f32 rounding of the travel time is not modelled"
  },
  {
   "property": "C212",
   "status": "partial",
   "theorems": [
    "C212_suspend_loses_bass_refuted",
    "C212_return_level_refuted",
    "C212_init_tunes"
   ],
   "note": "refuted; exact reals"
  },
  {
   "property": "C213",
   "status": "proved",
   "theorems": [
    "C213_shifts",
    "C213_upwards",
    "C213_downwards",
    "C213_branches_all_pass",
    "C213_no_shift",
    "C213_shift_in_hertz"
   ],
   "note": "exact reals; RMult must not change between 1 and other values within the run"
  },
  {
   "property": "C214",
   "status": "proved",
   "theorems": [
    "C214_safe",
    "C214_huge_time_panics"
   ],
   "note": "exact reals; debug profile for the overflow"
  },
  {
   "property": "C215",
   "status": "partial",
   "theorems": [
    "C215_delay_refuted",
    "C215_synced_refuted",
    "C215_no_fraction_refuted"
   ],
   "note": "refuted"
  },
  {
   "property": "C216",
   "status": "partial",
   "theorems": [
    "C216_squared_refuted",
    "C216_sign_refuted",
    "C216_one"
   ],
   "note": "refuted"
  },
  {
   "property": "C217",
   "status": "partial",
   "theorems": [
    "C217_lock",
    "C217_opposite_refuted"
   ],
   "note": "refuted only at exactly opposite phase"
  },
  {
   "property": "C218",
   "status": "proved",
   "theorems": [
    "C218_suspend_silences",
    "C218_starts_silent"
   ],
   "note": "exact reals"
  },
  {
   "property": "C219",
   "status": "proved",
   "theorems": [
    "C219_flat_is_gain",
    "C219_straight_wire",
    "C219_gain_approach"
   ],
   "note": "exact reals; decibel table with dbl 0 = 1"
  },
  {
   "property": "C220",
   "status": "partial",
   "theorems": [
    "C220_response",
    "C220_no_fade_in_refuted"
   ],
   "note": "bands given by the design formulas of BiquadModel (their response: C109-C114); refuted part: no fade-in"
  },
  {
   "property": "C221",
   "status": "partial",
   "theorems": [
    "C221_every_eighth_block",
    "C221_return_level_refuted"
   ],
   "note": "refuted part: ReturnLevel"
  },
  {
   "property": "C222",
   "status": "proved",
   "theorems": [
    "C222_suspend_is_fresh",
    "C222_uninitialised_starts_silent"
   ],
   "note": "exact reals"
  },
  {
   "property": "C223",
   "status": "proved",
   "theorems": [
    "C223_sum_of_bands",
    "C223_band_response",
    "C223_tuned_gain",
    "C223_below_tuning"
   ],
   "note": "exact reals"
  },
  {
   "property": "C224",
   "status": "partial",
   "theorems": [
    "C224_old_patch_defaults",
    "C224_placement",
    "C224_too_many_bands",
    "C224_old_patch_panics_refuted"
   ],
   "note": "refuted part: band counts 24 and above, old patches"
  },
  {
   "property": "C225",
   "status": "proved",
   "theorems": [
    "C225_stable_in_range",
    "C225_init_succeeds"
   ],
   "note": "exact reals"
  },
  {
   "property": "C226",
   "status": "proved",
   "theorems": [
    "C226_bounded"
   ],
   "note": "square root abstract, bounded on [0,6]; same tuning in every block"
  },
  {
   "property": "C227",
   "status": "proved",
   "theorems": [
    "C227_modulator",
    "C227_linear_in_carrier",
    "C227_side_chain_polarity"
   ],
   "note": "exact reals"
  },
  {
   "property": "C228",
   "status": "partial",
   "theorems": [
    "C228_every_64th_block",
    "C228_unused_refuted"
   ],
   "note": "refuted part: two ignored parameters"
  },
  {
   "property": "C229",
   "status": "partial",
   "theorems": [
    "C229_silent_side_chain",
    "C229_gate_never_opens_refuted"
   ],
   "note": "refuted part: gate levels above the limiter"
  },
  {
   "property": "C230",
   "status": "partial",
   "theorems": [
    "C230_suspend_clears_nothing_refuted",
    "C230_suspend_is_nothing_refuted"
   ],
   "note": "refuted: nothing is cleared"
  },
  {
   "property": "C231",
   "status": "proved",
   "theorems": [
    "C231_wiring",
    "C231_debug_build"
   ],
   "note": "exact reals; filters arbitrary functions"
  },
  {
   "property": "C232",
   "status": "proved",
   "theorems": [
    "C232_boundfreq",
    "C232_big_mul",
    "C232_amp_to_linear",
    "C232_bend"
   ],
   "note": "exact reals, 32-bit integers"
  },
  {
   "property": "C233",
   "status": "proved",
   "theorems": [
    "C233_settings_in_range",
    "C233_speed_and_leak"
   ],
   "note": "exact reals; smoothers from LagModel.v"
  },
  {
   "property": "C234",
   "status": "proved",
   "theorems": [
    "C234_level_is_the_wave",
    "C234_cycle_start_resets_level",
    "C234_level_bounded",
    "C234_start_phase"
   ],
   "note": "exact reals, 1/t for the approximate reciprocal; no FM path"
  },
  {
   "property": "C235",
   "status": "proved",
   "theorems": [
    "C235_periodic",
    "C235_cycle_length"
   ],
   "note": "exact reals, constant settings"
  },
  {
   "property": "C236",
   "status": "partial",
   "theorems": [
    "C236_plays_its_note_refuted",
    "C236_absolute_plays_its_note",
    "C236_pitch_cap",
    "C236_sync_cap",
    "C236_unison_spread"
   ],
   "note": "relative spread refuted (factor 1024), absolute spread proved"
  },
  {
   "property": "C237",
   "status": "partial",
   "theorems": [
    "C237_mean_level_refuted",
    "C237_no_offset_iff",
    "C237_shapes"
   ],
   "note": "refuted with the exact mean"
  },
  {
   "property": "C238",
   "status": "partial",
   "theorems": [
    "C238_block_ends_partial",
    "C238_never_ends_refuted",
    "C238_sync_40_hangs_refuted"
   ],
   "note": "partial: needs a positive period; refuted for absolute spread"
  },
  {
   "property": "C239",
   "status": "partial",
   "theorems": [
    "C239_hard_sync",
    "C239_master_period_refuted"
   ],
   "note": "exact reals; master period refuted"
  },
  {
   "property": "C240",
   "status": "proved",
   "theorems": [
    "C240_every_impulse_heard_once",
    "C240_impulse_place",
    "C240_voice_lays_its_impulses"
   ],
   "note": "exact reals; alignment taken for granted"
  },
  {
   "property": "C241",
   "status": "partial",
   "theorems": [
    "C241_block_completes_partial"
   ],
   "note": "partial: positive periods"
  },
  {
   "property": "C242",
   "status": "proved",
   "theorems": [
    "C242_output_bounded",
    "C242_output_decays",
    "C242_channels",
    "C242_leak_per_cycle",
    "C242_leak_cap",
    "C242_mirror",
    "C242_pan_mirror",
    "C242_mono_place",
    "C242_block_mirror",
    "C242_mono_block"
   ],
   "note": "exact reals"
  },
  {
   "property": "C243",
   "status": "proved",
   "theorems": [
    "C243_character_is_a_filter",
    "C243_neutral",
    "C243_bright_undoes_warm",
    "C243_unity_dc",
    "C243_bounded",
    "C243_modes"
   ],
   "note": "exact reals"
  },
  {
   "property": "C244",
   "status": "proved",
   "theorems": [
    "C244_held_level",
    "C244_in_order",
    "C244_correlation",
    "C244_start_phase"
   ],
   "note": "exact reals, 1/x for the approximate reciprocal; draws are arguments; no FM path"
  },
  {
   "property": "C245",
   "status": "proved",
   "theorems": [
    "C245_two_levels_a_period",
    "C245_lengths"
   ],
   "note": "exact reals, constant settings"
  },
  {
   "property": "C246",
   "status": "partial",
   "theorems": [
    "C246_first_level_is_lost_refuted",
    "C246_steady_after_first_block"
   ],
   "note": "refuted for the first block of a note, proved for the later ones"
  },
  {
   "property": "C247",
   "status": "proved",
   "theorems": [
    "C247_hard_sync",
    "C247_restart"
   ],
   "note": "exact reals"
  },
  {
   "property": "C248",
   "status": "proved",
   "theorems": [
    "C248_block_ends"
   ],
   "note": "every list of draws that is long enough"
  },
  {
   "property": "C249",
   "status": "partial",
   "theorems": [
    "C249_impulse",
    "C249_shape_is_garbage_refuted",
    "C249_first_lanes",
    "C249_impulse_place"
   ],
   "note": "refuted; the lanes behind the copied entry are an arbitrary function"
  },
  {
   "property": "C250",
   "status": "partial",
   "theorems": [
    "C250_drift_forgets_refuted",
    "C250_drift_is_tiny",
    "C250_drift_formula"
   ],
   "note": "refuted with the exact value"
  },
  {
   "property": "C251",
   "status": "partial",
   "theorems": [
    "C251_no_unison_refuted",
    "C251_single_voice",
    "C251_count",
    "C251_spread"
   ],
   "note": "refuted"
  },
  {
   "property": "C252",
   "status": "proved",
   "theorems": [
    "C252_settings_in_range",
    "C252_periods",
    "C252_relative_period"
   ],
   "note": "smoothers from LagModel.v"
  },
  {
   "property": "C253",
   "status": "partial",
   "theorems": [
    "C253_bounded",
    "C253_leaks",
    "C253_gain_below_one",
    "C253_fm_panics_refuted",
    "C253_leak_per_cycle"
   ],
   "note": "exact reals"
  },
  {
   "property": "C254",
   "status": "proved",
   "theorems": [
    "C254_design",
    "C254_centre",
    "C254_allpass",
    "C254_coefficients",
    "C254_makeup",
    "C254_resonance"
   ],
   "note": "exact reals; sample rates of at least 16.7 Hz"
  },
  {
   "property": "C255",
   "status": "proved",
   "theorems": [
    "C255_signal_path",
    "C255_exists",
    "C255_no_panic",
    "C255_saturators",
    "C255_saturator_of_subtype",
    "C255_glide"
   ],
   "note": "exact reals, one SIMD lane"
  },
  {
   "property": "C256",
   "status": "proved",
   "theorems": [
    "C256_bounded"
   ],
   "note": "exact reals"
  },
  {
   "property": "C257",
   "status": "partial",
   "theorems": [
    "C257_sine_bounded_refuted"
   ],
   "note": "refuted: described for all such coefficients"
  },
  {
   "property": "C258",
   "status": "partial",
   "theorems": [
    "C258_ojd_no_feedback_refuted",
    "C258_ojd_silence_refuted"
   ],
   "note": "refuted: described for all coefficients"
  },
  {
   "property": "C259",
   "status": "proved",
   "theorems": [
    "C259_polarity",
    "C259_silence"
   ],
   "note": "exact reals"
  },
  {
   "property": "C260",
   "status": "partial",
   "theorems": [
    "C260_states_filter_refuted",
    "C260_states_drain",
    "C260_states_panic"
   ],
   "note": "refuted: described for all signals; the panic is characterised"
  },
  {
   "property": "C261",
   "status": "proved",
   "theorems": [
    "C261_saturation",
    "C261_coefficients",
    "C261_glide",
    "C261_cascade",
    "C261_equilibrium"
   ],
   "note": "exact reals"
  },
  {
   "property": "C262",
   "status": "proved",
   "theorems": [
    "C262_bounded",
    "C262_polarity",
    "C262_silence",
    "C262_output"
   ],
   "note": "exact reals, one SIMD lane"
  },
  {
   "property": "C263",
   "status": "partial",
   "theorems": [
    "C263_fourth_order_refuted"
   ],
   "note": "refuted: described for every step size"
  },
  {
   "property": "C264",
   "status": "proved",
   "theorems": [
    "C264_coefficients",
    "C264_glide",
    "C264_pass",
    "C264_cleared",
    "C264_output",
    "C264_tuning"
   ],
   "note": "exact reals; sample rates of at least 16.7 Hz"
  },
  {
   "property": "C265",
   "status": "proved",
   "theorems": [
    "C265_bounded",
    "C265_no_overshoot"
   ],
   "note": "exact reals"
  },
  {
   "property": "C266",
   "status": "proved",
   "theorems": [
    "C266_polarity",
    "C266_silence"
   ],
   "note": "exact reals"
  },
  {
   "property": "C267",
   "status": "proved",
   "theorems": [
    "C267_lattice",
    "C267_coupled"
   ],
   "note": "exact reals, one SIMD lane; the f32 rounding of the coefficients is not modelled"
  },
  {
   "property": "C268",
   "status": "partial",
   "theorems": [
    "C268_cookbook_centre",
    "C268_cutoff_refuted"
   ],
   "note": "refuted: described for all frequencies"
  },
  {
   "property": "C269",
   "status": "partial",
   "theorems": [
    "C269_stable_below",
    "C269_stability_refuted"
   ],
   "note": "refuted above a quarter of the rate"
  },
  {
   "property": "C270",
   "status": "partial",
   "theorems": [
    "C270_passive",
    "C270_clipped_passive",
    "C270_glide_passive_refuted",
    "C270_coupled_bounded"
   ],
   "note": "exact reals; the reciprocal square root is any function into [0, 1]"
  },
  {
   "property": "C271",
   "status": "proved",
   "theorems": [
    "C271_resonance"
   ],
   "note": "exact reals"
  },
  {
   "property": "C272",
   "status": "partial",
   "theorems": [
    "C272_bandpass_refuted"
   ],
   "note": "refuted: described exactly"
  },
  {
   "property": "C273",
   "status": "partial",
   "theorems": [
    "C273_dispatch_refuted",
    "C273_first_sample_refuted",
    "C273_first_sample_lattice_refuted",
    "C273_limiter",
    "C273_clip"
   ],
   "note": "refuted parts described exactly"
  },
  {
   "property": "C274",
   "status": "proved",
   "theorems": [
    "C274_polarity",
    "C274_silence"
   ],
   "note": "exact reals"
  },
  {
   "property": "C275",
   "status": "proved",
   "theorems": [
    "C275_exact",
    "C275_unique"
   ],
   "note": "exact reals, one SIMD lane"
  },
  {
   "property": "C276",
   "status": "proved",
   "theorems": [
    "C276_balance",
    "C276_passive"
   ],
   "note": "fixed coefficients"
  },
  {
   "property": "C277",
   "status": "proved",
   "theorems": [
    "C277_push",
    "C277_no_push"
   ],
   "note": ""
  },
  {
   "property": "C278",
   "status": "proved",
   "theorems": [
    "C278_modes",
    "C278_constant"
   ],
   "note": ""
  },
  {
   "property": "C279",
   "status": "partial",
   "theorems": [
    "C279_chain",
    "C279_tuning_glide_refuted"
   ],
   "note": "refuted while gliding: concrete case"
  },
  {
   "property": "C280",
   "status": "partial",
   "theorems": [
    "C280_poles",
    "C280_24dB_is_a_sum_refuted"
   ],
   "note": "refuted for subtype 3, described for all stage outputs"
  },
  {
   "property": "C281",
   "status": "proved",
   "theorems": [
    "C281_no_overshoot",
    "C281_tuning_range",
    "C281_polarity",
    "C281_silence",
    "C281_inactive"
   ],
   "note": "no bound is claimed with resonance"
  },
  {
   "property": "C282",
   "status": "partial",
   "theorems": [
    "C282_voice_filter_panics_refuted"
   ],
   "note": "process_quad is todo!()"
  },
  {
   "property": "C283",
   "status": "partial",
   "theorems": [
    "C283_gains",
    "C283_tuning",
    "C283_feedback_gain_refuted"
   ],
   "note": "exact reals"
  },
  {
   "property": "C284",
   "status": "partial",
   "theorems": [
    "C284_meant_loop",
    "C284_loop_refuted"
   ],
   "note": "refuted for all tunings and positive resonances; the reciprocal is taken to be exact"
  },
  {
   "property": "C285",
   "status": "proved",
   "theorems": [
    "C285_superposition",
    "C285_silence"
   ],
   "note": "any reciprocal"
  },
  {
   "property": "C286",
   "status": "partial",
   "theorems": [
    "C286_click_explodes_refuted"
   ],
   "note": "refuted; exact reciprocal"
  },
  {
   "property": "C287",
   "status": "proved",
   "theorems": [
    "C287_coefficients",
    "C287_tuning",
    "C287_usable"
   ],
   "note": "exact reals"
  },
  {
   "property": "C288",
   "status": "proved",
   "theorems": [
    "C288_stage",
    "C288_lowpass",
    "C288_highpass"
   ],
   "note": "lowpass.rs and highpass.rs are not compiled into the crate; saturation 0"
  },
  {
   "property": "C289",
   "status": "proved",
   "theorems": [
    "C289_lowpass",
    "C289_highpass",
    "C289_silence"
   ],
   "note": "saturation 0, fixed coefficients"
  },
  {
   "property": "C290",
   "status": "proved",
   "theorems": [
    "C290_lowpass",
    "C290_highpass"
   ],
   "note": "saturation 0"
  },
  {
   "property": "C291",
   "status": "proved",
   "theorems": [
    "C291_lowpass",
    "C291_highpass"
   ],
   "note": ""
  },
  {
   "property": "C292",
   "status": "partial",
   "theorems": [
    "C292_filter_runs_refuted"
   ],
   "note": "process_quad is todo!()"
  },
  {
   "property": "C293",
   "status": "partial",
   "theorems": [
    "C293_creation_refuted",
    "C293_integer_count",
    "C293_single_frame_start_refuted",
    "C293_voice_start"
   ],
   "note": ""
  },
  {
   "property": "C294",
   "status": "partial",
   "theorems": [
    "C294_frame_bound",
    "C294_start_at_rest",
    "C294_glide",
    "C294_start",
    "C294_update",
    "C294_follows_the_knob_refuted",
    "C294_level",
    "C294_single_frame_refuted",
    "C294_move_down_at_block_start_refuted"
   ],
   "note": "f32 casts taken in range, tables not flagged as samples"
  },
  {
   "property": "C295",
   "status": "partial",
   "theorems": [
    "C295_settings",
    "C295_only_the_sign_refuted",
    "C295_distortion",
    "C295_odd",
    "C295_skew_increasing"
   ],
   "note": "exact reals"
  },
  {
   "property": "C296",
   "status": "partial",
   "theorems": [
    "C296_level",
    "C296_one_level_refuted"
   ],
   "note": "exact reals"
  },
  {
   "property": "C297",
   "status": "proved",
   "theorems": [
    "C297_impulses",
    "C297_block_boundary",
    "C297_over_blocks"
   ],
   "note": "finished loops; no FM"
  },
  {
   "property": "C298",
   "status": "partial",
   "theorems": [
    "C298_panning_refuted",
    "C298_hard_right_is_silent_refuted",
    "C298_mono"
   ],
   "note": ""
  },
  {
   "property": "C299",
   "status": "partial",
   "theorems": [
    "C299_cycle",
    "C299_forward",
    "C299_impulse",
    "C299_plays_its_note_refuted"
   ],
   "note": "settings constant during the cycle; tempt an argument"
  },
  {
   "property": "C300",
   "status": "partial",
   "theorems": [
    "C300_unison_refuted"
   ],
   "note": ""
  },
  {
   "property": "C301",
   "status": "partial",
   "theorems": [
    "C301_frame",
    "C301_increasing",
    "C301_windows_refuted",
    "C301_windows",
    "C301_longer_wave_table_refuted"
   ],
   "note": "exact reals"
  },
  {
   "property": "C302",
   "status": "partial",
   "theorems": [
    "C302_mipmap_follows_pitch_refuted",
    "C302_powers_of_two"
   ],
   "note": ""
  },
  {
   "property": "C303",
   "status": "partial",
   "theorems": [
    "C303_largest_table_refuted",
    "C303_step",
    "C303_phase",
    "C303_unison_of_wave_and_window",
    "C303_start",
    "C303_start_silent",
    "C303_cell",
    "C303_wave_position"
   ],
   "note": "no FM"
  },
  {
   "property": "C304",
   "status": "proved",
   "theorems": [
    "C304_frequency",
    "C304_formant",
    "C304_no_formant"
   ],
   "note": "exact reals, cast in range"
  },
  {
   "property": "C305",
   "status": "partial",
   "theorems": [
    "C305_reads_the_table_refuted",
    "C305_conversion_refuted"
   ],
   "note": "sinc products not modelled"
  }
 ]
}