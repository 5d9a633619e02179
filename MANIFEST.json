{
 "claims": [
  {
   "property": "C01",
   "status": "proved",
   "theorems": [
    "C01_writer_is_append_log",
    "C01_earlier_bits_are_kept",
    "C01_failed_call_changes_nothing"
   ],
   "note": "Writer refines \"append these bits\" for every sequence of calls; concrete model of both fast and slow paths."
  },
  {
   "property": "C02",
   "status": "proved",
   "theorems": [
    "C02_reader_is_a_cursor",
    "C02_capacity_is_irrelevant"
   ],
   "note": "Reader of any capacity >= 1 refines a cursor, for every adaptive program of calls; no abort, no divergence."
  },
  {
   "property": "C03",
   "status": "proved",
   "theorems": [
    "C03_literal_reads_are_exact"
   ],
   "note": "Exact error condition and exact position movement at every reachable state."
  },
  {
   "property": "C04",
   "status": "partial",
   "theorems": [
    "C04_zero_capacity_refuted",
    "C04_positive_capacity_terminates_partial"
   ],
   "note": "False of the code as written (finding F1): C04_zero_capacity_refuted proves non-termination for capacity 0; the _partial theorem is the strongest true variant (capacity >= 1)."
  },
  {
   "property": "C05",
   "status": "proved",
   "theorems": [
    "C05_stream_refines_spec",
    "C05_reads_are_a_prefix_of_pushes",
    "C05_flush_keeps_available_bytes",
    "C05_failed_read_can_be_retried"
   ],
   "note": "Every history of push/flush/read refines one growing string; corollaries for prefix, flush, retry."
  },
  {
   "property": "C06",
   "status": "partial",
   "theorems": [
    "C06_fresh_seek_refuted",
    "C06_stale_position_refuted",
    "C06_seek_refused_after_flush_partial"
   ],
   "note": "False as stated (findings F2, F8), both refuted with witnesses; the _partial theorem proves refusal until the next Tell or read."
  },
  {
   "property": "C07",
   "status": "proved",
   "theorems": [
    "C07_minimum_mode_is_shortest",
    "C07_fixed_mode",
    "C07_factory_accepts_exactly_1_to_8",
    "C07_round_trip"
   ],
   "note": "Minimality, fixed size, and end-to-end round trip at any alignment and capacity."
  },
  {
   "property": "C08",
   "status": "proved",
   "theorems": [
    "C08_accepts_exactly_legal_encodings",
    "C08_error_kinds"
   ],
   "note": "Exact acceptance set and error kinds at any position of any source."
  },
  {
   "property": "C09",
   "status": "proved",
   "theorems": [
    "C09_sleb_value",
    "C09_fixed_mode",
    "C09_minimum_mode"
   ],
   "note": "Value, fixed-size and minimal-size characterisations."
  },
  {
   "property": "C10",
   "status": "proved",
   "theorems": [
    "C10_iso_round_trip"
   ],
   "note": "Round trip and rejection above the maximum."
  },
  {
   "property": "C11",
   "status": "proved",
   "theorems": [
    "C11_accepts_exactly",
    "C11_round_trip",
    "C11_no_terminator_is_rejected"
   ],
   "note": "Exact acceptance set, round trip, rejection of unterminated strings."
  },
  {
   "property": "C12",
   "status": "proved",
   "theorems": [
    "C12_signed16",
    "C12_signed8",
    "C12_signed9"
   ],
   "note": "Round trip for all values in range and exact refusal for 9 bits."
  },
  {
   "property": "C13",
   "status": "proved",
   "theorems": [
    "C13_header_round_trip",
    "C13_nothing_lost"
   ],
   "note": "End-to-end at any alignment, capacity and LEB generator; trims are only lost when the flag is off (C13_nothing_lost)."
  },
  {
   "property": "C14",
   "status": "proved",
   "theorems": [
    "C14_obu_size_exact"
   ],
   "note": "For every payload writer, header and footer."
  },
  {
   "property": "C15",
   "status": "partial",
   "theorems": [
    "C15_peek_consumes_nothing",
    "C15_peek_outcomes",
    "C15_peek_of_written_obu",
    "C15_total_size_refuted"
   ],
   "note": "Last clause is false (finding F4): C15_total_size_refuted; all other clauses proved, including all outcomes on arbitrary data modulo 2^32."
  },
  {
   "property": "C16",
   "status": "partial",
   "theorems": [
    "C16_accepted_headers_fit_partial",
    "C16_huge_extension_refuted"
   ],
   "note": "False as stated (finding F3): refuted for every continuation of the stream; the _partial theorem covers extensions below 2^32-24 bytes."
  },
  {
   "property": "C17",
   "status": "proved",
   "theorems": [
    "C17_payload_framing",
    "C17_obu_round_trip_with_footer"
   ],
   "note": "For every payload parser at every reachable reader state; writer/reader round trip with footer for every rt-related pair."
  },
  {
   "property": "C18",
   "status": "proved",
   "theorems": [
    "C18_sequence_header_round_trip",
    "C18_writer_accepts_exactly",
    "C18_reader_accepts_exactly"
   ],
   "note": "Round trip, exact writer acceptance, exact reader acceptance on arbitrary bytes."
  },
  {
   "property": "C19",
   "status": "proved",
   "theorems": [
    "C19_type_of_id",
    "C19_audio_frame_round_trip"
   ],
   "note": "All IDs and frames; a footer is part of the frame bytes when read back (stated in the theorem)."
  },
  {
   "property": "C20",
   "status": "proved",
   "theorems": [
    "C20_temporal_delimiter_round_trip",
    "C20_metadata_round_trip",
    "C20_metadata_equal"
   ],
   "note": "Temporal delimiter and metadata; C20_metadata_equal says exactly when nothing changes (finding F9: country-code extension byte not written unless 0xFF)."
  },
  {
   "property": "C21",
   "status": "partial",
   "theorems": [
    "C21_writer_accepts_exactly",
    "C21_reader_accepts_only_legal",
    "C21_reported_rates",
    "C21_codec_config_round_trip_partial",
    "C21_129_flac_blocks_refuted",
    "C21_required_roll",
    "C21_reader_only_accepts_valid"
   ],
   "note": "Round trip proved for every codec config except FLAC configs with more than 128 metadata blocks, which are refuted (finding F10: the writer accepts them, the reader refuses). Also: reader acceptance on arbitrary bytes implies valid frame size, required roll distance, positive rate, known bit depth."
  },
  {
   "property": "C22",
   "status": "proved",
   "theorems": [
    "C22_constant",
    "C22_variable",
    "C22_made_partitions",
    "C22_read"
   ],
   "note": "Every schedule the two factories or the reader produce partitions its duration; exact refusal conditions. C22_variable needs fewer than 2^32 listed durations (the list size is cast to uint32 before the range check)."
  },
  {
   "property": "C23",
   "status": "partial",
   "theorems": [
    "C23_writer_only_accepts_valid",
    "C23_reader_only_accepts_definition_valid_partial",
    "C23_param_definition_round_trip",
    "C23_reader_accepts_valid_partial",
    "C23_mode1_not_validated_refuted"
   ],
   "note": "Round trip proved for every parameter definition class. The acceptance clause is false when the schedule is in the parameter blocks (finding F5: Validate() skipped): C23_mode1_not_validated_refuted; C23_reader_accepts_valid_partial is the mode-0 half."
  },
  {
   "property": "C24",
   "status": "proved",
   "theorems": [
    "C24_written_modes",
    "C24_read_modes",
    "C24_parameter_block_round_trip",
    "C24_nothing_lost",
    "C24_reader_only_accepts_consistent",
    "C24_peek_agrees"
   ],
   "note": "Round trip for blocks that fit their definition (one non-null subblock per scheduled subblock, finding F11); unset recon gains read back as 0 (stored_block); accepted blocks agree with the schedule on arbitrary bytes; peek agrees with the full read."
  },
  {
   "property": "C34",
   "status": "partial",
   "theorems": [
    "C34_audio_element_round_trip_partial",
    "C34_nothing_lost",
    "C34_extension_config_lost_refuted",
    "C34_257_layers_refuted",
    "C34_257_ambisonics_channels_refuted",
    "C34_reader_only_accepts_valid"
   ],
   "note": "Round trip for every audio element except extension elements (uncoded fields read back as defaults, see stored_aelem) and reader acceptance on arbitrary bytes implies validity. Refuted clauses: finding F12 (extension config bytes are lost, for every extension element), F14/F15 (256 or more channels/layers pass validation truncated to uint8)."
  },
  {
   "property": "C35",
   "status": "partial",
   "theorems": [
    "C35_mix_presentation_round_trip_partial",
    "C35_nothing_lost_partial",
    "C35_257_labels_refuted",
    "C35_29_submixes_refuted",
    "C35_footer_read_as_tags_refuted",
    "C35_reader_only_accepts_valid",
    "C35_missing_stereo_layout"
   ],
   "note": "Round trip of every accepted Mix Presentation OBU with at most 256 labels, at most 28 sub-mixes and (if it has no tags) no footer; the reader only accepts valid ones, whatever the bytes. Missing because false of the code (C35_*_refuted): the writer also accepts more labels / sub-mixes than the reader does, and a footer without tags is taken for tags."
  },
  {
   "property": "C37",
   "status": "proved",
   "theorems": [
    "C37_writer_flags",
    "C37_reader_flags"
   ],
   "note": "Writer: exactly the legal flag combinations (given a size that fits); reader: only legal combinations on arbitrary bytes (legal ones are read back: C13)."
  },
  {
   "property": "C25",
   "status": "partial",
   "theorems": [
    "C25_tick_gains_partial",
    "C25_other_types_refused",
    "C25_every_tick_covered",
    "C25_two_to_31_ticks_refuted",
    "C25_long_curve_refuted"
   ],
   "note": "Proved for every block with fewer than 2^31 ticks; false beyond (finding F20: times are narrowed to int), refuted with a witness."
  },
  {
   "property": "C26",
   "status": "proved",
   "theorems": [
    "C26_created_exactly",
    "C26_audio_contiguous",
    "C26_params_contiguous",
    "C26_global_timestamp"
   ],
   "note": "Every history of calls (timestamps below 2^63). A refused parameter-block call still advances that parameter's time, as stated in the specification functions."
  },
  {
   "property": "C27",
   "status": "partial",
   "theorems": [
    "C27_weight_recursion_partial",
    "C27_no_block_partial",
    "C27_update_partial",
    "C27_weight_in_range",
    "C27_no_definition",
    "C27_creation",
    "C27_shared_parameter_id_refuted"
   ],
   "note": "Proved for every history in which the element's demixing parameter ID is its own; refuted for an ID shared by two audio elements (finding F19)."
  },
  {
   "property": "C38",
   "status": "proved",
   "theorems": [
    "C38_bezier_defined",
    "C38_bezier",
    "C38_bezier_start_end",
    "C38_linear",
    "C38_block_gains"
   ],
   "note": "Exact real arithmetic (float rounding not modelled); uses the axioms of Coq's Reals."
  },
  {
   "property": "C39",
   "status": "partial",
   "theorems": [
    "C39_recon_gains_partial",
    "C39_recon_defaults_partial",
    "C39_recon_no_definition",
    "C39_update_partial",
    "C39_shared_parameter_id_refuted"
   ],
   "note": "Proved for every history in which the element's recon gain parameter ID is its own; refuted for an ID shared by two audio elements (finding F19)."
  },
  {
   "property": "C28",
   "status": "partial",
   "theorems": [
    "C28_accepts_exactly_partial",
    "C28_refusals",
    "C28_trims_add_up_partial",
    "C28_trim_wrap_refuted",
    "C28_order_partial",
    "C28_order_refuted"
   ],
   "note": "Exact acceptance condition, sortedness, same items, order independence (when all frames have the same samples per frame) and trims adding up (when the cumulative trim stays below 2^32) are proved for every list of OBUs; the two unrestricted clauses are false of the code and refuted with witnesses (findings F6, F21)."
  },
  {
   "property": "C29",
   "status": "proved",
   "theorems": [
    "C29_incomplete_obu_waits",
    "C29_obu_is_processed_alone",
    "C29_chunks_do_not_matter",
    "C29_stream_of_obus",
    "C29_small_chunks_are_accepted"
   ],
   "note": "The driver is the loop obu_processor.h suggests (push a chunk, ProcessTemporalUnit until continue_processing is false, Flush), over the concrete stream buffer. Chunks are only refused by the 4 MiB buffer limit; chunks below 2 MiB never are for a sequence of OBUs. The same at the level of the decoder API is C31."
  },
  {
   "property": "C30",
   "status": "proved",
   "theorems": [
    "C30_reserved_obus_are_skipped",
    "C30_redundant_descriptors_are_skipped",
    "C30_broken_payloads_are_skipped"
   ],
   "note": "State and position are those before and after the OBU. A reserved OBU whose header is malformed is still an error; a parameter block which parses but arrives at the wrong time does change the timing state (C43)."
  },
  {
   "property": "C40",
   "status": "proved",
   "theorems": [
    "C40_units_partition_the_stream",
    "C40_no_needless_split"
   ],
   "note": "Over the session driver of C29."
  },
  {
   "property": "C41",
   "status": "proved",
   "theorems": [
    "C41_processing_never_crashes"
   ],
   "note": "Over the session driver of C29, for every state reachable by a session; descriptor parsing is not included."
  },
  {
   "property": "C42",
   "status": "partial",
   "theorems": [
    "C42_signalled_parameters_refuted",
    "C42_blocks_are_never_applied"
   ],
   "note": "False of the code (finding F23: the decoder never hands parameter blocks to the parameters manager); refuted with a witness. Proved instead for every stream: each decoded frame carries the defaults of the definition."
  },
  {
   "property": "C43",
   "status": "partial",
   "theorems": [
    "C43_audio_survives_lost_blocks_partial",
    "C43_lost_block_refuted",
    "C43_block_times"
   ],
   "note": "False of the code for the other parameter blocks (finding F25), refuted with a witness; the audio part is proved for every stream and every loss pattern. C43_block_times: when the time of a parameter ID advances, also for blocks which are refused."
  },
  {
   "property": "C33",
   "status": "proved",
   "theorems": [
    "C33_frame_is_written",
    "C33_any_frame_is_safe",
    "C33_samples_are_saturated"
   ],
   "note": "WriteFrameToSpan with IEEE doubles (Flocq); every frame whose channels have equally many samples is written, any other is refused without writing past the span. A NaN or infinite sample is an error and leaves the span partly written."
  },
  {
   "property": "C36",
   "status": "proved",
   "theorems": [
    "C36_sample_round_trip",
    "C36_bytes_round_trip",
    "C36_other_widths_are_refused"
   ],
   "note": ""
  },
  {
   "property": "C44",
   "status": "proved",
   "theorems": [
    "C44_lpcm_round_trip",
    "C44_lpcm_passes_through",
    "C44_wrong_sizes_are_refused"
   ],
   "note": "Encoder::EncodeAudioFrame is modelled for frames whose channels have equally many samples; for ragged frames the code reads out of bounds (finding F28)."
  },
  {
   "property": "C45",
   "status": "partial",
   "theorems": [
    "C45_q7_8_round_trip",
    "C45_q7_8_in_range_partial",
    "C45_q7_8_is_floored_refuted",
    "C45_q0_8_in_range",
    "C45_q0_8_round_trip"
   ],
   "note": "The documented flooring of Q7.8 is false for negative values (finding F27), refuted with a witness; everything else is proved, with truncation towards zero."
  },
  {
   "property": "C46",
   "status": "partial",
   "theorems": [
    "C46_channel_labels",
    "C46_channel_accepted",
    "C46_mono_labels",
    "C46_projection_labels",
    "C46_expanded_labels",
    "C46_no_crash",
    "C46_expanded_then_more_refuted"
   ],
   "note": "Everything is proved except that an expanded layout in the first of several layers is accepted although documented as single-layer only, and two substreams may then carry the same channels (finding F29, refuted with a witness); the theorems exclude that case."
  },
  {
   "property": "C47",
   "status": "partial",
   "theorems": [
    "C47_android_order",
    "C47_nothing_lost",
    "C47_identity",
    "C47_7154_refuted"
   ],
   "note": "Proved for sound systems 0-13; 7.1.5.4 (14) is not put into mask order, refuted with a witness (F30). The IAMF channel order of each sound system and the mask order are part of the specification (tables in PropsReorder.v)."
  },
  {
   "property": "C48",
   "status": "partial",
   "theorems": [
    "C48_never_crashes_partial",
    "C48_never_crashes_from_descriptors_partial",
    "C48_whole_decoder_partial",
    "C48_whole_decoder_from_descriptors_partial",
    "C48_unit_without_audio_refuted"
   ],
   "note": "For every history of calls, also after failed ones, from Create or CreateFromDescriptors: no call crashes, and the getters answer; C48_never_crashes_partial. Not covered: histories in which a reset reported an error (F22: refuted in C32) and channel reordering of sound systems F-J, 10 (F31: refuted by a witness). There the creation of the processor from descriptors and rendering are an abstract environment which is asked to be sane; C48_whole_decoder_partial and C48_whole_decoder_from_descriptors_partial discharge this for the model of the descriptor parser, initialisation and mix selection, leaving only the renderers abstract (they must answer with a status)."
  },
  {
   "property": "C31",
   "status": "partial",
   "theorems": [
    "C31_delivered_once_partial",
    "C31_small_buffer_refuted",
    "C31_unit_in_failed_call_refuted",
    "C31_units_of_the_stream",
    "C31_bytes_of_the_stream_partial",
    "C31_histories_agree_partial",
    "C31_fresh_after_descriptors",
    "C31_empty_unit_refuted"
   ],
   "note": "End to end: for every chunking and every interleaving of calls with large enough buffers, the bytes obtained are those of the units of the stream, each once and in order (C31_bytes_of_the_stream_partial, C31_histories_agree_partial); refuted parts: a too small buffer loses a unit (F7); a unit handed out by a call which then reports a decoding error is lost to a caller who ignores the bytes of failed calls; a unit without audio frames (F24). Creation of the renderer and rendering are abstract (env); parsing and grouping are the concrete model of C29. The descriptor phase is in C51."
  },
  {
   "property": "C32",
   "status": "partial",
   "theorems": [
    "C32_decode_refused_after_end",
    "C32_reset_refused_standalone",
    "C32_reset_restores",
    "C32_reset_is_recreation",
    "C32_reset_with_new_mix",
    "C32_getters_before",
    "C32_getters_stable",
    "C32_no_processor",
    "C32_layout_reported",
    "C32_reset_drops_trailing_bytes_refuted",
    "C32_failed_reset_refuted"
   ],
   "note": "Life cycle over all histories. Refuted parts: bytes after the descriptors given to CreateFromDescriptors are decoded but not after a Reset; a failed Reset leaves the decoder with a destroyed read buffer (F22)."
  },
  {
   "property": "C49",
   "status": "proved",
   "theorems": [
    "C49_profiles_exact",
    "C49_supported_exact"
   ],
   "note": "C49_profiles_exact (the resulting set is the candidates that satisfy the separate specification `supports`; success iff non-empty) and C49_supported_exact (the list of supported mixes). Hypotheses: codec configs are looked up by ID (coherent_generated shows this for elements the decoder prepares), and counts fit in an int. C49_objects_are_free shows that object-based elements do not count against the channel limit."
  },
  {
   "property": "C50",
   "status": "proved",
   "theorems": [
    "C50_selection",
    "C50_nothing_supported",
    "C50_parsed_renderable"
   ],
   "note": "C50_selection (all conclusions as the record `selects`, with the inductive preference relation `chosen`), C50_nothing_supported, C50_parsed_renderable (the hypothesis `renderable` holds for what the readers accept and profile filtering lets through). C50_reserved_bits: layouts are compared with their reserved bits."
  },
  {
   "property": "C51",
   "status": "partial",
   "theorems": [
    "C51_any_chunks",
    "C51_stream_from_the_start_partial",
    "C51_histories_agree_partial",
    "C51_extension_refuted"
   ],
   "note": "C51_any_chunks: the outcome of the descriptor phase and the resulting decoder, for any two cuttings. C51_stream_from_the_start_partial / C51_histories_agree_partial: the PCM from the first byte to the last. Excluded by the hypothesis mixes_known: mix presentations with an opaque rendering config extension, for which the claim is false (C51_extension_refuted, F36). Hypotheses about all calls succeeding and dense units as in C31. configure and render are arbitrary functions."
  },
  {
   "property": "C52",
   "status": "proved",
   "theorems": [
    "C52_parser_sound",
    "C52_exact_then_stream",
    "C52_stream_then_exact",
    "C52_from_found_descriptors",
    "C52_from_given_descriptors"
   ],
   "note": "C52_parser_sound, C52_exact_then_stream, C52_stream_then_exact, C52_from_found_descriptors, C52_from_given_descriptors. The latter four assume mixes_known (F36, see C51_extension_refuted). `same_start` lists what is compared."
  },
  {
   "property": "C53",
   "status": "proved",
   "theorems": [
    "C53_accepted_exactly",
    "C53_initial_state",
    "C53_order_does_not_matter"
   ],
   "note": "C53_accepted_exactly (both directions, against the record `acceptable`), C53_initial_state, C53_order_does_not_matter. `consistent` holds for everything the parser returns (C52_parser_sound)."
  },
  {
   "property": "C54",
   "status": "proved",
   "theorems": [
    "C54_protocol",
    "C54_after_the_end",
    "C54_session",
    "C54_orderly",
    "C54_accepts",
    "C54_file",
    "C54_streaming",
    "C54_streaming_closed",
    "C54_file_left",
    "C54_session_delayed_false",
    "C54_protocol_refused_false"
   ],
   "note": "proved for the two concrete sequencers (which do not delay descriptors) and, when descriptors are delayed until the first untrimmed sample, as long as one sample is kept and the concrete class does not refuse descriptors; refuted otherwise: C54_session_delayed_false (units lost, F39), C54_protocol_refused_false (units without descriptors, F40)"
  },
  {
   "property": "C55",
   "status": "proved",
   "theorems": [
    "C55_descriptors_read_back",
    "C55_followed_by_units",
    "C55_followed_by_sequence",
    "C55_repeated",
    "C55_before_descriptors_refused"
   ],
   "note": "C55_descriptors_read_back, C55_followed_by_units, C55_followed_by_sequence, C55_repeated; the arbitrary OBUs hooked before the descriptors are excluded from `encodable` because such a stream cannot be read (C55_before_descriptors_refused, F43)"
  },
  {
   "property": "C56",
   "status": "proved",
   "theorems": [
    "C56_reports",
    "C56_requests",
    "C56_encoded",
    "C56_channels",
    "C56_layout_named_refuted"
   ],
   "note": "C56_channels (the number of channels is that of the layout reported; F47: C56_layout_named_refuted), C56_reports (against the record `reports`, and `unusable` for the failures), C56_requests, C56_encoded (the descriptors an encoder wrote, by C55). The renderer's configuration is an arbitrary function that returns a value or a status."
  },
  {
   "property": "C57",
   "status": "proved",
   "theorems": [
    "C57_ready",
    "C57_units_read_back",
    "C57_small_chunks",
    "C57_reserved_weight_refuted"
   ],
   "note": "C57_ready (the processor made from the descriptors is ready), C57_units_read_back, C57_small_chunks (no chunk below 2 MiB is refused). A frame's footer comes back as part of its samples (C18). C57_reserved_weight_refuted: the condition on default demixing weights is needed (F44)."
  },
  {
   "property": "C58",
   "status": "partial",
   "theorems": [
    "C58_file_read_back",
    "C58_played_partial"
   ],
   "note": "C58_file_read_back is complete. C58_played_partial assumes that the decoder calls succeeded (the renderer is abstract: any answer), that no arbitrary OBU is a temporal delimiter (F24: two in a row stop the decoder), and that unknown mix extension payloads are absent, as C51 does."
  },
  {
   "property": "C59",
   "status": "partial",
   "theorems": [
    "C59_reconstruct",
    "C59_mixdown",
    "C59_modes",
    "C59_parameters",
    "C59_near_zero",
    "C59_total",
    "C59_output_gain_refuted"
   ],
   "note": "C59_reconstruct, C59_mixdown, C59_modes in exact (real) arithmetic: rounding of doubles is not modelled here (the model is generic in the arithmetic; C59_near_zero and C59_total hold for every arithmetic, so for IEEE doubles too). With an output gain the property is false of the decoder even with a lossless codec (C59_output_gain_refuted, F45): the encoder divides by the gain and nothing multiplies by it."
  },
  {
   "property": "C60",
   "status": "proved",
   "theorems": [
    "C60_configured",
    "C60_configured_layout",
    "C60_rendered",
    "C60_ready",
    "C60_exact",
    "C60_gains_follow_trimming_refuted",
    "C60_missing_element_refuted",
    "C60_binaural_projection_trim_refuted",
    "C60_unit"
   ],
   "note": "C60_rendered for every arithmetic, so with the rounding of IEEE doubles in the order stated; C60_exact over the reals; C60_ready. Binaural (OBR) renderers are excluded. Three things one may expect are false and refuted: gains aligned with trimmed samples (F48), silence of missing elements (F49), binaural projection with trimming (F50). C60_unit: the same for a whole temporal unit (decoding, demixing, and the last of several parameter blocks with one ID)."
  },
  {
   "property": "C61",
   "status": "proved",
   "theorems": [
    "C61_layout",
    "C61_settled",
    "C61_unit",
    "C61_history"
   ],
   "note": "C61_layout, C61_unit, C61_settled, C61_history. For units without frames of some element it is false (F49)."
  },
  {
   "property": "C63",
   "status": "partial",
   "theorems": [
    "C63_never_crashes_partial",
    "C63_never_crashes_from_descriptors_partial",
    "C63_compiled_decoder_never_crashes_partial",
    "C63_unit_without_audio_refuted",
    "C63_failed_reset_refuted"
   ],
   "note": "As C48: the histories exclude going on after a failed Reset (F22, refuted in C32), and height layouts are only played in the default channel ordering (order_kept; F31). C63_never_crashes_partial and C63_never_crashes_from_descriptors_partial for every arithmetic and codecs; C63_compiled_decoder_never_crashes_partial for doubles/floats and LPCM, with an example which decodes two frames to the same bytes. The proof shows that the int overflow in Bezier interpolation (F52) cannot be reached from a bitstream."
  },
  {
   "property": "C64",
   "status": "proved",
   "theorems": [
    "C64_samples",
    "C64_bytes"
   ],
   "note": "C64_samples (the doubles) and C64_bytes (the bytes), for the arithmetic as compiled (DoubleEnv.v); the only assumption about the C library is that pow(10, 0 / 20) is 1. The frames of the element in a unit are assumed to have the same trims (the code takes those of the last one)."
  },
  {
   "property": "C65",
   "status": "proved",
   "theorems": [
    "C65_layout",
    "C65_lpcm"
   ],
   "note": "C65_layout for every arithmetic and for all loudspeaker renderers (pass-through, matrix, ambisonics); C65_lpcm for the whole pipeline of the LPCM streams of C64, with doubles as compiled."
  },
  {
   "property": "C62",
   "status": "proved",
   "theorems": [
    "C62_pass_through",
    "C62_matrix",
    "C62_headphones",
    "C62_ambisonics_mono",
    "C62_ambisonics_projection",
    "C62_dynamic",
    "C62_projected",
    "C62_projects"
   ],
   "note": "C62_projected and C62_projects: the projection before binaural rendering, for any arithmetic. The contents of the gain tables themselves (get_gains.cc and the precomputed tables) are a parameter of the model; C62_ambisonics_* and C62_dynamic are about exact (real number) arithmetic."
  },
  {
   "property": "C66",
   "status": "proved",
   "theorems": [
    "C66_answers",
    "C66_counts",
    "C66_index",
    "C66_index_covers",
    "C66_bounds",
    "C66_details",
    "C66_modes",
    "C66_spins",
    "C66_index_size_differs",
    "C66_obus",
    "C66_units"
   ],
   "note": "C66_answers, C66_obus, C66_counts, C66_index, C66_index_covers, C66_bounds, C66_details, C66_modes for all bytes; C66_units for written units; C66_spins and C66_index_size_differs prove that two comments of the code are false; duration_seconds and output_sample_rate are not modelled"
  },
  {
   "property": "C67",
   "status": "proved",
   "theorems": [
    "C67_frames",
    "C67_ends",
    "C67_trimmed",
    "C67_parameters"
   ],
   "note": "C67_frames and C67_trimmed; hypotheses: the session succeeds, the coders of the element's substreams have one delay, and no frames are taken between the last samples of the element and Finalize: C67_late_finalize_refuted, C67_short_block_refuted and C67_nothing_added_refuted show by concrete sessions what goes wrong otherwise; ex_set_up, ex_usual, ex_set_up_mono, ex_usual_mono, ex_frames meet all hypotheses with two elements. C67_ends: the loop over OutputFrames ends. C67_parameters: for all successful histories, the demixing parameters (the weight index is that of C27); mp_ex has two blocks and a frame without. Coders which deliver frames later (FLAC) are not covered."
  },
  {
   "property": "C68",
   "status": "proved",
   "theorems": [
    "C68_units",
    "C68_blocks",
    "C68_arbitrary",
    "C68_end",
    "C68_samples",
    "C68_ends"
   ],
   "note": "C68_units (1, and that the frames are those of a session of the frame generator with the calls asked for), C68_blocks (2), C68_arbitrary (3), C68_end (4), C68_samples (5), C68_ends (6). Only histories whose calls succeed; decoding, demixing, loudness and the sequencers are left out (they can fail, but do not change what is output). C68_blocks_after_the_end_refuted, C68_early_recon_gain_refuted, C68_positions_refuted, C68_stray_refuted and C68_stale_unit_refuted show what a user might expect and does not get; en_units, en_set_up, en_fed and en_all meet the hypotheses."
  },
  {
   "property": "C69",
   "status": "proved",
   "theorems": [
    "C69_frames",
    "C69_encoder"
   ],
   "note": "C69_frames (generator; also that Create returns) and C69_encoder. An endless loop is the result Diverge of the model, which allows three rounds of the do-while loop: the proof shows that two are always enough. Frames of no samples are refused when a codec config is created (codec_config.cc:38-47, 234). It says nothing of crashes: C69_undeclared_read_refuted and C69_undeclared_place_refuted (F69) are calls which crash. ex_framed meets the hypothesis."
  },
  {
   "property": "C70",
   "status": "proved",
   "theorems": [
    "C70_partition",
    "C70_ramp",
    "C70_returns",
    "C70_succeeds",
    "C70_metadata"
   ],
   "note": "C70_partition, C70_ramp (values), C70_succeeds, C70_returns, C70_metadata (all blocks). Lengths of a linear animation up to 2^24 ticks for the values, times within 64 bits. ex_two_meets meets the hypotheses. C70_flat_refuted (a constant gain becomes one which changes by a step of Q7.8) and C70_greatest_refuted (the greatest gain is refused) and C70_time_refuted (the end of a block must fit 64 bits) show why the statement has the margins it has (F70)."
  },
  {
   "property": "C71",
   "status": "proved",
   "theorems": [
    "C71_control",
    "C71_defined",
    "C71_bezier_start",
    "C71_linear",
    "C71_bezier",
    "C71_block_gains"
   ],
   "note": "C71_control, C71_defined, C71_bezier_start, C71_linear, C71_bezier, C71_block_gains. ex_curve and ex_block71 meet the hypotheses. The limits are real: C71_long_curve_refuted (a curve of 2097153 ticks is 8 dB off by cancellation) and C71_long_control_refuted (a control time rounded twice, F71). Conversion from dB to a linear factor (std::pow) is a parameter."
  },
  {
   "property": "C72",
   "status": "proved",
   "theorems": [
    "C72_file",
    "C72_accepts",
    "C72_abort"
   ],
   "note": "C72_file, C72_accepts, C72_abort. The header's bytes come from a library: a function of the number of samples whose length is constant. Writing to the file is taken to succeed. ex_wav meets the hypotheses. C72_abort_closed_refuted: Abort after Flush (or a second Abort) passes a null pointer to fclose; C72_no_channels_refuted: a writer for no channels divides by 0 (F72)."
  },
  {
   "property": "C73",
   "status": "proved",
   "theorems": [
    "C73_number",
    "C73_report",
    "C73_string",
    "C73_strings",
    "C73_integers"
   ],
   "note": "C73_report, C73_string, C73_number, C73_strings, C73_integers. The text of a float is a parameter which is asked to be a JSON number (finite floats; the report's are decoded from Q7.8). ex_json meets the hypotheses. Only the branch of the Mix Presentations is modelled. C73_utf8_refuted: bytes are passed on unchecked, so the text need not be UTF-8 (F73)."
  }
 ]
}