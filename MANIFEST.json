{
 "claims": [
  {
   "property": "C01",
   "status": "proved",
   "theorems": [
    "C01_bit_fields_round_trip",
    "C01_flush_is_padded_bits"
   ],
   "note": "For every sequence of typed fields and any trailing bytes; also the byte content of a flushed buffer."
  },
  {
   "property": "C02",
   "status": "proved",
   "theorems": [
    "C02_truncated_reads_as_zero_extended",
    "C02_truncation_detected_refuted"
   ],
   "note": "The property is false of the code: C02_truncation_detected_refuted gives a witness; C02_truncated_reads_as_zero_extended characterises what is read for every cut."
  },
  {
   "property": "C03",
   "status": "proved",
   "theorems": [
    "C03_string_round_trip",
    "C03_long_string_refuted",
    "C03_long_string_leaves_tail",
    "C03_string_in_bit_vector",
    "C03_vector_round_trip"
   ],
   "note": "Proved for at most 255 bytes at any bit alignment (files) and any offset (bit vectors); for longer strings C03_long_string_leaves_tail gives the exact loss."
  },
  {
   "property": "C04",
   "status": "proved",
   "theorems": [
    "C04_round_trip",
    "C04_decoded_in_range",
    "C04_monotone",
    "C04_infinities",
    "C04_nan_refuted"
   ],
   "note": "Binary32/64 arithmetic of Flocq. Error bound: one step plus 2^-20 of the range (float rounding); range, monotonicity and infinities for all finite inputs and all ranges of the format. Writing a NaN is undefined behaviour (C04_nan_refuted)."
  },
  {
   "property": "C05",
   "status": "proved",
   "theorems": [
    "C05_one_step",
    "C05_amplitude_codes_refuted",
    "C05_amplitude_drift_refuted",
    "C05_phase_refuted",
    "C05_gain_refuted"
   ],
   "note": "REFUTED: re-encoding drifts (C05_amplitude_codes_refuted gives the exact map of all 256 amplitude codes, C05_amplitude_drift_refuted: code 63 becomes 0 after 63 rewrites; also phases and gains). Proved instead: for widths up to 20 bits the code never grows and moves by at most one, for 32 bits by at most 1+2^12 (C05_one_step)."
  },
  {
   "property": "C06",
   "status": "proved",
   "theorems": [
    "C06_signed_read",
    "C06_unsigned_read",
    "C06_writer_code",
    "C06_unsigned_32_refuted",
    "C06_signed_32_min_refuted"
   ],
   "note": "Proved for widths 1..31; at width 32 the readers wrap or overflow (two refutations)."
  },
  {
   "property": "C07",
   "status": "proved",
   "theorems": [
    "C07_burst_detection_16",
    "C07_burst_detection_32",
    "C07_burst_17_refuted"
   ],
   "note": "Every burst of at most 16 (32) bits at any position of a message of any length; sharp (17-bit burst refuted)."
  },
  {
   "property": "C08",
   "status": "proved",
   "theorems": [
    "C08_single_packet_never_protected_refuted",
    "C08_no_packet_is_undefined",
    "C08_reader_verdict_16",
    "C08_reader_verdict_32",
    "C08_zero_checksum_refuted"
   ],
   "note": "REFUTED: the writer produces no checksum for a single packet, for every packet. The reader's verdict is characterised exactly for every packet and value; a checksum equal to 0 is always rejected."
  },
  {
   "property": "C09",
   "status": "proved",
   "theorems": [
    "C09_global_verdict_16",
    "C09_global_verdict_32",
    "C09_intact_packets_rejected_refuted"
   ],
   "note": "REFUTED: two intact packets are rejected. The exact acceptance condition (checksum of packets in reverse order equals the stored one and is nonzero) is proved for every 2..255 packets."
  },
  {
   "property": "C10",
   "status": "proved",
   "theorems": [
    "C100_ticks_refuted",
    "C101_sharpness_refuted",
    "C102_order_refuted",
    "C103_end_refuted",
    "C103_default_refuted",
    "C10_lossless",
    "C104_budget",
    "C105_fifteen",
    "C105_silent_refuted",
    "C106_scale",
    "C106_quantised",
    "C107_exact",
    "C108_inverse",
    "C109_block"
   ],
   "note": "for every start state of the counters, both coders agreeing, and with any zeros behind the code; the counters of both sides stay equal through rescaling; fewer than 2^31 symbols per context (int counters)"
  },
  {
   "property": "C11",
   "status": "proved",
   "theorems": [
    "C11_encoder",
    "C11_decoder",
    "C11_returns",
    "C114_blocks_played",
    "C114_same_sample_refuted",
    "C115_wavelet_channel",
    "C116_curve_channel",
    "C117_channels",
    "C117_failure",
    "C117_unreadable_refuted",
    "C118_disable_vectorial_refuted",
    "C119_both_disabled_refuted",
    "C119_negative_cutoff_refuted",
    "C110_inverse",
    "C110_forward",
    "C110_effects",
    "C111_blocks",
    "C111_encoded",
    "C112_length",
    "C112_audio_refuted",
    "C112_timescale_refuted",
    "C113_signal"
   ],
   "note": "interval, sub-intervals and loops for every prefix of every message and for the decoding of arbitrary bits; encode returns iff a symbol is 1"
  },
  {
   "property": "C12",
   "status": "proved",
   "theorems": [
    "C120_short_file_refuted",
    "C121_budget",
    "C121_monotone",
    "C121_large_refuted",
    "C122_used",
    "C122_ignored_refuted",
    "C123_defined",
    "C123_search",
    "C124_peaks",
    "C124_prominence",
    "C125_plateau_refuted",
    "C126_threshold",
    "C127_bands",
    "C127_partition",
    "C127_length_refuted",
    "C128_frequencies",
    "C128_thresholds",
    "C129_static_refuted",
    "C12_lossless",
    "C12_nothing",
    "C12_short_refuted"
   ],
   "note": "REFUTED: for blocks of fewer than 8 coefficients the encoder reads outside the block (C12_short_refuted). For lengths 2^3 to 2^22, coefficients below 2^(bits+1) and scale factors below 17 the code is lossless; the destination vector is zero at the start."
  },
  {
   "property": "C13",
   "status": "proved",
   "theorems": [
    "C130_status",
    "C130_hjif_refuted",
    "C130_unwritable_refuted",
    "C131_encoded",
    "C131_refused",
    "C131_no_input",
    "C132_bitrate_refuted",
    "C132_short",
    "C133_encoded",
    "C133_failed",
    "C133_unreadable",
    "C133_unknown_refuted",
    "C134_back",
    "C134_version_refuted",
    "C135_names",
    "C135_electrotactile_refuted",
    "C136_milliseconds",
    "C136_ticks",
    "C136_timescale_refuted",
    "C137_audio",
    "C137_frequency",
    "C137_empty_refuted",
    "C138_decoded",
    "C138_unasked",
    "C138_status_refuted",
    "C138_missing_refuted",
    "C139_number",
    "C139_no_number",
    "C139_written",
    "C13_maxima"
   ],
   "note": "Nodes 2 and above, which are all nodes the coder asks about."
  },
  {
   "property": "C14",
   "status": "proved",
   "theorems": [
    "C142_through",
    "C142_cubic",
    "C142_same_sample_refuted",
    "C143_order_refuted",
    "C144_through",
    "C144_curve",
    "C144_even_refuted",
    "C144_long_refuted",
    "C145_bounded",
    "C146_many_keyframes_refuted",
    "C140_metadata",
    "C140_version_refuted",
    "C141_channels_refuted",
    "C141_gain_refuted",
    "C14_header",
    "C14_exact",
    "C14_wrap_refuted"
   ],
   "note": "REFUTED: factors of 17 and more wrap (C14_wrap_refuted). Below 17 the bit count is exact and the factor is rounded down to the format of the header."
  },
  {
   "property": "C15",
   "status": "proved",
   "theorems": [
    "C15_bits",
    "C15_bytes"
   ],
   "note": "both directions, any length"
  },
  {
   "property": "C16",
   "status": "proved",
   "theorems": [
    "C16_round_trip"
   ],
   "note": "Experiences without composite timelines; real fields within one quantisation step."
  },
  {
   "property": "C17",
   "status": "proved",
   "theorems": [
    "C17_library_refuted",
    "C17_band_refuted",
    "C17_endless_refuted"
   ],
   "note": "REFUTED: writing never completes, for libraries and for bands."
  },
  {
   "property": "C18",
   "status": "proved",
   "theorems": [
    "C18_avatars_refuted",
    "C18_perceptions_refuted",
    "C18_devices_refuted",
    "C18_bands_refuted"
   ],
   "note": "REFUTED: counts wrap modulo 256 (avatars, perceptions, devices, bands)."
  },
  {
   "property": "C19",
   "status": "proved",
   "theorems": [
    "C19_exact",
    "C19_all",
    "C19_refuted"
   ],
   "note": "Exact description of what the unit reader hands to the packet decoder, and that it is every packet when the last one has more than 9 bytes. REFUTED: a last packet of at most 9 bytes (all checksum packets) is skipped."
  },
  {
   "property": "C20",
   "status": "proved",
   "theorems": [
    "C20_refuted"
   ],
   "note": "REFUTED: the result is true for every file."
  },
  {
   "property": "C21",
   "status": "proved",
   "theorems": [
    "C21_writer",
    "C21_reader",
    "C21_reader_init",
    "C21_wavelet_refuted"
   ],
   "note": "Writer: all experiences whose data packets have times that are multiples of the packet duration, with gaps below 2^24 ticks. Reader: every decoded unit. REFUTED for wavelet bands with blocks shorter than a packet."
  },
  {
   "property": "C22",
   "status": "proved",
   "theorems": [
    "C22_packets",
    "C22_partition",
    "C22_overlap_refuted",
    "C22_boundary_refuted"
   ],
   "note": "Bands of transient, curve and vectorial type whose effects follow one another; all packet durations. REFUTED for overlapping effects and for a reference at a window boundary at the end of the band."
  },
  {
   "property": "C23",
   "status": "proved",
   "theorems": [
    "C23_restored",
    "C23_same_id_refuted"
   ],
   "note": "Any number of effects and packets; distinct ids. Reals within the quantisation error of C04. REFUTED when ids repeat (C23_same_id_refuted)."
  },
  {
   "property": "C24",
   "status": "proved",
   "theorems": [
    "C24_sorted"
   ],
   "note": "All packets of at least 32 bits (every packet the code makes starts with its time)."
  },
  {
   "property": "C25",
   "status": "proved",
   "theorems": [
    "C25_fresh",
    "C25_nested_refuted",
    "C25_wavelet_refuted"
   ],
   "note": "Non-wavelet bands. REFUTED for ids nested in composite effects and for wavelet bands."
  },
  {
   "property": "C26",
   "status": "proved",
   "theorems": [
    "C26_flatten",
    "C26_offset_refuted"
   ],
   "note": "Any nesting. REFUTED: positions are not shifted by the composite's position."
  },
  {
   "property": "C27",
   "status": "proved",
   "theorems": [
    "C27_library"
   ],
   "note": "Libraries nested to any depth; every optional-field combination; delivered to the first perception with the id. Timelines and keyframe lists below 2^16, known semantic keywords."
  },
  {
   "property": "C28",
   "status": "proved",
   "theorems": [
    "C28_experience",
    "C28_perception",
    "C28_channel",
    "C28_band",
    "C28_priority_zero_refuted"
   ],
   "note": "All four metadata packets, any combination of optional fields, followed by anything. REFUTED without the side conditions: priority 0 and reference device 255 are read back as absent."
  },
  {
   "property": "C29",
   "status": "proved",
   "theorems": [
    "C29_kept",
    "C29_only_removes",
    "C29_removed",
    "C29_refuted"
   ],
   "note": "What is kept, what is removed, in order; all experiences. REFUTED for adjacent empty effects."
  },
  {
   "property": "C30",
   "status": "proved",
   "theorems": [
    "C30_refuted"
   ],
   "note": "REFUTED by a re-sent initialization unit."
  },
  {
   "property": "C31",
   "status": "proved",
   "theorems": [
    "C31_insertions",
    "C31_insertions_into_sorted",
    "C31_insertions_and_removals",
    "C31_replace_breaks_order_refuted"
   ],
   "note": "Any insertion sequence into an empty or sorted band, with removals interleaved. Replacement by index can break the order (refuted)."
  },
  {
   "property": "C32",
   "status": "proved",
   "theorems": [
    "C32_replace_keyframe",
    "C32_remove_keyframe",
    "C32_replace_effect",
    "C32_remove_effect",
    "C32_replace_band",
    "C32_remove_band",
    "C32_replace_channel",
    "C32_remove_channel",
    "C32_replace_perception",
    "C32_remove_perception"
   ],
   "note": "All five containers with replace and remove (keyframes, effects, bands, channels, perceptions), all signed indices; vector sizes assumed below 2^31. The code offers no replace/remove for library effects, devices, avatars."
  },
  {
   "property": "C33",
   "status": "proved",
   "theorems": [
    "C33_keyframe_history",
    "C33_insert_keeps_order"
   ],
   "note": "Any history from an effect without keyframes; order kept also with the inserting variant."
  },
  {
   "property": "C34",
   "status": "proved",
   "theorems": [
    "C34_bounded",
    "C34_nan_refuted"
   ],
   "note": "Bounds and number of samples for all channels. REFUTED: the result can be NaN (witness for every sin and pow)."
  },
  {
   "property": "C35",
   "status": "proved",
   "theorems": [
    "C35_terminates",
    "C35_endless_refuted"
   ],
   "note": "REFUTED: endless when a keyframe at that time has no amplitude; terminates otherwise."
  },
  {
   "property": "C36",
   "status": "proved",
   "theorems": [
    "C36_factor_then_expand",
    "C36_factor_then_expand_equivalent",
    "C36_wavelet_data_lost_refuted",
    "C36_semantic_lost_refuted",
    "C36_id_collision_refuted"
   ],
   "note": "Proved when ids in use are below the library size and equivalent effects have the same content; what happens without the content hypothesis is characterised exactly. REFUTED in general: lost wavelet data, lost semantic keyword, id collision."
  },
  {
   "property": "C37",
   "status": "proved",
   "theorems": [
    "C37_avatar_reference_overwritten",
    "C37_keeps_avatar_refuted",
    "C37_perception_update",
    "C37_channel_update",
    "C37_band_update"
   ],
   "note": "REFUTED for the avatar reference (it becomes the perception's own id, for every perception). What an update keeps and takes is proved for perceptions, channels and bands."
  },
  {
   "property": "C38",
   "status": "proved",
   "theorems": [
    "C38_roundtrip",
    "C38_any",
    "C38_mask_refuted",
    "C38_count_refuted"
   ],
   "note": "Round trip for objects that fit, exact description of what is loaded otherwise. REFUTED: masks with the parts 7, 15 or 23 and counts that disagree."
  },
  {
   "property": "C39",
   "status": "proved",
   "theorems": [
    "C39_value",
    "C39_nothing",
    "C39_exists",
    "C39_extension",
    "C39_no_extension"
   ],
   "note": ""
  },
  {
   "property": "C40",
   "status": "proved",
   "theorems": [
    "C40_stored",
    "C40_stored_std",
    "C40_negative_refuted",
    "C40_nan_refuted",
    "C40_channels",
    "C40_unequal"
   ],
   "note": "Under the usual hardware conversion for all finite samples, and under the standard's for non-negative ones; interleaving for any number of channels. REFUTED: the standard leaves negative samples and NaN undefined."
  },
  {
   "property": "C41",
   "status": "proved",
   "theorems": [
    "C41_exact",
    "C41_minimum_refuted"
   ],
   "note": "REFUTED: smallest int overflows."
  },
  {
   "property": "C42",
   "status": "proved",
   "theorems": [
    "C42_conformance",
    "C42_answers"
   ],
   "note": "Exact characterisation of the experiences accepted, for directions and block lengths of the C++ types; the checker always answers if the enumerated fields are valid."
  },
  {
   "property": "C43",
   "status": "proved",
   "theorems": [
    "C43_silent",
    "C43_stream",
    "C43_wavelet_refuted"
   ],
   "note": "Every silent unit before a packet that is not in the past; all streams meeting the hypotheses of C21. REFUTED for wavelet bands with blocks shorter than a packet."
  },
  {
   "property": "C44",
   "status": "proved",
   "theorems": [
    "C44_complete",
    "C44_lost_refuted",
    "C44_loop_refuted",
    "C44_zero_refuted"
   ],
   "note": "All wavelet bands with blocks of more than half a packet. REFUTED for shorter blocks (lost), longer blocks (endless) and block length 0."
  },
  {
   "property": "C45",
   "status": "proved",
   "theorems": [
    "C45_refuted"
   ],
   "note": "REFUTED: reading throws."
  },
  {
   "property": "C46",
   "status": "proved",
   "theorems": [
    "C46_keyframes",
    "C46_represented",
    "C46_first_refuted",
    "C46_small_peak_refuted"
   ],
   "note": "Exact characterisation of the keyframes for every signal whose positions fit in 31 bits. REFUTED: as first stated (all salient samples kept): several salient samples in one tick leave only the last (C46_first_refuted), and peaks within 100 epsilon vanish (C46_small_peak_refuted)."
  },
  {
   "property": "C47",
   "status": "proved",
   "theorems": [
    "C47_meaning",
    "C47_symmetric",
    "C47_transitive",
    "C47_reflexive",
    "C47_nan_refuted",
    "C47_ignores_more_refuted"
   ],
   "note": "Exact meaning, symmetry, transitivity; reflexive exactly on basis effects without NaN. REFUTED parts: NaN; ignores semantic, timeline and wavelet data."
  },
  {
   "property": "C48",
   "status": "proved",
   "theorems": [
    "C48_close",
    "C48_line",
    "C48_outside",
    "C48_ends_refuted",
    "C48_same_time_refuted"
   ],
   "note": "Error bound for all times, points and amplitudes up to 2^500. REFUTED: exactness at the ends, staying between the amplitudes, and points at the same time (NaN)."
  },
  {
   "property": "C49",
   "status": "proved",
   "theorems": [
    "C49_no_repeated_effect_left"
   ],
   "note": "For all perceptions."
  },
  {
   "property": "C50",
   "status": "proved",
   "theorems": [
    "C50_refuted"
   ],
   "note": "REFUTED: reading throws."
  },
  {
   "property": "C51",
   "status": "proved",
   "theorems": [
    "C51_once",
    "C51_refuted"
   ],
   "note": "All experiences without spatial perceptions: one list of packets per band, exactly. REFUTED for two spatial bands."
  },
  {
   "property": "C52",
   "status": "proved",
   "theorems": [
    "C52_terminates",
    "C52_zero_duration_refuted"
   ],
   "note": "Non-wavelet bands, all positive durations. REFUTED for duration 0: no number of steps suffices."
  },
  {
   "property": "C53",
   "status": "proved",
   "theorems": [
    "C53_refuted"
   ],
   "note": "REFUTED: a later keyframe is lost."
  },
  {
   "property": "C54",
   "status": "proved",
   "theorems": [
    "C54_inverse",
    "C54_fits",
    "C54_unknown_throws"
   ],
   "note": "Both tables, all texts and codes. Any other text makes the writer throw."
  },
  {
   "property": "C55",
   "status": "proved",
   "theorems": [
    "C55_split"
   ],
   "note": "All sequences of well-formed units."
  },
  {
   "property": "C56",
   "status": "proved",
   "theorems": [
    "C56_refuted"
   ],
   "note": "REFUTED: later effects are shifted by the duration of the failed unit."
  },
  {
   "property": "C57",
   "status": "proved",
   "theorems": [
    "C57_round_trip"
   ],
   "note": "Whole stream. The conditions on packet sizes are about the packets written (fits); all others are about the experience (streamable). Experiences that do not meet them are the subject of C22, C27, C43, C44, C51 (refutations)."
  },
  {
   "property": "C58",
   "status": "proved",
   "theorems": [
    "C58_refuted"
   ],
   "note": "REFUTED."
  },
  {
   "property": "C59",
   "status": "proved",
   "theorems": [
    "C59_length",
    "C59_refuted"
   ],
   "note": "All payloads: the stated length modulo 2^17. REFUTED for 128 KiB."
  },
  {
   "property": "C60",
   "status": "proved",
   "theorems": [
    "C60_refuted"
   ],
   "note": "REFUTED: elements are appended."
  },
  {
   "property": "C61",
   "status": "proved",
   "theorems": [
    "C61_digits"
   ],
   "note": ""
  },
  {
   "property": "C62",
   "status": "proved",
   "theorems": [
    "C62_block_length",
    "C62_not_longer",
    "C62_halved_refuted"
   ],
   "note": "REFUTED in general; exact condition proved as an equivalence."
  },
  {
   "property": "C63",
   "status": "proved",
   "theorems": [
    "C63_positions_refuted"
   ],
   "note": "REFUTED: positions are scaled."
  },
  {
   "property": "C64",
   "status": "proved",
   "theorems": [
    "C64_timescale_refuted"
   ],
   "note": "REFUTED: always 1000."
  },
  {
   "property": "C65",
   "status": "proved",
   "theorems": [
    "C65_undefined_refuted"
   ],
   "note": "REFUTED: division by zero and int overflow."
  },
  {
   "property": "C66",
   "status": "proved",
   "theorems": [
    "C66_terminates"
   ],
   "note": "All byte sequences."
  },
  {
   "property": "C67",
   "status": "proved",
   "theorems": [
    "C67_two_keyframes_refuted"
   ],
   "note": "REFUTED: silent."
  },
  {
   "property": "C68",
   "status": "proved",
   "theorems": [
    "C68_late_refuted"
   ],
   "note": "REFUTED: multiplied by the timescale."
  },
  {
   "property": "C69",
   "status": "proved",
   "theorems": [
    "C69_sum",
    "C69_order_refuted"
   ],
   "note": "Sum while nothing clips. REFUTED in general: order matters."
  },
  {
   "property": "C70",
   "status": "proved",
   "theorems": [
    "C70_one_keyframe_refuted"
   ],
   "note": "REFUTED: read outside of a vector."
  },
  {
   "property": "C71",
   "status": "proved",
   "theorems": [
    "C71_no_effects_refuted"
   ],
   "note": "REFUTED: read before a vector."
  },
  {
   "property": "C72",
   "status": "proved",
   "theorems": [
    "C72_played",
    "C72_shifted_refuted"
   ],
   "note": "Sample k or k-1 for all rates. REFUTED: not always k."
  },
  {
   "property": "C73",
   "status": "proved",
   "theorems": [
    "C73_silence"
   ],
   "note": "For all bands and times."
  },
  {
   "property": "C74",
   "status": "proved",
   "theorems": [
    "C74_last_effects",
    "C74_earlier_effects_refuted"
   ],
   "note": "Last effects of bands other than transient ones. REFUTED for earlier effects."
  },
  {
   "property": "C75",
   "status": "proved",
   "theorems": [
    "C75_free_band",
    "C75_no_position_refuted"
   ],
   "note": "Totality and exact answer. REFUTED without positions: read past a vector."
  },
  {
   "property": "C76",
   "status": "proved",
   "theorems": [
    "C76_last_sample_refuted"
   ],
   "note": "REFUTED: exact condition for reading past the end."
  },
  {
   "property": "C77",
   "status": "proved",
   "theorems": [
    "C77_scheme_refuted"
   ],
   "note": "REFUTED: every declared scheme is rejected (IOJson.cpp 280-284)."
  },
  {
   "property": "C78",
   "status": "proved",
   "theorems": [
    "C78_date_refuted",
    "C78_uri_refuted",
    "C78_version"
   ],
   "note": "REFUTED for dates and URIs: exact characterisation of the accepted texts; versions proved."
  },
  {
   "property": "C79",
   "status": "proved",
   "theorems": [
    "C79_nested_refuted",
    "C79_library_refuted",
    "C79_band"
   ],
   "note": "REFUTED inside composite effects and for library effects; proved for effects directly in bands."
  },
  {
   "property": "C80",
   "status": "proved",
   "theorems": [
    "C80_round_trip",
    "C80_lossless"
   ],
   "note": "round trip for all storable conformant experiences"
  },
  {
   "property": "C81",
   "status": "proved",
   "theorems": [
    "C81_resave",
    "C81_settles"
   ],
   "note": "idempotence"
  },
  {
   "property": "C82",
   "status": "proved",
   "theorems": [
    "C82_timescale_refuted",
    "C82_gain_refuted"
   ],
   "note": "REFUTED: files without timescale or with a non-finite gain are always refused"
  },
  {
   "property": "C83",
   "status": "proved",
   "theorems": [
    "C83_nested_refuted"
   ],
   "note": "REFUTED: nothing opened from an interchange file has effects inside"
  },
  {
   "property": "C84",
   "status": "proved",
   "theorems": [
    "C84_block",
    "C84_trailing",
    "C84_zeros_refuted"
   ],
   "note": "block round trip proved; REFUTED: that every stream can be saved (non-empty streams of null bytes throw)"
  },
  {
   "property": "C85",
   "status": "proved",
   "theorems": [
    "C85_ends",
    "C85_unit"
   ],
   "note": "For every file below 2 GiB; units: nesting bounded by the number of bits"
  },
  {
   "property": "C86",
   "status": "proved",
   "theorems": [
    "C86_overlong_refuted",
    "C86_timescale_refuted"
   ],
   "note": "REFUTED: over-long packets and a timescale of 0 are undefined behaviour, whatever follows in the file"
  },
  {
   "property": "C87",
   "status": "proved",
   "theorems": [
    "C87_timeline",
    "C87_document"
   ],
   "note": "all timelines with separate repetitions and ordered launches, up to the whole document"
  },
  {
   "property": "C88",
   "status": "proved",
   "theorems": [
    "C88_nested_refuted"
   ],
   "note": "REFUTED: nested repetitions lose every launch outside repetitions"
  },
  {
   "property": "C89",
   "status": "proved",
   "theorems": [
    "C89_order_refuted"
   ],
   "note": "REFUTED: launches listed out of order are delayed by repetitions after them"
  },
  {
   "property": "C90",
   "status": "proved",
   "theorems": [
    "C90_ticks",
    "C90_exact_refuted"
   ],
   "note": "the tick or the one before; REFUTED: exactness (C90_exact_refuted)"
  },
  {
   "property": "C91",
   "status": "proved",
   "theorems": [
    "C91_periodic",
    "C91_magsweep",
    "C91_envelope"
   ],
   "note": ""
  },
  {
   "property": "C92",
   "status": "proved",
   "theorems": [
    "C92_inject"
   ],
   "note": ""
  },
  {
   "property": "C93",
   "status": "proved",
   "theorems": [
    "C93_period_zero_refuted",
    "C93_period_missing_refuted",
    "C93_channel_ids_refuted"
   ],
   "note": "REFUTED: identifiers all 0, frequency -1000 or undefined"
  },
  {
   "property": "C94",
   "status": "proved",
   "theorems": [
    "C94_transients"
   ],
   "note": "Events and curves in file order; amplitude and frequency with error bounds."
  },
  {
   "property": "C95",
   "status": "proved",
   "theorems": [
    "C95_continuous"
   ],
   "note": "Bands as in C75/C92; frequencies in C98."
  },
  {
   "property": "C96",
   "status": "proved",
   "theorems": [
    "C96_curve_refuted"
   ],
   "note": "REFUTED: undefined behaviour for every document whose curve misses the first continuous event."
  },
  {
   "property": "C97",
   "status": "proved",
   "theorems": [
    "C97_intensity",
    "C97_last_refuted"
   ],
   "note": "REFUTED in part: C97_intensity proves that the curve is followed at all but the last control point; C97_last_refuted shows that the last one inside the event is overwritten, in every document."
  },
  {
   "property": "C98",
   "status": "proved",
   "theorems": [
    "C98_frequency",
    "C98_transient_refuted"
   ],
   "note": "REFUTED in part: proved for continuous effects; C98_transient_refuted shows the frequencies of transients out of range."
  },
  {
   "property": "C99",
   "status": "proved",
   "theorems": [
    "C99_empty_refuted"
   ],
   "note": "REFUTED: a transient effect without keyframes, for every document without transients."
  },
  {
   "property": "C100",
   "status": "proved",
   "theorems": [],
   "note": "REFUTED: witness 1.001 s at timescale 1000."
  },
  {
   "property": "C101",
   "status": "proved",
   "theorems": [],
   "note": "REFUTED: 90 Hz for every document without sharpness curve."
  },
  {
   "property": "C102",
   "status": "proved",
   "theorems": [],
   "note": "REFUTED: for every document with two transients in reversed order."
  },
  {
   "property": "C103",
   "status": "proved",
   "theorems": [],
   "note": "REFUTED: a witness for the end, and for every event without a sharpness the frequency at the control points."
  },
  {
   "property": "C104",
   "status": "proved",
   "theorems": [],
   "note": ""
  },
  {
   "property": "C105",
   "status": "proved",
   "theorems": [],
   "note": "REFUTED: for every silent block (with the usual limits of log10 and pow); proved for blocks whose ratios stay usable."
  },
  {
   "property": "C106",
   "status": "proved",
   "theorems": [],
   "note": ""
  },
  {
   "property": "C107",
   "status": "proved",
   "theorems": [],
   "note": ""
  },
  {
   "property": "C108",
   "status": "proved",
   "theorems": [],
   "note": ""
  },
  {
   "property": "C109",
   "status": "proved",
   "theorems": [],
   "note": ""
  },
  {
   "property": "C110",
   "status": "proved",
   "theorems": [],
   "note": ""
  },
  {
   "property": "C111",
   "status": "proved",
   "theorems": [],
   "note": ""
  },
  {
   "property": "C112",
   "status": "proved",
   "theorems": [],
   "note": "REFUTED: for every signal at five audio sampling frequencies, and for timescale 8000; proved for blocks of whole milliseconds."
  },
  {
   "property": "C113",
   "status": "proved",
   "theorems": [],
   "note": "The psychohaptic model and the C library's log10 and pow are arbitrary functions; blocks where a ratio is NaN or all are infinite are excluded (C105)."
  },
  {
   "property": "C114",
   "status": "proved",
   "theorems": [],
   "note": "REFUTED: that the sample number is always exact (C114_same_sample_refuted: sample 1001 at 8000 Hz); proved: every sample is the one of the same number or the one before."
  },
  {
   "property": "C115",
   "status": "proved",
   "theorems": [],
   "note": "cutoff frequency 0; blocks must be usable (see C105) and last a whole number of milliseconds (see C112)."
  },
  {
   "property": "C116",
   "status": "proved",
   "theorems": [],
   "note": "The low-pass filter and the interpolations are arbitrary functions."
  },
  {
   "property": "C117",
   "status": "proved",
   "theorems": [],
   "note": "REFUTED: that unreadable files are reported (C117_unreadable_refuted)."
  },
  {
   "property": "C118",
   "status": "proved",
   "theorems": [],
   "note": "REFUTED: a signal that passes the filter is encoded like silence."
  },
  {
   "property": "C119",
   "status": "proved",
   "theorems": [],
   "note": "REFUTED: success without a band, or with a band that does not depend on the samples."
  },
  {
   "property": "C120",
   "status": "proved",
   "theorems": [],
   "note": "REFUTED: undefined behaviour for files of at most one sample."
  },
  {
   "property": "C121",
   "status": "proved",
   "theorems": [],
   "note": "REFUTED: for bitrates from 20350 (C121_large_refuted); budget and monotonicity proved up to 20000."
  },
  {
   "property": "C122",
   "status": "proved",
   "theorems": [],
   "note": "REFUTED: options are ignored without bitrate or budget (C122_ignored_refuted)."
  },
  {
   "property": "C123",
   "status": "proved",
   "theorems": [],
   "note": "PeakModel.v; the Fourier transform is outside, the C library arbitrary functions"
  },
  {
   "property": "C124",
   "status": "proved",
   "theorems": [],
   "note": "Numbers up to 1e9 dB; the prominence is compared after rounding to a double"
  },
  {
   "property": "C125",
   "status": "proved",
   "theorems": [],
   "note": "REFUTED: universal over three heights"
  },
  {
   "property": "C126",
   "status": "proved",
   "theorems": [],
   "note": "Accuracy of the mask in binary64 (MaskFloat.v); heights come from findPeaks of C123-C125"
  },
  {
   "property": "C127",
   "status": "proved",
   "theorems": [],
   "note": "REFUTED: for block lengths that are not 4 * 2^k (C127_length_refuted); proved for the others"
  },
  {
   "property": "C128",
   "status": "proved",
   "theorems": [],
   "note": "The curve is an arbitrary function of the frequency"
  },
  {
   "property": "C129",
   "status": "proved",
   "theorems": [],
   "note": "REFUTED: universal, with an example where the results differ"
  },
  {
   "property": "C130",
   "status": "proved",
   "theorems": [],
   "note": "REFUTED: C130_hjif_refuted shows that the status is -1 for every interchange input (with an example in which the file is written), C130_unwritable_refuted that the status is the same when nothing can be written; C130_status is the part that holds."
  },
  {
   "property": "C131",
   "status": "proved",
   "theorems": [],
   "note": "Total correctness of the program for one input file, over arbitrary component encoders, file system and argument lists; the component encoders have their own properties."
  },
  {
   "property": "C132",
   "status": "proved",
   "theorems": [],
   "note": "REFUTED: C132_bitrate_refuted, for every world and argument list, shows that --bitrate is ignored; C132_short shows that -kb is used."
  },
  {
   "property": "C133",
   "status": "proved",
   "theorems": [],
   "note": "REFUTED: C133_unknown_refuted shows that elements of an unknown kind are skipped with status 0; C133_encoded, C133_failed and C133_unreadable are the parts that hold."
  },
  {
   "property": "C134",
   "status": "proved",
   "theorems": [],
   "note": "C134_back for metadata from OHM files. REFUTED: C134_version_refuted for versions that are not numbers."
  },
  {
   "property": "C135",
   "status": "proved",
   "theorems": [],
   "note": "REFUTED: C135_electrotactile_refuted for one description; C135_names is the equivalence for all others."
  },
  {
   "property": "C136",
   "status": "proved",
   "theorems": [],
   "note": "REFUTED: C136_timescale_refuted for every timescale from 2000 on; C136_milliseconds proves the claim for timescale 1000, C136_ticks gives the number of samples in general."
  },
  {
   "property": "C137",
   "status": "proved",
   "theorems": [],
   "note": "C137_audio and C137_frequency hold. REFUTED: C137_empty_refuted for experiences without perceptions."
  },
  {
   "property": "C138",
   "status": "proved",
   "theorems": [],
   "note": "REFUTED: C138_status_refuted (status 0 whatever the input) and C138_missing_refuted; C138_decoded and C138_unasked are the parts that hold."
  },
  {
   "property": "C139",
   "status": "proved",
   "theorems": [],
   "note": ""
  },
  {
   "property": "C140",
   "status": "proved",
   "theorems": [],
   "note": "C140_metadata holds. REFUTED: C140_version_refuted for versions that are not numbers."
  },
  {
   "property": "C141",
   "status": "proved",
   "theorems": [],
   "note": "REFUTED: C141_channels_refuted (every perception gets all channels) and C141_gain_refuted (the gain is applied twice, with C137_audio)."
  },
  {
   "property": "C142",
   "status": "proved",
   "theorems": [],
   "note": "REFUTED: C142_same_sample_refuted (two keyframes in one sample give NaN for every such effect); otherwise C142_through and C142_cubic."
  },
  {
   "property": "C143",
   "status": "proved",
   "theorems": [],
   "note": "REFUTED: C143_order_refuted, for every effect whose keyframes are not in order."
  },
  {
   "property": "C144",
   "status": "proved",
   "theorems": [],
   "note": "REFUTED: C144_even_refuted and C144_long_refuted; C144_through and C144_curve for an odd number of keyframes and segments of at most 32767 samples."
  },
  {
   "property": "C145",
   "status": "proved",
   "theorems": [],
   "note": "When the evaluation is defined; C146 shows that it may be undefined."
  },
  {
   "property": "C146",
   "status": "proved",
   "theorems": [],
   "note": "REFUTED: witness with fifteen keyframes."
  }
 ]
}