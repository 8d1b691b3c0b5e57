{
 "claims": [
  {
   "property": "C01",
   "status": "proved",
   "theorems": [
    "C01_prim_write_read",
    "C01_prim_read_write",
    "C01_u24_write_read",
    "C01_u24_rejects",
    "C01_u24_read_write"
   ],
   "note": "All seven fixed-width primitives and u24, both directions, anywhere in a buffer."
  },
  {
   "property": "C02",
   "status": "proved",
   "theorems": [
    "C02_reader_is_bounds_checked_cursor",
    "C02_short_read_fails"
   ],
   "note": "Every sequence of reader calls follows the abstract bounds-checked cursor; short reads are errors."
  },
  {
   "property": "C03",
   "status": "proved",
   "theorems": [
    "C03_counted16",
    "C03_counted32",
    "C03_counted16_any_length",
    "C03_long_array_refuted"
   ],
   "note": "Round trip below the count limit; exact result for every length (u16 counts wrap silently, shown by the _refuted witness)."
  },
  {
   "property": "C04",
   "status": "proved",
   "theorems": [
    "C04_tag_accepts",
    "C04_tag_bad_length",
    "C04_tag_bad_byte",
    "C04_tag_write_read",
    "C04_tag_order"
   ],
   "note": "Exact acceptance, both error kinds, write/read, ordering."
  },
  {
   "property": "C05",
   "status": "proved",
   "theorems": [
    "C05_f2dot14_bits",
    "C05_f2dot14_rejects_high",
    "C05_f2dot14_rejects_low",
    "C05_fixed_bits_iff",
    "C05_fixed_whole_numbers",
    "C05_fixed_refuted"
   ],
   "note": "F2DOT14 exact for every pattern and rejecting out of range; Fixed: exact characterisation of surviving patterns, with a _refuted witness for the claim on all patterns."
  },
  {
   "property": "C06",
   "status": "proved",
   "theorems": [
    "C06_checksum_is_word_sum",
    "C06_checksum_padding",
    "C06_checksum_additive"
   ],
   "note": "Checksum equals the weighted word sum for every byte string; padding invariance; additivity at word boundaries."
  },
  {
   "property": "C07",
   "status": "proved",
   "theorems": [
    "C07_whole_file_checksum",
    "C07_save_succeeds"
   ],
   "note": "Every successful save with a head table sums to the magic; success characterised."
  },
  {
   "property": "C08",
   "status": "proved",
   "theorems": [
    "C08_directory_well_formed"
   ],
   "note": "Directory well-formed for every table set, for files below 4 GiB (the offset fields are 32 bit)."
  },
  {
   "property": "C09",
   "status": "proved",
   "theorems": [
    "C09_search_range",
    "C09_search_range_overflow",
    "C09_no_overflow_refuted"
   ],
   "note": "Exact result for every count/item size that does not overflow and panic for all others; the no-overflow claim itself is refuted with a witness."
  },
  {
   "property": "C10",
   "status": "proved",
   "theorems": [
    "C10_save_load"
   ],
   "note": "Container level: raw bytes of every table; typed store level follows in TStore."
  },
  {
   "property": "C11",
   "status": "proved",
   "theorems": [
    "C11_save_load_save",
    "C11_reload_save"
   ],
   "note": "Container level."
  },
  {
   "property": "C12",
   "status": "proved",
   "theorems": [
    "C12_load_success",
    "C12_load_error_iff",
    "C12_load_abort_iff",
    "C12_no_abort_refuted",
    "C12_load_tables"
   ],
   "note": "Exact outcome (font / error / abort) for every byte string; the no-abort claim is refuted with a witness."
  },
  {
   "property": "C13",
   "status": "proved",
   "theorems": [
    "C13_map",
    "C13_map_afterwards",
    "C13_lookup_neutral_refuted",
    "C13_remove_returns_refuted"
   ],
   "note": "exact for self-contained tables; two counterexamples for dependent ones"
  },
  {
   "property": "C14",
   "status": "proved",
   "theorems": [
    "C14_unmodified_saved",
    "C14_only_edited_tables_change_refuted"
   ],
   "note": "with the exact exception (rebuilt tables); counterexample for the unrestricted claim"
  },
  {
   "property": "C15",
   "status": "proved",
   "theorems": [
    "C15_value_semantics"
   ],
   "note": "heap model with reference counts refined to value semantics"
  },
  {
   "property": "C16",
   "status": "proved",
   "theorems": [
    "C16_compiled_tables",
    "C16_compile_total",
    "C16_save_reload",
    "C16_saved"
   ],
   "note": "Compile function at glyph-list level; the store-level wrapper is covered with C17."
  },
  {
   "property": "C17",
   "status": "proved",
   "theorems": [
    "C17_maxp_saved_as_is",
    "C17_count_in_step_refuted"
   ],
   "note": "the true behaviour is proved; the desirable claim is refuted by a counterexample"
  },
  {
   "property": "C18",
   "status": "proved",
   "theorems": [
    "C18_hmtx",
    "C18_empty_refuted"
   ],
   "note": "Every non-empty list of at most 65535 metrics; minimality against every possible table content; the empty list is refuted (reading aborts)."
  },
  {
   "property": "C19",
   "status": "proved",
   "theorems": [
    "C19_loca"
   ],
   "note": "Every byte string, both formats."
  },
  {
   "property": "C20",
   "status": "proved",
   "theorems": [
    "C20_simple_glyph_iff",
    "C20_simple_glyph_roundtrip",
    "C20_every_encoding_read",
    "C20_written_follows_format",
    "C20_overlap_refuted",
    "C20_empty_contour_refuted",
    "C20_truncated_refuted"
   ],
   "note": "Exact characterisation (iff) of the simple glyphs that survive; refutations: the overlap flag is never written, an empty leading contour corrupts the glyph, truncation aborts. Sizes: at most 32767 contours and points (beyond that the writer's 16-bit counter overflows)."
  },
  {
   "property": "C21",
   "status": "proved",
   "theorems": [
    "C21_component",
    "C21_composite",
    "C21_fraction_refuted"
   ],
   "note": "Component records and composite glyphs with 2.14 scales and whole 16-bit offsets, or point matching; transforms compared as exact numbers. Refutation: a fractional vertical offset is cut off while the horizontal one is rounded."
  },
  {
   "property": "C22",
   "status": "proved",
   "theorems": [
    "C22_insert_oncurves",
    "C22_empty_refuted",
    "C22_overflow_refuted",
    "C22_wraparound_refuted"
   ],
   "note": "Exact characterisation of success; wrap-around pair, empty contour and overflow recorded as refuted."
  },
  {
   "property": "C23",
   "status": "proved",
   "theorems": [
    "C23_flatten",
    "C23_flat_unique",
    "C23_composition",
    "C23_depth_refuted",
    "C23_missing_refuted",
    "C23_cost_refuted"
   ],
   "note": "Refuted beyond 65 levels, for missing references and (cost) for self-doubling cycles."
  },
  {
   "property": "C24",
   "status": "proved",
   "theorems": [
    "C24_written_follows_format",
    "C24_every_encoding_read",
    "C24_roundtrip",
    "C24_written_iff"
   ],
   "note": "Format relation delta_runs, both directions, and the exact set of writable lists."
  },
  {
   "property": "C25",
   "status": "proved",
   "theorems": [
    "C25_all_points",
    "C25_roundtrip",
    "C25_every_encoding_read",
    "C25_written_iff",
    "C25_word_gap_unreadable",
    "C25_many_points_lost"
   ],
   "note": "Exact domain of success; word gaps and 128+ points proved lost."
  },
  {
   "property": "C26",
   "status": "proved",
   "theorems": [
    "C26_roundtrip",
    "C26_laid_out",
    "C26_no_deltas_refuted",
    "C26_stale_flag_refuted"
   ],
   "note": "Round trip for all encodable stores, plus layout of sizes and offsets; two refutations for stores outside."
  },
  {
   "property": "C27",
   "status": "proved",
   "theorems": [
    "C27_contour",
    "C27_none_given",
    "C27_one_given",
    "C27_glyph",
    "C27_rounding_refuted"
   ],
   "note": "iff-characterisation of success and result; rounding refuted separately"
  },
  {
   "property": "C28",
   "status": "proved",
   "theorems": [
    "C28_contour_lossless",
    "C28_glyph_lossless",
    "C28_succeeds",
    "C28_search_complete",
    "C28_empty_contour_refuted"
   ],
   "note": "lossless for contours and glyphs; success for contours up to 8191 points with moderate coordinates; empty contours refuted"
  },
  {
   "property": "C29",
   "status": "proved",
   "theorems": [
    "C29_range",
    "C29_accuracy",
    "C29_peak",
    "C29_zero_outside",
    "C29_positive_inside"
   ],
   "note": "binary32 arithmetic without overflow, subnormals or NaN; the 2^-23 tolerance around a peak is part of the specification"
  },
  {
   "property": "C30",
   "status": "proved",
   "theorems": [
    "C30_supports",
    "C30_at_master",
    "C30_recovered_iff",
    "C30_masters_recovered",
    "C30_masters_refuted"
   ],
   "note": "values are exact rationals (the code is generic in the value type); C30_recovered_iff says exactly when all values are recovered, C30_masters_recovered gives a large class of master sets, C30_masters_refuted a set outside it; locations and values must be equal in number"
  },
  {
   "property": "C31",
   "status": "proved",
   "theorems": [
    "C31_written_follows_format",
    "C31_written_iff",
    "C31_shortest",
    "C31_size",
    "C31_roundtrip",
    "C31_every_encoding_read",
    "C31_full_range_unreadable"
   ],
   "note": "Exact success condition, chosen format, size, round trip and reading of every encoding. Ranges reaching glyph 65535 are proved unreadable."
  },
  {
   "property": "C32",
   "status": "proved",
   "theorems": [
    "C32_written_follows_format",
    "C32_written_iff",
    "C32_shortest",
    "C32_roundtrip",
    "C32_every_encoding_read",
    "C32_full_range_unreadable",
    "C32_glyphs_of_class",
    "C32_glyphs_of_class_zero",
    "C32_class_zero_kept_refuted"
   ],
   "note": "As C31, for class maps; the class-0 glyph list is shown not to be kept."
  },
  {
   "property": "C33",
   "status": "proved",
   "theorems": [
    "C33_written_iff",
    "C33_written_follows_format",
    "C33_every_encoding_read",
    "C33_roundtrip_iff",
    "C33_suggested_format_refuted",
    "C33_variation_index_refuted"
   ],
   "note": "Round trip characterised exactly; automatic format choice shown to be too narrow."
  },
  {
   "property": "C34",
   "status": "proved",
   "theorems": [
    "C34_simplify_keeps",
    "C34_simplify_minimal",
    "C34_coerce_keeps",
    "C34_coerce_list_keeps",
    "C34_coerce_list_uniform",
    "C34_coerce_list_devices",
    "C34_coerce_fields",
    "C34_coerce_list_least",
    "C34_flags_iff",
    "C34_read_back",
    "C34_read_back_own_flags_iff",
    "C34_vertical_device_refuted"
   ],
   "note": "Iff-characterisation of when the computed flags describe the record (a lone vertical placement device is written but not flagged: finding)."
  },
  {
   "property": "C35",
   "status": "proved",
   "theorems": [
    "C35_written_follows_format",
    "C35_roundtrip_iff",
    "C35_written_if_small",
    "C35_up_to_6551_kept",
    "C35_every_encoding_read",
    "C35_never_written",
    "C35_large_maps_refuted",
    "C35_wrapping_sum_refuted"
   ],
   "note": ""
  },
  {
   "property": "C36",
   "status": "proved",
   "theorems": [
    "C36_written_iff",
    "C36_roundtrip_iff",
    "C36_written_follows_format",
    "C36_other_starts_refuted",
    "C36_every_encoding_read"
   ],
   "note": ""
  },
  {
   "property": "C37",
   "status": "proved",
   "theorems": [
    "C37_read_back",
    "C37_kept_iff",
    "C37_own_format_refuted",
    "C37_variation_sequences_read",
    "C37_variation_sequences_written"
   ],
   "note": "The hash of a mapping is a parameter, assumed not to collide on the table's mappings."
  },
  {
   "property": "C38",
   "status": "proved",
   "theorems": [
    "C38_best_mapping",
    "C38_no_best_mapping",
    "C38_get_mapping",
    "C38_reversed",
    "C38_unicode",
    "C38_symbol"
   ],
   "note": ""
  },
  {
   "property": "C39",
   "status": "proved",
   "theorems": [
    "C39_valid_iff",
    "C39_new",
    "C39_total",
    "C39_nodes",
    "C39_fixpoints",
    "C39_monotone",
    "C39_linear",
    "C39_layout",
    "C39_read",
    "C39_roundtrip",
    "C39_unsorted_refuted",
    "C39_abort_refuted"
   ],
   "note": "Stated for maps of F2DOT14 numbers in binary32 arithmetic; validity by iff; order of coordinates not checked (refutations)."
  },
  {
   "property": "C40",
   "status": "proved",
   "theorems": [
    "C40_roundtrip",
    "C40_layout",
    "C40_read",
    "C40_write_panics",
    "C40_unicode",
    "C40_windows_unicode",
    "C40_long_refuted",
    "C40_storage_refuted"
   ],
   "note": "Round trip, byte format, exact conditions for an abort; long strings and a storage offset elsewhere refuted as counterexamples."
  },
  {
   "property": "C41",
   "status": "proved",
   "theorems": [
    "C41_roundtrip_iff",
    "C41_format",
    "C41_read",
    "C41_bad_index_aborts",
    "C41_version_iff",
    "C41_long_refuted"
   ],
   "note": "Round trip characterised by iff; format; reading of every well-formed table; versions."
  },
  {
   "property": "C42",
   "status": "proved",
   "theorems": [
    "C42_head",
    "C42_head_fraction_refuted",
    "C42_head_date_aborts",
    "C42_hhea",
    "C42_maxp",
    "C42_maxp_version_needed",
    "C42_gasp",
    "C42_cvt",
    "C42_cvt_bytes",
    "C42_fpgm_prep",
    "C42_fvar",
    "C42_fvar_flags_refuted",
    "C42_fvar_mixed_rejected",
    "C42_os2",
    "C42_os2_missing_refuted",
    "C42_head_layout",
    "C42_hhea_layout",
    "C42_maxp_layout",
    "C42_os2_layout"
   ],
   "note": "All fixed-layout tables both ways on their documented domains; the three ways data is lost (fractional seconds in head dates, fvar instance flags, missing OS/2 fields) are refuted with witnesses."
  },
  {
   "property": "C43",
   "status": "proved",
   "theorems": [
    "C43_sound",
    "C43_searches_claim",
    "C43_exact_halving",
    "C43_exact_branchless",
    "C43_recognized",
    "C43_refuted",
    "C43_code_pages"
   ],
   "note": "Soundness for any search; exact result for the two binary searches of the standard library (the result on an unsorted table is not documented); completeness refuted; code pages exact."
  },
  {
   "property": "C44",
   "status": "proved",
   "theorems": [
    "C44_every_object_where_its_offset_says",
    "C44_small_objects_written",
    "C44_written_iff",
    "C44_read_back",
    "C44_every_arrangement_read"
   ],
   "note": "Generic objects (bytes, offsets, embedded parts). Reading with 16-bit offsets, or tables below 65536 bytes: the reader rejects 32-bit offsets above 65535."
  },
  {
   "property": "C45",
   "status": "proved",
   "theorems": [
    "C45_written",
    "C45_every_encoding_read",
    "C45_other_panics",
    "C45_roundtrip_iff",
    "C45_sign_boundary_refuted"
   ],
   "note": "see DESIGN.md section 5 for where the code deviates from a plain round trip"
  },
  {
   "property": "C46",
   "status": "proved",
   "theorems": [
    "C46_written",
    "C46_every_encoding_read",
    "C46_roundtrip"
   ],
   "note": "see DESIGN.md section 5 for where the code deviates from a plain round trip"
  },
  {
   "property": "C47",
   "status": "proved",
   "theorems": [
    "C47_written",
    "C47_every_encoding_read",
    "C47_roundtrip",
    "C47_empty_panics",
    "C47_order_refuted",
    "C47_duplicate_refuted"
   ],
   "note": "see DESIGN.md section 5 for where the code deviates from a plain round trip"
  },
  {
   "property": "C48",
   "status": "proved",
   "theorems": [
    "C48_single_written",
    "C48_single_written_iff",
    "C48_single_every_encoding_read",
    "C48_single_roundtrip",
    "C48_pair_written",
    "C48_pair_every_encoding_read",
    "C48_pair_zeros",
    "C48_pair_roundtrip",
    "C48_class_adjusts",
    "C48_class_pairs_determined",
    "C48_empty_refuted",
    "C48_single_devices_refuted",
    "C48_null_devices_refuted",
    "C48_zero_kern_refuted",
    "C48_class_coverage_refuted",
    "C48_pair_devices_refuted"
   ],
   "note": "Both directions against an independent format relation; written-iff; failing maps by witnesses (zero kern, device fields, coverage of class pairs)."
  },
  {
   "property": "C49",
   "status": "proved",
   "theorems": [
    "C49_chained_written",
    "C49_chained_roundtrip",
    "C49_unchained_written_iff",
    "C49_context3_read",
    "C49_chained3_read",
    "C49_context1_read",
    "C49_chained1_read",
    "C49_context2_read",
    "C49_chained2_read",
    "C49_coverage_refuted"
   ],
   "note": "see DESIGN.md section 5 for where the code deviates from a plain round trip"
  },
  {
   "property": "C50",
   "status": "proved",
   "theorems": [
    "C50_cursive_written",
    "C50_cursive_every_encoding_read",
    "C50_cursive_roundtrip",
    "C50_marks_written",
    "C50_marks_every_encoding_read",
    "C50_marks_roundtrip",
    "C50_marks_written_iff",
    "C50_ligature_written",
    "C50_ligature_every_encoding_read",
    "C50_ligature_roundtrip",
    "C50_two_ligatures_refuted",
    "C50_class_65535_refuted",
    "C50_null_anchor_refuted"
   ],
   "note": "Cursive, mark-to-base, mark-to-mark complete; mark-to-ligature read for at most one ligature, refuted beyond."
  },
  {
   "property": "C51",
   "status": "proved",
   "theorems": [
    "C51_scripts_written",
    "C51_scripts_every_encoding_read",
    "C51_scripts_roundtrip",
    "C51_scripts_unique",
    "C51_langsys_kept_iff",
    "C51_features_written",
    "C51_features_every_encoding_read",
    "C51_features_roundtrip",
    "C51_null_panics",
    "C51_required_refuted",
    "C51_truncated_refuted",
    "C51_parameters_refuted"
   ],
   "note": "script lists: written, every encoding read, round trip, uniqueness; language systems kept iff in range; features without parameters; null offsets panic"
  },
  {
   "property": "C52",
   "status": "proved",
   "theorems": [
    "C52_total",
    "C52_simple",
    "C52_composite",
    "C52_metrics_refuted"
   ],
   "note": "Use-my-metrics composites refuted."
  },
  {
   "property": "C53",
   "status": "proved",
   "theorems": [
    "C53_node",
    "C53_no_nodes",
    "C53_outside",
    "C53_between",
    "C53_aborts_iff",
    "C53_range",
    "C53_monotone",
    "C53_normalize_user",
    "C53_normalize_user_monotone",
    "C53_normalize_no_map",
    "C53_normalize_design",
    "C53_normalize_design_monotone",
    "C53_location",
    "C53_default_refuted",
    "C53_segments_abort",
    "C53_segments_ok",
    "C53_segments_no_map"
   ],
   "note": "Both conversions, both normalizations and the segment map; the default-normalizes-to-0 claim is refuted and the abort characterised. Positions and outputs of ordinary size (see SDesign) where exactness or monotonicity is claimed."
  },
  {
   "property": "C54",
   "status": "proved",
   "theorems": [
    "C54_int_list_to_num",
    "C54_int_list_to_num_panics",
    "C54_filtered_bitset",
    "C54_all_the_same"
   ],
   "note": "Bit i set iff i listed, for both helpers; panic case characterised."
  },
  {
   "property": "C55",
   "status": "proved",
   "theorems": [
    "C55_roundtrip_iff",
    "C55_written_follows_format",
    "C55_every_encoding_read",
    "C55_regions"
   ],
   "note": "Round trip iff rectangular; every word/byte column split read; region list."
  },
  {
   "property": "C56",
   "status": "proved",
   "theorems": [
    "C56_remove_implied",
    "C56_insert_remove",
    "C56_remove_insert_refuted"
   ],
   "note": "The converse order (remove then insert) is refuted at the seam."
  },
  {
   "property": "C57",
   "status": "proved",
   "theorems": [
    "C57_maxp_statistics",
    "C57_cycle_refuted"
   ],
   "note": "Cyclic composites abort (refuted)."
  },
  {
   "property": "C58",
   "status": "proved",
   "theorems": [
    "C58_gvar_coords"
   ],
   "note": ""
  },
  {
   "property": "C59",
   "status": "proved",
   "theorems": [
    "C59_maxp_required",
    "C59_unsavable",
    "C59_savable",
    "C59_savable_exactly",
    "C59_savable_glyf_exactly"
   ],
   "note": "necessary and sufficient conditions"
  },
  {
   "property": "C60",
   "status": "proved",
   "theorems": [
    "C60_written",
    "C60_every_encoding_read",
    "C60_roundtrip"
   ],
   "note": "see DESIGN.md section 5 for where the code deviates from a plain round trip"
  },
  {
   "property": "C61",
   "status": "proved",
   "theorems": [
    "C61_written",
    "C61_written_iff",
    "C61_every_encoding_read",
    "C61_roundtrip",
    "C61_settles",
    "C61_break",
    "C61_mixed_extensions",
    "C61_unchained_not_written",
    "C61_extension_refuted"
   ],
   "note": "whole GSUB table, generic over subtables; includes extension subtables on reading (offsets below 65536)"
  },
  {
   "property": "C62",
   "status": "proved",
   "theorems": [
    "C62_written",
    "C62_written_iff",
    "C62_every_encoding_read",
    "C62_roundtrip",
    "C62_marks_on_marks_never_read",
    "C62_break",
    "C62_mixed_extensions",
    "C62_break_not_written",
    "C62_marks_on_marks_refuted",
    "C62_extension_refuted"
   ],
   "note": "All lookup types against an independent format relation, in any arrangement; types the code cannot read shown by theorems."
  },
  {
   "property": "C63",
   "status": "proved",
   "theorems": [
    "C63_roundtrip",
    "C63_writes",
    "C63_optimizing",
    "C63_small_glyphs",
    "C63_laid_out",
    "C63_read",
    "C63_short_offsets_abort",
    "C63_most_glyphs_abort",
    "C63_nothing_aborts",
    "C63_single_location_refuted",
    "C63_implied_region_refuted",
    "C63_bad_index_refuted",
    "C63_many_points_refuted",
    "C63_many_peaks_refuted"
   ],
   "note": "Rests on C24-C28. Regions that are a single location, more than 4096 peaks, single delta sets keeping 128 points after optimizing are excluded by hypotheses, each with a _refuted theorem."
  },
  {
   "property": "C64",
   "status": "proved",
   "theorems": [
    "C64_written",
    "C64_every_encoding_read",
    "C64_roundtrip_iff",
    "C64_read_has_shape",
    "C64_wide_coordinate_aborts",
    "C64_far_regions_abort",
    "C64_missing_axis_refuted",
    "C64_null_offset_refuted"
   ],
   "note": "exact characterisation of the stores that survive"
  },
  {
   "property": "C65",
   "status": "proved",
   "theorems": [
    "C65_written_iff",
    "C65_every_encoding_read",
    "C65_roundtrip",
    "C65_roundtrip_iff",
    "C65_unclassified_become_bases",
    "C65_device_caret_never_written",
    "C65_mark_sets_refuted",
    "C65_variation_store_refuted",
    "C65_caret_device_refuted",
    "C65_null_attach_coverage_refuted"
   ],
   "note": "exact characterisation of the tables that survive; what does not is refuted by witnesses"
  },
  {
   "property": "C66",
   "status": "proved",
   "theorems": [
    "C66_read_iff",
    "C66_saved_iff",
    "C66_written",
    "C66_roundtrip",
    "C66_roundtrip_iff",
    "C66_axis_size_refuted",
    "C66_no_axis_aborts"
   ],
   "note": "reading characterised by an iff; saving and round trip by iffs"
  },
  {
   "property": "C67",
   "status": "proved",
   "theorems": [
    "C67_instance",
    "C67_when",
    "C67_default_refuted"
   ],
   "note": "Exact rational meaning with explicit error bounds; success characterised for proper fonts; the expectation that the default location gives the default outlines is refuted."
  },
  {
   "property": "C68",
   "status": "proved",
   "theorems": [
    "C68_axes",
    "C68_styles",
    "C68_maps",
    "C68_some_axes",
    "C68_ranges"
   ],
   "note": "Described relationally; values that binary32 cannot tell apart from the fixed ones are excluded by hypothesis."
  },
  {
   "property": "C69",
   "status": "proved",
   "theorems": [
    "C69_read",
    "C69_opentype",
    "C69_unambiguous",
    "C69_constants_needed",
    "C69_italics_refuted"
   ],
   "note": "Reading only: saving a loaded MATH table is unimplemented in the code. C69_italics_refuted records the wrong base of inner offsets."
  },
  {
   "property": "C70",
   "status": "proved",
   "theorems": [
    "C70_add",
    "C70_names",
    "C70_add_iff",
    "C70_no_names",
    "C70_bad_tag",
    "C70_first_id",
    "C70_location",
    "C70_source",
    "C70_default_master",
    "C70_empty_location",
    "C70_missing_refuted",
    "C70_instance_refuted",
    "C70_model",
    "C70_origin",
    "C70_origin_refuted"
   ],
   "note": "Parsing of the XML is not modelled; the document is what the reader returns. The other tables of the font are untouched by C13."
  },
  {
   "property": "C71",
   "status": "proved",
   "theorems": [
    "C71_fix_works",
    "C71_fix_result",
    "C71_dsig_works",
    "C71_dsig_result",
    "C71_hint_works",
    "C71_hint_result",
    "C71_optimize",
    "C71_flatten",
    "C71_flatten_outlines",
    "C71_flatten_metrics",
    "C71_in_place",
    "C71_metrics_refuted",
    "C71_in_place_refuted"
   ],
   "note": "fix-checksum, add-minimal-dsig, fix-non-hinted: works-iff, result and idempotence; optimize-gvar and flatten-components: which tables change and how; metrics and in-place counterexamples (refuted theorems). Output below 4 GiB."
  },
  {
   "property": "C72",
   "status": "proved",
   "theorems": [
    "C72_rename",
    "C72_checksum",
    "C72_read_back",
    "C72_drop_refuted",
    "C72_one_name",
    "C72_one_character",
    "C72_distinct",
    "C72_determined",
    "C72_again",
    "C72_clash_refuted",
    "C72_few_names"
   ],
   "note": "Names relational to the cmap of the file; read-back iff the names fit; drop-names and name clashes refuted."
  },
  {
   "property": "C73",
   "status": "proved",
   "theorems": [
    "C73_converts",
    "C73_outline",
    "C73_contour",
    "C73_round_trip",
    "C73_identity_refuted",
    "C73_off_start_refuted",
    "C73_fraction_refuted"
   ],
   "note": "round trip refuted; theorems characterise what conversion gives"
  },
  {
   "property": "C74",
   "status": "proved",
   "theorems": [
    "C74_breaks",
    "C74_chosen",
    "C74_crossing",
    "C74_nearest_refuted"
   ],
   "note": "for all error measures; run sampling (numerical integration) is a parameter"
  },
  {
   "property": "C75",
   "status": "proved",
   "theorems": [
    "C75_corners",
    "C75_contour",
    "C75_covers",
    "C75_polygon_reversed",
    "C75_direction_refuted",
    "C75_curve_lost_refuted",
    "C75_glyphs",
    "C75_variable",
    "C75_font",
    "C75_outlines"
   ],
   "note": "segment_sp, crunch_contour, crunch_glyph and main of fontcrunch; fitting is a parameter here (C74), so is hypot, assumed accurate to 2^-20"
  },
  {
   "property": "C76",
   "status": "proved",
   "theorems": [
    "C76_number",
    "C76_float",
    "C76_close",
    "C76_whole",
    "C76_exact",
    "C76_large",
    "C76_infinity",
    "C76_nan",
    "C76_limit",
    "C76_written",
    "C76_message",
    "C76_order"
   ],
   "note": "Regular expression and f32 parser modelled by their documented grammars on bytes; saving the font is that of C71."
  },
  {
   "property": "C77",
   "status": "proved",
   "theorems": [
    "C77_left_alone",
    "C77_works",
    "C77_glyph",
    "C77_drawn",
    "C77_points",
    "C77_same",
    "C77_font",
    "C77_outlines",
    "C77_off_start_refuted",
    "C77_fraction_refuted",
    "C77_cubic_refuted"
   ],
   "note": "Contours starting off the curve, fractions and cubic curves: refuted beside the theorems."
  },
  {
   "property": "C78",
   "status": "proved",
   "theorems": [
    "C78_language",
    "C78_otherwise",
    "C78_unambiguous",
    "C78_arguments_refuted",
    "C78_library"
   ],
   "note": "iff between acceptance and an independent grammar; arguments after the first token are ignored (refuted as a finding)"
  },
  {
   "property": "C79",
   "status": "proved",
   "theorems": [
    "C79_plain",
    "C79_written",
    "C79_roundtrip",
    "C79_small",
    "C79_target",
    "C79_part",
    "C79_library",
    "C79_library_roundtrip",
    "C79_unmarked_refuted",
    "C79_marked_twice_refuted",
    "C79_marked_late_refuted",
    "C79_feature_variations_refuted",
    "C79_gdef12_refuted"
   ],
   "note": "for all declarations, relative to hand-written codecs being right; the library's exceptions listed and refuted"
  },
  {
   "property": "C80",
   "status": "proved",
   "theorems": [
    "C80_tag",
    "C80_from_raw",
    "C80_broken_lines",
    "C80_plain",
    "C80_valid",
    "C80_other",
    "C80_quotes_refuted",
    "C80_backslash_refuted",
    "C80_blank_refuted"
   ],
   "note": "iff for literals on one line; broken lines in the positive direction, with the counterexample"
  },
  {
   "property": "C81",
   "status": "proved",
   "theorems": [
    "C81_works",
    "C81_dump",
    "C81_load",
    "C81_distinct",
    "C81_every_glyph",
    "C81_collision_refuted",
    "C81_constructions_refuted"
   ],
   "note": "dump characterised for every file; constructions and colliding names are lost (refutations)"
  },
  {
   "property": "C82",
   "status": "proved",
   "theorems": [
    "C82_edited_saved",
    "C82_layout_saved",
    "C82_loads",
    "C82_names",
    "C82_kind",
    "C82_type",
    "C82_survives",
    "C82_rules_survive",
    "C82_glyphs_survive",
    "C82_history"
   ],
   "note": "For every history and every value the formats can express (Spec/SWhole.v keepable). Edited hmtx, gvar and MATH cannot be saved (C59)."
  },
  {
   "property": "C83",
   "status": "proved",
   "theorems": [
    "C83_calm",
    "C83_head",
    "C83_fvar",
    "C83_name",
    "C83_post",
    "C83_hmtx",
    "C83_loca",
    "C83_derived",
    "C83_wide",
    "C83_library"
   ],
   "note": "for the tables named in the statement; cmap, glyf, gvar, GDEF, MATH, GSUB and GPOS are outside"
  },
  {
   "property": "C84",
   "status": "proved",
   "theorems": [
    "C84_coverage",
    "C84_classes",
    "C84_device",
    "C84_ligature",
    "C84_rule",
    "C84_chained_rule",
    "C84_format0",
    "C84_format4",
    "C84_format12",
    "C84_format14",
    "C84_cmap"
   ],
   "note": "Exact iff for every reader listed; cmap as a whole table through the table set."
  },
  {
   "property": "C85",
   "status": "proved",
   "theorems": [
    "C85_glyph",
    "C85_glyf",
    "C85_lookup"
   ],
   "note": "iff for every byte sequence and position, for single glyphs, the glyf table and its lookup with known positions"
  },
  {
   "property": "C86",
   "status": "proved",
   "theorems": [
    "C86_aborts",
    "C86_opens",
    "C86_finds"
   ],
   "note": "exact conditions for abort, success (and so refusal), and what is found afterwards"
  },
  {
   "property": "C87",
   "status": "proved",
   "theorems": [
    "C87_points",
    "C87_deltas",
    "C87_variations"
   ],
   "note": "iff for every byte sequence and position"
  },
  {
   "property": "C88",
   "status": "proved",
   "theorems": [
    "C88_lookups",
    "C88_edits_elsewhere",
    "C88_all_ok",
    "C88_all_err",
    "C88_all_panic",
    "C88_all_loaded"
   ],
   "note": "all histories of lookups and unrelated edits; exact outcome of loading everything"
  },
  {
   "property": "C89",
   "status": "proved",
   "theorems": [
    "C89_gvar",
    "C89_lookup"
   ],
   "note": "every sequence of bytes, both directions; the inference of deltas enters through the function of C27"
  },
  {
   "property": "C90",
   "status": "proved",
   "theorems": [
    "C90_tags",
    "C90_accessors",
    "C90_same_effect"
   ],
   "note": "all 22 accessors: six by name, the others by membership of their tag"
  },
  {
   "property": "C91",
   "status": "proved",
   "theorems": [
    "C91_lookups_abort",
    "C91_loads"
   ],
   "note": "all tables but GDEF, MATH, GSUB and GPOS"
  }
 ]
}