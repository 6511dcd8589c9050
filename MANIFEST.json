{
 "claims": [
  {
   "property": "C01",
   "status": "proved",
   "theorems": [
    "C01_block_decomposition_partition"
   ],
   "note": ""
  },
  {
   "property": "C02",
   "status": "proved",
   "theorems": [
    "C02_block_decomposition_balanced"
   ],
   "note": ""
  },
  {
   "property": "C03",
   "status": "proved",
   "theorems": [
    "C03_location_finds_owner",
    "C03_location_inverts_decomposition"
   ],
   "note": ""
  },
  {
   "property": "C04",
   "status": "partial",
   "theorems": [
    "C04_blockDecomp_partition_aligned",
    "C04_blockDecomp_refuted"
   ],
   "note": "Refuted in general: the block count wraps when the range is smaller than its first plus last partial block; proved under that guard."
  },
  {
   "property": "C05",
   "status": "proved",
   "theorems": [
    "C05_msb_first",
    "C05_decode_encode",
    "C05_encode_decode"
   ],
   "note": ""
  },
  {
   "property": "C06",
   "status": "partial",
   "theorems": [
    "C06_exact_in_normal_range",
    "C06_unnormalised_refuted"
   ],
   "note": "Refuted for unnormalised fractions (46 00 00 01); proved exact for every normalised pattern in the normal range. Uses the axioms of the standard library's Reals."
  },
  {
   "property": "C07",
   "status": "partial",
   "theorems": [
    "C07_overflow_to_infinity",
    "C07_subnormal_rounding_partial",
    "C07_zero_becomes_half_refuted"
   ],
   "note": "Refuted for zero: every IBM zero becomes 0.5. Overflow and rounding proved for every normalised pattern of magnitude at least 2^-157 (below that the code has undefined behaviour, C08)."
  },
  {
   "property": "C08",
   "status": "partial",
   "theorems": [
    "C08_every_pattern_refuted",
    "C08_byte_order_flag",
    "C08_to_float_carry_refuted"
   ],
   "note": "Refuted: shift by 32 or more for tiny normalised values; to_float drops a rounding carry."
  },
  {
   "property": "C09",
   "status": "partial",
   "theorems": [
    "C09_ibm_read_refuted",
    "C09_three_bits_refuted",
    "C09_always_half_refuted",
    "C09_half_partial"
   ],
   "note": "Refuted: IBM samples are first read as IEEE, widened to double and the low half of the double converted; 1.0 is read as 0.5 (C09_ibm_read_refuted) and only the lowest three bits of the stored number matter (C09_three_bits_refuted). C09_always_half_refuted: every sample that a read of an IBM file returns is 0.5, whatever the file holds. C09_half_partial: a file of which every sample read is 0.5 is read correctly. Missing: every other sample."
  },
  {
   "property": "C10",
   "status": "proved",
   "theorems": [
    "C10_round_trip",
    "C10_repertoire",
    "C10_injective"
   ],
   "note": ""
  },
  {
   "property": "C11",
   "status": "partial",
   "theorems": [
    "C11_unmapped_to_SUB_refuted",
    "C11_never_SUB"
   ],
   "note": "Refuted: lower_bound result used without an equality test, so the next table entry is returned."
  },
  {
   "property": "C12",
   "status": "partial",
   "theorems": [
    "C12_text_round_trip_partial",
    "C12_long_text_is_truncated",
    "C12_no_text_reads_NUL",
    "C12_ebcdic_header_decoded",
    "C12_text_round_trip_refuted"
   ],
   "note": "Refuted for texts whose printable ASCII bytes are all printable EBCDIC bytes too (such as lower-case words); proved when ASCII-printable bytes outnumber EBCDIC-printable ones."
  },
  {
   "property": "C13",
   "status": "proved",
   "theorems": [
    "C13_regions_tile_the_file",
    "C13_regions_inside_the_file"
   ],
   "note": ""
  },
  {
   "property": "C14",
   "status": "proved",
   "theorems": [
    "C14_nt_recovered_from_size"
   ],
   "note": ""
  },
  {
   "property": "C15",
   "status": "partial",
   "theorems": [
    "C15_open_small_ns_partial",
    "C15_open_any_file_refuted"
   ],
   "note": "Refuted for header values of 32768 and more (sign extension, division by zero at 65476); proved for values below 32768."
  },
  {
   "property": "C16",
   "status": "proved",
   "theorems": [
    "C16_contiguous_read"
   ],
   "note": ""
  },
  {
   "property": "C17",
   "status": "proved",
   "theorems": [
    "C17_contiguous_write"
   ],
   "note": ""
  },
  {
   "property": "C18",
   "status": "proved",
   "theorems": [
    "C18_strided_read",
    "C18_strided_write",
    "C18_strided_is_separate_accesses"
   ],
   "note": ""
  },
  {
   "property": "C19",
   "status": "proved",
   "theorems": [
    "C19_list_read",
    "C19_list_write",
    "C19_list_is_separate_accesses"
   ],
   "note": ""
  },
  {
   "property": "C20",
   "status": "proved",
   "theorems": [
    "C20_contiguous_calls_match",
    "C20_strided_calls_match",
    "C20_list_calls_match"
   ],
   "note": ""
  },
  {
   "property": "C21",
   "status": "proved",
   "theorems": [
    "C21_call_sizes"
   ],
   "note": ""
  },
  {
   "property": "C22",
   "status": "partial",
   "theorems": [
    "C22_contiguous_errors_logged_partial",
    "C22_list_errors_lost_refuted"
   ],
   "note": "Refuted for list-based transfers (the code of the transfer is overwritten); contiguous and strided transfers report."
  },
  {
   "property": "C23",
   "status": "proved",
   "theorems": [
    "C23_range_equals_list"
   ],
   "note": ""
  },
  {
   "property": "C24",
   "status": "proved",
   "theorems": [
    "C24_full_read_is_headers_and_samples",
    "C24_full_write_is_headers_and_samples",
    "C24_separate_writes"
   ],
   "note": ""
  },
  {
   "property": "C25",
   "status": "partial",
   "theorems": [
    "C25_dense_slots",
    "C25_copy_name_refuted"
   ],
   "note": "Refuted when the COPY name is given to a typed entry (the slot count of COPY goes stale); proved for every reachable rule otherwise."
  },
  {
   "property": "C26",
   "status": "proved",
   "theorems": [
    "C26_add",
    "C26_remove",
    "C26_add_whole_rule"
   ],
   "note": ""
  },
  {
   "property": "C27",
   "status": "proved",
   "theorems": [
    "C27_fields_disjoint"
   ],
   "note": ""
  },
  {
   "property": "C28",
   "status": "partial",
   "theorems": [
    "C28_extent_spans_fields",
    "C28_off_by_one_partial",
    "C28_stale_start_refuted",
    "C28_full_extent_partial",
    "C28_partial_extent_refuted",
    "C28_copy_extent_refuted"
   ],
   "note": "Refuted for rules that do not span the whole header: every field lands one byte before its place (C28_partial_extent_refuted; C28_off_by_one_partial shows that with an up-to-date extent this is all that goes wrong), with COPY the fields of the second trace go into the first header, and a rule extended after its extent was worked out writes from the old start. Proved: for full rules nothing outside the headers is touched; for every history of a rule without COPY the extent spans exactly its fields."
  },
  {
   "property": "C29",
   "status": "proved",
   "theorems": [
    "C29_set_get",
    "C29_get_in_bounds"
   ],
   "note": ""
  },
  {
   "property": "C30",
   "status": "proved",
   "theorems": [
    "C30_same_rule",
    "C30_different_rules"
   ],
   "note": ""
  },
  {
   "property": "C31",
   "status": "proved",
   "theorems": [
    "C31_integer_round_trip",
    "C31_write_succeeds"
   ],
   "note": ""
  },
  {
   "property": "C32",
   "status": "partial",
   "theorems": [
    "C32_read_back_partial",
    "C32_wide_value_refuted"
   ],
   "note": "Refuted: a value wider than its field is stored modulo 2^32 (2^16) without any report (C32_wide_value_refuted). C32_read_back_partial: for every value, what is read back is the value of the field's range congruent to it modulo 2^32 (2^16), and it is the value written exactly when that fits. Missing: a report of the loss."
  },
  {
   "property": "C33",
   "status": "proved",
   "theorems": [
    "C33_order_independent"
   ],
   "note": ""
  },
  {
   "property": "C34",
   "status": "proved",
   "theorems": [
    "C34_coordinate_precision"
   ],
   "note": ""
  },
  {
   "property": "C35",
   "status": "partial",
   "theorems": [
    "C35_decimals_partial",
    "C35_decimal_refuted",
    "C35_whole_numbers_partial"
   ],
   "note": "Refuted for decimals such as 0.3 (the value read is one unit in the last place off). Proved: whole numbers within 32 bits come back as the same double; coordinates with at most four decimals that fit 32 bits at some common scale come back as the same decimal (within 2^-51, exactly for multiples of a sixteenth), however often they are rewritten. Missing: coordinates with more decimals or too large, where C34 bounds the error."
  },
  {
   "property": "C36",
   "status": "partial",
   "theorems": [
    "C36_common_scale_partial",
    "C36_shared_scale_refuted"
   ],
   "note": "Refuted: one coordinate with many decimals makes another overflow its field. Proved: if all coordinates that share a scale factor have at most four decimals and fit 32 bits at some scale, none is lost."
  },
  {
   "property": "C37",
   "status": "partial",
   "theorems": [
    "C37_uncovered_bytes",
    "C37_whole_header_partial",
    "C37_scale_refuted"
   ],
   "note": "Refuted for the scale factor field of rules with coordinates (0 becomes 1); proved for every byte no other entry covers, and for the whole header when the rule has no coordinates."
  },
  {
   "property": "C38",
   "status": "proved",
   "theorems": [
    "C38_scale_convention"
   ],
   "note": ""
  },
  {
   "property": "C39",
   "status": "partial",
   "theorems": [
    "C39_size_after_close_partial",
    "C39_late_announcement_refuted",
    "C39_idle_rank_refuted"
   ],
   "note": "Refuted when a number of traces is announced after writing (traces are cut off) and when one rank makes no write (collective calls differ); proved when announcements come first and every rank writes."
  },
  {
   "property": "C40",
   "status": "partial",
   "theorems": [
    "C40_header_round_trip_partial",
    "C40_exact_interval_refuted"
   ],
   "note": "Refuted for the interval bit for bit (5 microseconds come back one unit in the last place off); proved: ns, nt and format exact, text exact up to 3200 bytes, interval within a relative 2^-51."
  },
  {
   "property": "C41",
   "status": "partial",
   "theorems": [
    "C41_not_normal_reported_partial",
    "C41_interval_overflow_refuted",
    "C41_interval_underflow_refuted"
   ],
   "note": "Refuted: 40000 and 0.4 microseconds are written as other values without report; proved: intervals that are not normal numbers set the error."
  },
  {
   "property": "C42",
   "status": "proved",
   "theorems": [
    "C42_traces_round_trip"
   ],
   "note": ""
  },
  {
   "property": "C43",
   "status": "proved",
   "theorems": [
    "C43_caller_samples_kept"
   ],
   "note": ""
  },
  {
   "property": "C44",
   "status": "partial",
   "theorems": [
    "C44_clamped_partial",
    "C44_start_beyond_end_refuted"
   ],
   "note": "Refuted when the start lies beyond the end (the size wraps and memory beyond the caller's array is touched); proved when it does not."
  },
  {
   "property": "C45",
   "status": "partial",
   "theorems": [
    "C45_non_monotonic_partial",
    "C45_view_increasing",
    "C45_empty_refuted",
    "C45_no_metadata_refuted"
   ],
   "note": "Refuted for an empty list and for calls without parameter set (both undefined behaviour); proved for every non-empty list, any order, any repetition, whatever permutation the sort returns."
  },
  {
   "property": "C46",
   "status": "partial",
   "theorems": [
    "C46_lists_counted_partial",
    "C46_unsorted_list_refuted"
   ],
   "note": "Refuted for lists that do not end with their largest position ([5; 0] closes as one trace); proved for the others."
  },
  {
   "property": "C47",
   "status": "partial",
   "theorems": [
    "C47_no_samples_before_close_partial",
    "C47_traces_before_close_refuted"
   ],
   "note": "Refuted: traces of zero samples are reported; proved: before close a reader always reports zero samples per trace."
  },
  {
   "property": "C48",
   "status": "partial",
   "theorems": [
    "C48_oversized_rejected",
    "C48_error_keeps_file_partial",
    "C48_one_rank_refuted"
   ],
   "note": "Refuted when one rank alone has an error (the collective calls of closing differ); proved: oversized counts set the error and change nothing, and once all ranks have an error closing changes nothing."
  },
  {
   "property": "C49",
   "status": "proved",
   "theorems": [
    "C49_labels"
   ],
   "note": ""
  },
  {
   "property": "C50",
   "status": "partial",
   "theorems": [
    "C50_orders_compare_keys",
    "C50_distance_exact",
    "C50_orders_total",
    "C50_nan_refuted",
    "C50_negative_offset_refuted"
   ],
   "note": "Refuted for NaN coordinates (std::sort's requirements fail) and for negative stored offsets (read as unsigned: -1 sorts after 5); proved: each order compares the documented keys lexicographically and is total on traces with finite coordinates and distinct local numbers."
  },
  {
   "property": "C51",
   "status": "proved",
   "theorems": [
    "C51_getSortIndex"
   ],
   "note": ""
  },
  {
   "property": "C52",
   "status": "proved",
   "theorems": [
    "C52_sorted_permutation",
    "C52_sorted_by_type"
   ],
   "note": "For every sort function that keeps the contract of std::sort, every number of ranks and every distribution of at least four traces per rank."
  },
  {
   "property": "C53",
   "status": "proved",
   "theorems": [
    "C53_terminates"
   ],
   "note": "For every strict total order and every distribution."
  },
  {
   "property": "C54",
   "status": "partial",
   "theorems": [
    "C54_three_traces_refuted",
    "C54_one_rank_partial"
   ],
   "note": "Refuted: with three traces on each of two ranks nothing moves between the ranks although the workflow accepts it; proved for one rank of any size."
  },
  {
   "property": "C55",
   "status": "partial",
   "theorems": [
    "C55_local_numbers",
    "C55_single_file_numbers",
    "C55_final_places",
    "C55_two_files_refuted"
   ],
   "note": "Refuted for several files of different sizes on several ranks (traces share a global number and their places are mixed up); proved for one file, and whenever the numbers increase in input order."
  },
  {
   "property": "C56",
   "status": "partial",
   "theorems": [
    "C56_local_check_partial",
    "C56_no_false_alarm_partial",
    "C56_rank_border_refuted"
   ],
   "note": "Refuted: disorder at the border between two ranks is not seen; proved: each rank's answer is exact for its own traces and a sorted file is never rejected."
  },
  {
   "property": "C57",
   "status": "proved",
   "theorems": [
    "C57_global_extremes",
    "C57_no_trace"
   ],
   "note": "Values that are not NaN; the search over NaN is not specified by the library."
  },
  {
   "property": "C58",
   "status": "partial",
   "theorems": [
    "C58_ties_partial",
    "C58_ties_refuted"
   ],
   "note": "Refuted: between ranks the second coordinate is not compared ((1,5) on rank 0 wins over (1,2) on rank 1); proved when all traces with the extreme value are on one rank."
  },
  {
   "property": "C59",
   "status": "partial",
   "theorems": [
    "C59_files_partial",
    "C59_negative_refuted",
    "C59_empty_file_refuted"
   ],
   "note": "Refuted when all values are negative (the maximum starts at the smallest positive double) and when a file has no traces (its 0 enters); proved otherwise."
  },
  {
   "property": "C60",
   "status": "partial",
   "theorems": [
    "C60_gathers_partial",
    "C60_split_gather_refuted",
    "C60_reads_behind_refuted",
    "C60_empty_rank_refuted"
   ],
   "note": "Refuted: split gathers are miscounted, a rank without traces and the last rank read outside their arrays; proved for contiguous gathers with traces on every rank, whatever stands behind the array."
  },
  {
   "property": "C61",
   "status": "partial",
   "theorems": [
    "C61_each_gather_once_partial",
    "C61_gather_contents_partial",
    "C61_rounds_agree_partial",
    "C61_processed_twice_refuted",
    "C61_rounds_differ_refuted"
   ],
   "note": "Refuted when the chain has two gather operations (each gather is processed twice and the ranks' collective calls differ); proved for one gather operation."
  },
  {
   "property": "C62",
   "status": "partial",
   "theorems": [
    "C62_shared_array_partial",
    "C62_rank_zero_refuted",
    "C62_window_too_small_refuted",
    "C62_index_at_end_refuted"
   ],
   "note": "Refuted: rank 0 is stopped by an assertion, the windows are too small for elements of more than one byte, the index equal to the size is accepted; proved for one-byte elements and ranks above 0 (or assertions off)."
  },
  {
   "property": "C63",
   "status": "proved",
   "theorems": [
    "C63_concatenation"
   ],
   "note": ""
  },
  {
   "property": "C64",
   "status": "proved",
   "theorems": [
    "C64_every_trace_once",
    "C64_calls_agree",
    "C64_block_size_positive"
   ],
   "note": "Covers the block loop of Set::startSingle; the loops of the 4D utility and of the file maker are separate."
  },
  {
   "property": "C65",
   "status": "partial",
   "theorems": [
    "C65_sort_then_traces_partial",
    "C65_gather_partial",
    "C65_dropped_refuted",
    "C65_twice_refuted",
    "C65_second_gather_refuted",
    "C65_sort_lost_refuted"
   ],
   "note": "Refuted: operations after a single-trace operation are dropped, single-trace operations after a gather operation run twice, the second of two gather operations is skipped, a sort before a gather operation is lost on one file; proved for at most one sort followed by single-trace operations, and for one gather operation."
  },
  {
   "property": "C66",
   "status": "partial",
   "theorems": [
    "C66_names_differ_partial",
    "C66_single_files_refuted"
   ],
   "note": "Refuted for two groups of one file each (same name); proved whenever at most one group has a single file."
  },
  {
   "property": "C67",
   "status": "partial",
   "theorems": [
    "C67_one_inline_partial",
    "C67_one_crossline_partial",
    "C67_grid_refuted",
    "C67_inlines_fastest_refuted",
    "C67_increment_refuted",
    "C67_two_traces_refuted",
    "C67_one_trace_refuted"
   ],
   "note": "Refuted. The count of inlines is derived from the second trace, which on a grid where crosslines run fastest has the same inline as the first, so every regular grid of at least two inlines and two crosslines is opened with no inlines (C67_grid_refuted), and lookups go wrong; grids with inlines fastest, crossline increments other than one, and files of two traces or one trace fail as well. Proved for a single inline with unit increment and for a single crossline."
  },
  {
   "property": "C68",
   "status": "partial",
   "theorems": [
    "C68_taper_depth",
    "C68_taper_partial",
    "C68_between_ramps",
    "C68_debug_partial",
    "C68_debug_refuted",
    "C68_dead_trace_refuted",
    "C68_block"
   ],
   "note": "Refuted for a trace of zeros only (read past its end) and, in debug builds, for a live part no longer than a ramp (the program stops); proved for every other trace, any taper function."
  },
  {
   "property": "C69",
   "status": "proved",
   "theorems": [
    "C69_windows",
    "C69_centre",
    "C69_too_long"
   ],
   "note": "Any gain function, any trace longer than the window; debug builds refuse longer windows."
  },
  {
   "property": "C70",
   "status": "partial",
   "theorems": [
    "C70_rms_partial",
    "C70_mean_abs_partial",
    "C70_mean_abs_refuted",
    "C70_median_odd_partial",
    "C70_median_two_refuted",
    "C70_median_even_refuted",
    "C70_triangular_weights",
    "C70_triangular_one_refuted"
   ],
   "note": "Refuted: even windows take the two values above the middle (windows of two read past the end), mean-abs takes the absolute value of the mean, the triangular gain of a single sample is NaN; proved: median of odd windows, triangular weights, rms and mean of integer samples (rms and mean-abs only where sums are exact)."
  },
  {
   "property": "C71",
   "status": "partial",
   "theorems": [
    "C71_last_refuted",
    "C71_single_refuted",
    "C71_reverse_refuted",
    "C71_documented_refuted",
    "C71_compared_partial",
    "C71_lines_partial",
    "C71_genuine_partial",
    "C71_kept_partial",
    "C71_unlimited_partial"
   ],
   "note": "Refuted. The last trace of file 1 on every process is never compared with anything but the first local trace of file 2 (C71_last_refuted); a process that holds one trace of file 2 makes the others read before the start of an array (C71_single_refuted); traces recorded sailing the other way are pruned by source position although their distance is 0 (C71_reverse_refuted); the distance is not the documented formula and ranks traces differently (C71_documented_refuted). Proved: what is reported is a trace of file 2 with its own distance, nothing above dsrmax is kept, with an infinite limit the nearest trace is found on any distribution, and with a finite one no trace is nearer among those whose sources, with the traces that follow them, are within the limit."
  },
  {
   "property": "C72",
   "status": "proved",
   "theorems": [
    "C72_error_state",
    "C72_sticky",
    "C72_reports_kept",
    "C72_counts"
   ],
   "note": "C72_counts: the number of reports of a severity is that of the reports within the verbosity since the last print-out."
  },
  {
   "property": "C73",
   "status": "partial",
   "theorems": [
    "C73_prefix_sums",
    "C73_ranges_tile",
    "C73_other_communicator_refuted",
    "C73_reductions"
   ],
   "note": "Refuted for communicators other than MPI_COMM_WORLD; proved for MPI_COMM_WORLD while the total stays below 2^64."
  },
  {
   "property": "C74",
   "status": "partial",
   "theorems": [
    "C74_small_partial",
    "C74_naive1_partial",
    "C74_naive2_partial",
    "C74_large_refuted",
    "C74_naive2_short_refuted",
    "C74_standard_short_refuted",
    "C74_standard_partial",
    "C74_standard_large_refuted"
   ],
   "note": "Refuted for files larger than 1 GiB per process: in every copy after the first, the chunks after the first are written 3600 bytes too far on (all three versions). Refuted too for files below 2 MiB on two or more processes (standard and naive2): the number of blocks wraps around and process 0 takes more bytes than the file has. Proved for the single-writer version, for naive1 on files of at most 1 GiB per process, for naive2 if there are also at least two blocks, and for the standard version with its redistribution between neighbours if there are at least three blocks."
  },
  {
   "property": "C75",
   "status": "proved",
   "theorems": [
    "C75_cover"
   ],
   "note": "Proved for any numbers of traces per process that add up to the number of traces: the offsets of all processes together are a permutation of all traces, and each process's are increasing."
  },
  {
   "property": "C76",
   "status": "partial",
   "theorems": [
    "C76_inside_partial",
    "C76_default_odd_partial",
    "C76_default_even_refuted",
    "C76_outside_refuted",
    "C76_next_trace_refuted"
   ],
   "note": "Refuted: centres nearer to an end than half the window are accepted and the window leaves the trace; the default leaves the first sample of traces of even length out; proved whenever the window fits."
  },
  {
   "property": "C77",
   "status": "partial",
   "theorems": [
    "C77_lobdecompose_partition_partial",
    "C77_lobdecompose_refuted"
   ],
   "note": "Refuted in general (7 traces on 7 ranks); proved when rank 0 can absorb the rounding surplus and nt < 2^32."
  },
  {
   "property": "C78",
   "status": "proved",
   "theorems": [
    "C78_metadata_round_trip"
   ],
   "note": ""
  },
  {
   "property": "C79",
   "status": "partial",
   "theorems": [
    "C79_names_partial",
    "C79_no_names_refuted"
   ],
   "note": "Refuted: no names are returned when the chain starts with a sort or a gather operation."
  },
  {
   "property": "C80",
   "status": "partial",
   "theorems": [
    "C80_zero_partial",
    "C80_replicate_refuted",
    "C80_symmetric_refuted",
    "C80_cyclic_refuted",
    "C80_replicate_short_refuted"
   ],
   "note": "Refuted: symmetric and cyclic padding always read outside the window, replication does for short windows and leaves the last three values zero; proved for zero padding."
  },
  {
   "property": "C81",
   "status": "partial",
   "theorems": [
    "C81_low_high_partial",
    "C81_band_refuted"
   ],
   "note": "Refuted for band filters (two corners accepted, four read); proved for low- and high-pass."
  },
  {
   "property": "C82",
   "status": "proved",
   "theorems": [
    "C82_linear_taper"
   ],
   "note": "Linear taper only; the cosine tapers depend on the C library's cos."
  },
  {
   "property": "C83",
   "status": "partial",
   "theorems": [
    "C83_no_fetch_partial",
    "C83_refuted"
   ],
   "note": "Refuted: the windows are created with a length in elements, so an MPI library that checks the bounds lets no fetch through (C83_refuted: a run ends only when no process is active). C83_no_fetch_partial: when no process is within reach nothing is fetched and the matches of the first comparison stand. Missing: every run that fetches."
  },
  {
   "property": "C84",
   "status": "partial",
   "theorems": [
    "C84_samples",
    "C84_contents",
    "C84_keys",
    "C84_random_headers_partial",
    "C84_random_single_partial",
    "C84_random_refuted"
   ],
   "note": "Refuted for the option for random order: a batch's samples are computed as if its traces followed each other (C84_random_refuted). Proved in full for the normal mode; for the random mode headers and numbers, and everything if a batch holds one trace. C84_samples gives the exact value of every sample of files of at most 2^22 samples."
  },
  {
   "property": "C85",
   "status": "proved",
   "theorems": [
    "C85_extremes"
   ],
   "note": ""
  },
  {
   "property": "C86",
   "status": "partial",
   "theorems": [
    "C86_first_pass",
    "C86_second_pass_refuted",
    "C86_limit_refuted",
    "C86_coordinates"
   ],
   "note": "Refuted for the second pass: the number of extra calls is that of the first pass although the batches are smaller, so two processes of one run make different numbers of collective reads (12782641 traces on 2 processes); and the memory limit wraps around above 67108864 traces per process and is divided by zero there. Proved: the first pass agrees; every entry is filled from the right trace."
  },
  {
   "property": "C87",
   "status": "proved",
   "theorems": [
    "C87_outputs_pair_up",
    "C87_calls_agree",
    "C87_batch"
   ],
   "note": ""
  },
  {
   "property": "C88",
   "status": "proved",
   "theorems": [
    "C88_coefficients",
    "C88_bounds",
    "C88_no_root_undefined"
   ],
   "note": "In exact arithmetic, for every non-empty list; C88_no_root_undefined records that the empty list, which no filter needs, is outside the property."
  },
  {
   "property": "C89",
   "status": "proved",
   "theorems": [
    "C89_difference_equation",
    "C89_steady_state",
    "C89_order_zero_undefined"
   ],
   "note": "In exact arithmetic, with uniqueness; C89_order_zero_undefined records that order 0 is outside the property."
  },
  {
   "property": "C90",
   "status": "partial",
   "theorems": [
    "C90_constant_partial",
    "C90_replicate_refuted",
    "C90_symmetric_cyclic_refuted"
   ],
   "note": "Refuted: replicate padding leaves the last three padded values 0, so a constant trace comes out smaller (all numbers exact), and mirrored and cyclic padding read outside the window (C80). Proved: the two passes themselves keep, or remove, a constant padded trace, for every filter makeFilter makes."
  },
  {
   "property": "C91",
   "status": "proved",
   "theorems": [
    "C91_response",
    "C91_ends",
    "C91_half_power"
   ],
   "note": ""
  },
  {
   "property": "C92",
   "status": "proved",
   "theorems": [
    "C92_stable"
   ],
   "note": ""
  },
  {
   "property": "C93",
   "status": "partial",
   "theorems": [
    "C93_inside",
    "C93_order_zero_refuted",
    "C93_band_without_corner_refuted"
   ],
   "note": "Refuted for order 0 and for a band filter whose second corner is 0. Proved: for every other input, in any arithmetic."
  },
  {
   "property": "C94",
   "status": "partial",
   "theorems": [
    "C94_present_partial",
    "C94_histories_partial",
    "C94_copy_partial",
    "C94_absent_refuted"
   ],
   "note": "Refuted: looking up an entry that is not there leaves a null entry, after which it cannot be added, and removing entries, working out the extent and reading or writing headers are undefined. Proved: lookups of entries that are there can be left out of every history."
  },
  {
   "property": "C95",
   "status": "partial",
   "theorems": [
    "C95_added_refuted",
    "C95_other_kinds_partial",
    "C95_removed_refuted"
   ],
   "note": "Refuted: after an entry was added the last trace's value lies outside the arrays, and after one was removed the first trace's value of the next entry is the removed one's. Proved: values of the other kinds are not affected by adding."
  },
  {
   "property": "C96",
   "status": "partial",
   "theorems": [
    "C96_first_rule_partial",
    "C96_one_rule_partial",
    "C96_second_sort_refuted",
    "C96_check_refuted",
    "C96_flush",
    "C96_flush_unknown_refuted"
   ],
   "note": "Refuted: a later sort of the same files is given what the first one's rule named, and what it needs beyond that is undefined; the cache never reports what it holds. Proved: every answer is that of the first rule, hence right if one rule is used. C96_flush: flushing makes the next request read again; flushing files never asked for is undefined (C96_flush_unknown_refuted)."
  },
  {
   "property": "C97",
   "status": "partial",
   "theorems": [
    "C97_hand_out",
    "C97_refused_refuted"
   ],
   "note": "Refuted: a refused sort leaves an empty list that every rank with traces reads. Proved: otherwise the list is cut into the files' positions completely."
  },
  {
   "property": "C98",
   "status": "partial",
   "theorems": [
    "C98_own_model_partial",
    "C98_short_model_refuted",
    "C98_last_gather_refuted"
   ],
   "note": "Refuted: with a model shorter than the data the next gather's first velocity is used, and the last gather of a rank reads past the model. Proved: with a model as long as the data."
  },
  {
   "property": "C99",
   "status": "partial",
   "theorems": [
    "C99_text_partial",
    "C99_text_refuted"
   ],
   "note": "Refuted: fractions below a tenth lose their leading zeros (51.0625 is written as 51.625) and negative coordinates get the wrong whole part (-0.5 is written as -1.5). Proved: for coordinates from 0 to 2^52 whose fraction is 0 or at least a tenth."
  },
  {
   "property": "C100",
   "status": "partial",
   "theorems": [
    "C100_zone_partial",
    "C100_degrees_refuted"
   ],
   "note": "Refuted: coordinates in degrees are written latitude first, for every file. Proved: with a zone and coordinates above 180 the order is right. The formula of the conversion is a parameter."
  },
  {
   "property": "C101",
   "status": "proved",
   "theorems": [
    "C101_creadwrite_runs",
    "C101_creadwrite_copies"
   ],
   "note": "C101_creadwrite_runs: every process runs to the end with the same number of calls. C101_creadwrite_copies: the output file, for any interleaving. The text is reproduced if it has no inner zero characters and more ASCII than EBCDIC letters. The -t option, which changes samples, is not modelled."
  },
  {
   "property": "C102",
   "status": "partial",
   "theorems": [
    "C102_small_memory_refuted",
    "C102_zero_interval_refuted",
    "C102_process_count_refuted",
    "C102_debug_build_refuted",
    "C102_source_partial",
    "C102_options_refuted",
    "C102_plain_options"
   ],
   "note": "Refuted five ways: memory limit below one trace (division by zero), interval field 0 (error on writing), -p (source position taken from the start of the block), build with assertions (empty calls), the options -p and -t themselves (strlen of a null pointer, C102_options_refuted; C102_plain_options for the others). C102_source_partial: what -p writes, for every file without scaled coordinates: 1600 and 2400 plus the first trace of the block, everything else copied. Missing: -p on scaled coordinates."
  },
  {
   "property": "C103",
   "status": "proved",
   "theorems": [
    "C103_rearranged",
    "C103_concatenation"
   ],
   "note": "C103_rearranged: any positions that fill the output (also those a sort assigns). C103_concatenation: the positions given by adding files. Traces with four-byte IEEE samples; the text header of the output is the message of the set and not part of the claim."
  },
  {
   "property": "C104",
   "status": "proved",
   "theorems": [
    "C104_first_key",
    "C104_output_order",
    "C104_sorted_file"
   ],
   "note": "C104_sorted_file; C104_first_key and C104_output_order for any mix of scales: the first key is in exact ascending order in the input's numbers and in those of the output. With fewer than three traces on a process Set::sort reads past the end of an empty list (C54), and with two or more files the global numbers of the cache collide (C55_two_files), so the claim is about one file and four traces per process."
  },
  {
   "property": "C105",
   "status": "partial",
   "theorems": [
    "C105_operations",
    "C105_taper_partial",
    "C105_dead_trace_refuted"
   ],
   "note": "Refuted for a taper when some trace is zero throughout: the process that has it reads outside the trace. Proved for every chain of operations that is defined on all traces, and for the taper when every trace has a non-zero sample. NaN results are all one word."
  },
  {
   "property": "C106",
   "status": "proved",
   "theorems": [
    "C106_memory_limit"
   ],
   "note": "The events are the vectors whose length depends on traces, samples or processes; memory inside MPI, objects of fixed size and the lists of traces of the files are not counted."
  },
  {
   "property": "C107",
   "status": "partial",
   "theorems": [
    "C107_create_runs",
    "C107_created",
    "C107_exact_small",
    "C107_distinct_refuted"
   ],
   "note": "Refuted in its last sentence (C107_distinct_refuted): trace 2^24+1 has the coordinates of trace 2^24 because the trace number is a float. C107_created gives the whole file for all sizes, C107_exact_small without rounding below 2^24, C107_create_runs that the program never leaves defined behaviour."
  },
  {
   "property": "C108",
   "status": "proved",
   "theorems": [
    "C108_modprm_runs",
    "C108_modprm_swaps"
   ],
   "note": "The memory limit is the constant of the program. Coordinates as in C101: when the scale of the input is one of the standard ones that do not enlarge."
  },
  {
   "property": "C109",
   "status": "partial",
   "theorems": [
    "C109_linear_partial",
    "C109_single_trace_blocks",
    "C109_linear_refuted"
   ],
   "note": "Refuted: the loop advances by one sample, not by one trace (C109_linear_refuted). C109_linear_partial: the value of every sample, and that the headers are copied; C109_single_trace_blocks: the claim holds when a block is one trace."
  },
  {
   "property": "C110",
   "status": "partial",
   "theorems": [
    "C110_owned",
    "C110_no_leak",
    "C110_values",
    "C110_copy_refuted",
    "C110_stale_copy_refuted",
    "C110_copy_name_refuted"
   ],
   "note": "Refuted for copies: the class keeps the implicit copy constructor, so destroying any rule with entries and then its copy frees entries twice (C110_copy_refuted, for every state), and a copy is left with dangling pointers when the other changes (C110_stale_copy_refuted); an entry that is not the copy entry but has its name is leaked (C110_copy_name_refuted). Proved for all programs that do neither: C110_owned (no use after free, every entry has one owner), C110_no_leak, C110_values (the pointer program computes the rules of RuleModel, on which C25-C28 rest)."
  },
  {
   "property": "C111",
   "status": "partial",
   "theorems": [
    "C111_from_map",
    "C111_numbers_refuted"
   ],
   "note": "Refuted for numbers that clash (C111_numbers_refuted): the constructor does not number the entries. C111_from_map: every value has its own slot, also after any later calls, exactly when the numbers of each type are 0, 1, 2, ... in some order."
  },
  {
   "property": "C112",
   "status": "partial",
   "theorems": [
    "C112_runs",
    "C112_created_partial",
    "C112_reads_back_refuted"
   ],
   "note": "Refuted: the C version takes the interval as an integer, so every interval below a second becomes 0, which the writer refuses; with the error set, closing writes no header, and a file made anew reads back with no samples and a trace for every 240 bytes (C112_reads_back_refuted, for all arguments). Proved: the traces themselves are written as promised, nothing before byte 3600 is touched, every process ends with the error (C112_created_partial; missing: the header)."
  },
  {
   "property": "C113",
   "status": "partial",
   "theorems": [
    "C113_written_partial",
    "C113_square_copied",
    "C113_transposed_refuted",
    "C113_overrun_refuted",
    "C113_many_traces_refuted"
   ],
   "note": "Refuted: the example announces the number of traces as the number of samples and the reverse. With fewer traces than samples the copy has the sizes exchanged (C113_transposed_refuted), with more it writes from beyond the array of samples (C113_overrun_refuted), with more than 32767 no header is written (C113_many_traces_refuted), each for all such files and any number of processes. Proved: what is written instead (C113_written_partial; missing: the samples in their places); the claim holds when there are as many traces as samples (C113_square_copied)."
  },
  {
   "property": "C114",
   "status": "partial",
   "theorems": [
    "C114_runs",
    "C114_created_partial",
    "C114_interval_refuted"
   ],
   "note": "Refuted: the interval 4.0 is taken as seconds, that is 4000000 microseconds, which stored in 16 bits is 2304, so the file announces 2.304 ms (C114_interval_refuted, for every number of processes and interleaving, for both programs). Proved: 40000 traces of 1000 samples with the promised headers, text and samples (C114_created_partial; missing: the interval)."
  },
  {
   "property": "C115",
   "status": "partial",
   "theorems": [
    "C115_own_traces",
    "C115_every_file_refuted",
    "C115_sorted_accepted_partial",
    "C115_fraction_refuted"
   ],
   "note": "Refuted: four traces, two of them at 0.30 with scale -100; the writer stores 3 tenths in one header and 30 hundredths in the other, which read back as different doubles in the wrong order, so the verifier fails on the sorted file (C115_fraction_refuted, computed from the input bytes to the verdict); and with as many processes as traces every file is accepted (C115_every_file_refuted). Proved: each process answers exactly for its own traces (C115_own_traces); the sorted file is accepted by any number of processes for the orders of lines and stored offsets, and for all orders when the coordinates are multiples of a sixteenth (C115_sorted_accepted_partial; missing: coordinates with other fractions)."
  },
  {
   "property": "C116",
   "status": "partial",
   "theorems": [
    "C116_sorted_unchanged",
    "C116_twice_partial",
    "C116_fraction_refuted"
   ],
   "note": "Refuted for fractional coordinates: C116_fraction_refuted sorts a file twice and the second run exchanges traces 0 and 1. Proved: C116_sorted_unchanged for every file in order; C116_twice_partial for orders 41 and 43 and for coordinates that are multiples of a sixteenth. Missing: the exact class of other fractional coordinates for which the second sort is the identity."
  },
  {
   "property": "C117",
   "status": "proved",
   "theorems": [
    "C117_minmax_runs",
    "C117_extremes"
   ],
   "note": "Proved: every process makes its four calls (C117_minmax_runs) and the file written has the twelve extreme traces of the whole input (C117_extremes), compared as exact numbers although the program compares rounded doubles. The number is at most 2^31 - 1 because the header stores 32 bits. The coordinates of the copies are exact when the scale of the trace is one that the writer can store (C99)."
  },
  {
   "property": "C118",
   "status": "partial",
   "theorems": [
    "C118_in_step_partial",
    "C118_three_processes_refuted",
    "C118_one_process_partial",
    "C118_two_processes_refuted"
   ],
   "note": "Refuted on several processes: C118_two_processes_refuted sorts two files of 8 and 4 traces by line; one process writes lines 1, 2, ..., 15 in order, two processes write 1 2 3 4 5 13 7 6 9 11 15 8; C118_three_processes_refuted the same for files of 6 and 24 traces on three. Proved: C118_one_process_partial for any number of files on one process; C118_in_step_partial for p processes with four traces each, when p = 1, when p = 2 and the files are listed by size, or when the files have one size. Missing: other sizes for which the numbers of the cache happen to increase."
  },
  {
   "property": "C119",
   "status": "partial",
   "theorems": [
    "C119_smallest",
    "C119_largest_partial",
    "C119_no_positive_refuted",
    "C119_any_order",
    "C119_which_file_refuted"
   ],
   "note": "Refuted for sets without a positive coordinate: by C119_no_positive_refuted the largest is then reported as the smallest positive normal double at trace 2^64 - 1, because the search starts from numeric_limits<double>::min(). Refuted for the naming of the trace: C119_which_file_refuted has two orders of the same files with the same report, so the file is not named. Proved: C119_smallest for every set; C119_largest_partial when some trace has a positive coordinate; C119_any_order for every permutation of the files. Missing: nothing else."
  },
  {
   "property": "C120",
   "status": "proved",
   "theorems": [
    "C120_listing"
   ],
   "note": "C120_listing, with the matcher of the pattern proved equal to the description of names. C120_names and C120_nonvacuous show cases on both sides."
  },
  {
   "property": "C121",
   "status": "partial",
   "theorems": [
    "C121_same_readings",
    "C121_other_handles_refuted"
   ],
   "note": "Refuted in its last part: round i compares handle i a thousand times instead of each handle once, so all other readings go unnoticed (C121_other_handles_refuted for all readings; C121_unnoticed has 9990 wrong ones). Proved: C121_same_readings."
  },
  {
   "property": "C122",
   "status": "partial",
   "theorems": [
    "C122_report",
    "C122_exact",
    "C122_negative_refuted",
    "C122_past_end_refuted"
   ],
   "note": "Refuted for negative lines (C122_negative_refuted: 2^64 is added) and for the trace after the last one (C122_past_end_refuted: zeros are printed, no error). Proved: C122_report for every trace of every file that opens (coordinates within 2^-51, lines from 0 on), C122_exact for multiples of a sixteenth. Numbers further past the end are not covered."
  }
 ]
}