{
 "claims": [
  {
   "property": "C01",
   "status": "proved",
   "theorems": [
    "C01_multi_range_transparent",
    "C01_answers_cut_from_decoded_blocks"
   ],
   "note": "all lists of in-field ranges; the second theorem covers single-range decoders that may refuse"
  },
  {
   "property": "C02",
   "status": "proved",
   "theorems": [
    "C02_buckets"
   ],
   "note": "ranges whose end fits in 64 bits"
  },
  {
   "property": "C03",
   "status": "partial",
   "theorems": [
    "C03_simple_samples_partial",
    "C03_any_width",
    "C03_refuted"
   ],
   "note": "exact for widths 1..58, 60, 64; false for 59, 61, 62, 63 (64-bit accumulator overflows); low bits right for every width"
  },
  {
   "property": "C04",
   "status": "proved",
   "theorems": [
    "C04_random_access"
   ],
   "note": "every width 0..64"
  },
  {
   "property": "C05",
   "status": "partial",
   "theorems": [
    "C05_simple_scaling",
    "C05_ccsds_scaling_partial",
    "C05_refuted"
   ],
   "note": "simple packing proved; CCSDS uses (-10)^D instead of 10^(-D), refuted for every D <> 0"
  },
  {
   "property": "C06",
   "status": "proved",
   "theorems": [
    "C06_ccsds_window",
    "C06_short_table_refuses"
   ],
   "note": "libaec is an oracle with contract rsi_stream; table of floor(N/R)+1 offsets; shorter tables are refused with an error"
  },
  {
   "property": "C07",
   "status": "partial",
   "theorems": [
    "C07_read_inside_section_partial",
    "C07_extraction_reads_own_sections_only",
    "C07_refuted"
   ],
   "note": "Extraction depends only on the message's own data section and bitmap, for every request. The raw accessor is right for offsets below 2^63 and wrong above (signed conversion); the decoders never issue such offsets."
  },
  {
   "property": "C08",
   "status": "proved",
   "theorems": [
    "C08_extract_without_bitmap"
   ],
   "note": "Simple packing widths 1..58, 60, 64; CCSDS relative to the libaec oracle."
  },
  {
   "property": "C09",
   "status": "proved",
   "theorems": [
    "C09_extract_with_bitmap"
   ],
   "note": "Same packings as C08."
  },
  {
   "property": "C10",
   "status": "proved",
   "theorems": [
    "C10_mask_words",
    "C10_mask_words_unique"
   ],
   "note": ""
  },
  {
   "property": "C11",
   "status": "proved",
   "theorems": [
    "C11_result_shape"
   ],
   "note": "For every info and file; ranges with begin <= end."
  },
  {
   "property": "C12",
   "status": "partial",
   "theorems": [
    "C12_beyond_data_refused_partial",
    "C12_no_undefined_behaviour_partial",
    "C12_refuted_constant",
    "C12_refuted_packed"
   ],
   "note": "False in general: constant fields, padding bits, wrapped bit positions and ranges beyond the bitmap."
  },
  {
   "property": "C13",
   "status": "partial",
   "theorems": [
    "C13_malformed_refused",
    "C13_overlap_refused",
    "C13_wellformed_accepted",
    "C13_refuted"
   ],
   "note": "Ranges with begin > end pass the check and lead to undefined behaviour."
  },
  {
   "property": "C14",
   "status": "partial",
   "theorems": [
    "C14_missing_points_partial",
    "C14_refuted"
   ],
   "note": "False for constant fields with a bitmap."
  },
  {
   "property": "C15",
   "status": "proved",
   "theorems": [
    "C15_splitting"
   ],
   "note": "Constant, plain and bitmap fields."
  },
  {
   "property": "C16",
   "status": "proved",
   "theorems": [
    "C16_finds_every_header"
   ],
   "note": "For buffer sizes >= 3 (the code uses 2^20) and files below 2^63 bytes."
  },
  {
   "property": "C17",
   "status": "proved",
   "theorems": [
    "C17_least_recently_used",
    "C17_log_is_the_calls",
    "C17_refuted_capacity_zero"
   ],
   "note": "The extra theorem shows that capacity 0, which the configuration allows, is undefined behaviour."
  },
  {
   "property": "C18",
   "status": "partial",
   "theorems": [
    "C18_lookup_is_true_partial",
    "C18_names_apart",
    "C18_refuted_key_collision"
   ],
   "note": "True when different files have different base names that do not end in a digit or '-'; false otherwise (keys are base name + offset)."
  },
  {
   "property": "C19",
   "status": "proved",
   "theorems": [
    "C19_one_info_per_offset",
    "C19_fails_exactly_when"
   ],
   "note": "The equivalence is for a readable index file."
  },
  {
   "property": "C20",
   "status": "proved",
   "theorems": [
    "C20_save_load",
    "C20_new_file_load",
    "C20_appended_batches",
    "C20_load_keeps",
    "C20_merge_keeps"
   ],
   "note": ""
  },
  {
   "property": "C21",
   "status": "proved",
   "theorems": [
    "C21_rewrite_atomic"
   ],
   "note": "Process death at any point; rename(2) atomic; not a crash of the operating system."
  },
  {
   "property": "C22",
   "status": "partial",
   "theorems": [
    "C22_append_crash_partial",
    "C22_refuted_unreadable",
    "C22_refuted_null_record"
   ],
   "note": "No wrong record is ever loaded, but a crash can make the whole file unreadable for good, or leave a null record that a later scan dereferences."
  },
  {
   "property": "C23",
   "status": "partial",
   "theorems": [
    "C23_scan_partial",
    "C23_scan_succeeds",
    "C23_refuted_count"
   ],
   "note": "Everything proved except the count when an offset is listed twice."
  },
  {
   "property": "C24",
   "status": "partial",
   "theorems": [
    "C24_regenerates_partial",
    "C24_refuted"
   ],
   "note": "False: the old index is loaded and its records win; true when there was no index file."
  },
  {
   "property": "C25",
   "status": "partial",
   "theorems": [
    "C25_inserted_are_found_partial",
    "C25_lookups_between",
    "C25_refuted_rewrite"
   ],
   "note": "Proved for the appending flush (the only one the plugin uses); flush(false) discards the earlier records."
  },
  {
   "property": "C26",
   "status": "proved",
   "theorems": [
    "C26_roundtrip",
    "C26_concatenation",
    "C26_truncated_refused"
   ],
   "note": ""
  },
  {
   "property": "C27",
   "status": "proved",
   "theorems": [
    "C27_conserves"
   ],
   "note": ""
  },
  {
   "property": "C28",
   "status": "proved",
   "theorems": [
    "C28_rotation",
    "C28_bound"
   ],
   "note": ""
  },
  {
   "property": "C29",
   "status": "proved",
   "theorems": [
    "C29_stops_when_empty",
    "C29_all_executed",
    "C29_push_refused",
    "C29_terminates"
   ],
   "note": "condition variable modelled; spurious wake-ups left out"
  },
  {
   "property": "C30",
   "status": "proved",
   "theorems": [
    "C30_mentions_exactly",
    "C30_forgotten_after_last"
   ],
   "note": ""
  },
  {
   "property": "C31",
   "status": "proved",
   "theorems": [
    "C31_returned_means_finished",
    "C31_stays"
   ],
   "note": "for requests not interrupted while enqueuing (see C35)"
  },
  {
   "property": "C32",
   "status": "proved",
   "theorems": [
    "C32_successful_request_completes",
    "C32_no_endless_run",
    "C32_settles",
    "C32_who_is_left"
   ],
   "note": "executeImpl is assumed to end"
  },
  {
   "property": "C33",
   "status": "partial",
   "theorems": [
    "C33_refuted",
    "C33_cancelled_hangs",
    "C33_partial"
   ],
   "note": "False: a cancelled task is never counted, so waiting never returns; true for single-task requests"
  },
  {
   "property": "C34",
   "status": "proved",
   "theorems": [
    "C34_errors_exact",
    "C34_workers_survive"
   ],
   "note": ""
  },
  {
   "property": "C35",
   "status": "partial",
   "theorems": [
    "C35_refuted",
    "C35_partial"
   ],
   "note": "False when scheduling is abandoned with tasks queued; true otherwise"
  },
  {
   "property": "C36",
   "status": "proved",
   "theorems": [
    "C36_one_result_per_request",
    "C36_one_result_per_path_request",
    "C36_in_request_order",
    "C36_same_ranges",
    "C36_paths_in_request_order"
   ],
   "note": "Local execution end to end; forwarding is C51. The listing is duplicate-free per canonical string, infos served by the cache are true (C18), std::sort is any sorting function."
  },
  {
   "property": "C37",
   "status": "partial",
   "theorems": [
    "C37_order_does_not_matter",
    "C37_pair_order_does_not_matter",
    "C37_idempotent_partial",
    "C37_refuted"
   ],
   "note": "Order independence proved for all strings; idempotence only without repeated tokens, false otherwise."
  },
  {
   "property": "C38",
   "status": "partial",
   "theorems": [
    "C38_partial",
    "C38_refuted"
   ],
   "note": "False with the ignore-year-month option: dropping is sticky across the batch."
  },
  {
   "property": "C39",
   "status": "partial",
   "theorems": [
    "C39_duplicates_refused",
    "C39_partial",
    "C39_refuted",
    "C39_path_duplicates_refused"
   ],
   "note": "Equal canonical forms are always refused; with the ignore-year-month option the same request can get two canonical forms."
  },
  {
   "property": "C40",
   "status": "partial",
   "theorems": [
    "C40_missing_is_detected",
    "C40_found_are_served_partial",
    "C40_refuted"
   ],
   "note": "False when missing fields are allowed and all are missing (assertion failure); everything else proved."
  },
  {
   "property": "C41",
   "status": "partial",
   "theorems": [
    "C41_partial",
    "C41_distinct",
    "C41_refuted"
   ],
   "note": "False for keys that extend another key by a character before '=', and in two year/month cases."
  },
  {
   "property": "C42",
   "status": "proved",
   "theorems": [
    "C42_file_groups",
    "C42_path_groups",
    "C42_scan_groups"
   ],
   "note": ""
  },
  {
   "property": "C43",
   "status": "partial",
   "theorems": [
    "C43_local_files",
    "C43_mismatch_refused",
    "C43_refuted"
   ],
   "note": "Proved for local files; the remote-handle task never compares hashes."
  },
  {
   "property": "C44",
   "status": "proved",
   "theorems": [
    "C44_order_of_requests",
    "C44_own_message"
   ],
   "note": ""
  },
  {
   "property": "C45",
   "status": "partial",
   "theorems": [
    "C45_partial",
    "C45_refuted"
   ],
   "note": "False for two or more pieces: each is written at the start of the buffer."
  },
  {
   "property": "C46",
   "status": "proved",
   "theorems": [
    "C46_request_round_trip",
    "C46_reply_round_trip",
    "C46_server_sees_the_batch"
   ],
   "note": "Token-level streams: eckit's encoding of single values is trusted. Values of any type, so NaN payloads included."
  },
  {
   "property": "C47",
   "status": "proved",
   "theorems": [
    "C47_errors_reach_the_client",
    "C47_no_errors",
    "C47_exceptions_reach_the_client",
    "C47_torn_answers_raise",
    "C47_torn_errors_raise"
   ],
   "note": ""
  },
  {
   "property": "C48",
   "status": "proved",
   "theorems": [
    "C48_acts_only_on_good_headers",
    "C48_other_versions",
    "C48_unknown_types"
   ],
   "note": ""
  },
  {
   "property": "C49",
   "status": "proved",
   "theorems": [
    "C49_files_partitioned",
    "C49_with_all_requests",
    "C49_all_served",
    "C49_unserved",
    "C49_uris_partitioned",
    "C49_unserved_scan"
   ],
   "note": "A file's location is that of its first item (see C50)."
  },
  {
   "property": "C50",
   "status": "partial",
   "theorems": [
    "C50_partial",
    "C50_refuted",
    "C50_first_request_refuted",
    "C50_same_offset_refused"
   ],
   "note": "Holds if a path has one location in the list and the first request names a host. False otherwise: equal paths on two hosts go to the first one's server; requests after a local first request are executed locally; equal path and offset on two hosts fail."
  },
  {
   "property": "C51",
   "status": "proved",
   "theorems": [
    "C51_one_server",
    "C51_results_of_owners",
    "C51_succeeds",
    "C51_fails",
    "C51_requests",
    "C51_sound_sites_exist"
   ],
   "note": "Client, wire and server are all modelled; both sorts may be any (different) sorting functions."
  },
  {
   "property": "C52",
   "status": "proved",
   "theorems": [
    "C52_iterator",
    "C52_c_interface",
    "C52_rust_interface",
    "C52_python_interface"
   ],
   "note": "C++, C, Rust and Python iterators. Results are never null pointers (example shows what a null one would do)."
  },
  {
   "property": "C53",
   "status": "partial",
   "theorems": [
    "C53_values_partial",
    "C53_mask_partial",
    "C53_mask_refuted",
    "C53_documented_mask_size_refuted",
    "C53_axes",
    "C53_axes_sizes"
   ],
   "note": "True for values and axes; false for masks: the size is only compared after the copy, so every too small buffer is overrun, and the documented size is wrong for multiples of 64 points."
  },
  {
   "property": "C54",
   "status": "proved",
   "theorems": [
    "C54_ranges",
    "C54_every_even_array",
    "C54_new_request",
    "C54_new_request_parsed",
    "C54_new_path_request",
    "C54_extract_single",
    "C54_odd_refused"
   ],
   "note": "Arrays hold as many elements as declared (otherwise undefined behaviour, see example)."
  },
  {
   "property": "C55",
   "status": "proved",
   "theorems": [
    "C55_views",
    "C55_legacy_view",
    "C55_views_of_extraction",
    "C55_other_shape_refused"
   ],
   "note": "numpy's split, empty, uint64 arithmetic modelled as exact integer functions."
  },
  {
   "property": "C56",
   "status": "proved",
   "theorems": [
    "C56_from_mask",
    "C56_empty_mask_refused",
    "C56_from_indices",
    "C56_bad_indices_refused",
    "C56_indices_accepted_iff_increasing"
   ],
   "note": "Index lists are understood as Python integers."
  },
  {
   "property": "C57",
   "status": "proved",
   "theorems": [
    "C57_round_trip",
    "C57_library_receives",
    "C57_range"
   ],
   "note": "Offsets below 2^63; larger ones become negative in the bridge's cast (example)."
  },
  {
   "property": "C58",
   "status": "proved",
   "theorems": [
    "C58_archived_is_indexed",
    "C58_cache_calls",
    "C58_fulfilled_first",
    "C58_archived_is_found",
    "C58_callbacks_answer",
    "C58_no_deadlock",
    "C58_steps_bounded",
    "C58_can_finish",
    "C58_same_as_serial",
    "C58_failed_future_kills",
    "C58_grib_message"
   ],
   "note": "Any number of FDB objects sharing the InfoCache, any schedule. Every future is fulfilled with a location whose offset can be read (a failed future ends the process: C58_failed_future_kills); GRIB messages whose description cannot be built raise in the archive call. Another thread or process scanning the same file concurrently can remove records (example)."
  },
  {
   "property": "C59",
   "status": "partial",
   "theorems": [
    "C59_partial",
    "C59_accepted",
    "C59_matches",
    "C59_total",
    "C59_refuted",
    "C59_missing_keyword_refuted",
    "C59_malformed_refuted"
   ],
   "note": "True for selections with at least one condition; false for the empty selection; keys without a configured keyword raise; a malformed configuration is only refused once."
  },
  {
   "property": "C60",
   "status": "proved",
   "theorems": [
    "C60_empty_arguments_refused",
    "C60_other_arguments_passed_on",
    "C60_c_interface"
   ],
   "note": ""
  },
  {
   "property": "C61",
   "status": "proved",
   "theorems": [
    "C61_pairs",
    "C61_one_result_per_offset",
    "C61_returns_fields",
    "C61_entry_point"
   ],
   "note": "Offsets need not be distinct."
  },
  {
   "property": "C62",
   "status": "partial",
   "theorems": [
    "C62_extract",
    "C62_axes",
    "C62_scan",
    "C62_forward_extract",
    "C62_forward_scan",
    "C62_empty_axes",
    "C62_empty_forward_extract",
    "C62_request_consumed",
    "C62_torn_request",
    "C62_sound_links_exist",
    "C62_refuted",
    "C62_reply_after_errors_unread",
    "C62_request_of_other_version_unread"
   ],
   "note": "All answers, errors and exceptions arrive as stated and complete requests are consumed exactly; but after task errors the client leaves the reply unread, and a server of another version leaves the request unread."
  },
  {
   "property": "C63",
   "status": "proved",
   "theorems": [
    "C63_description_is_what_eccodes_says",
    "C63_simple_packing_described",
    "C63_ccsds_packing_described",
    "C63_empty_ccsds_described",
    "C63_other_packings_described",
    "C63_other_packings_refused",
    "C63_defined"
   ],
   "note": "eccodes is an oracle: which message it reads at a position and what it reports under each key."
  },
  {
   "property": "C64",
   "status": "partial",
   "theorems": [
    "C64_interval_table_partial",
    "C64_refuted"
   ],
   "note": "Holds if the data section is in the file; a file that ends inside it gives a table that depends on uninitialised memory."
  },
  {
   "property": "C65",
   "status": "partial",
   "theorems": [
    "C65_other_messages_partial",
    "C65_ccsds_messages_partial",
    "C65_refuted"
   ],
   "note": "False for constant CCSDS fields (SeriousBug)."
  },
  {
   "property": "C66",
   "status": "partial",
   "theorems": [
    "C66_describe_then_extract",
    "C66_values_of_the_formula_partial",
    "C66_refuted"
   ],
   "note": "Extraction returns the code's value of each packed integer for every supported message; that is the GRIB formula except for CCSDS with D <> 0 (C05) and constant fields with D <> 0."
  },
  {
   "property": "C67",
   "status": "proved",
   "theorems": [
    "C67_results_are_the_stored_values",
    "C67_call_succeeds"
   ],
   "note": "Local execution; catalogue, eccodes, libaec are oracles with contracts; data files do not change."
  },
  {
   "property": "C68",
   "status": "proved",
   "theorems": [
    "C68_archived_is_scanned",
    "C68_scan_is_faithful",
    "C68_scan_finds",
    "C68_scan_succeeds"
   ],
   "note": ""
  },
  {
   "property": "C69",
   "status": "partial",
   "theorems": [
    "C69_lookups_right_partial",
    "C69_not_emptied",
    "C69_refuted_wrong_description",
    "C69_refuted_emptied"
   ],
   "note": "Holds in every execution in which no flush has emptied an existing index file; that is so if nobody scans, or nobody flushes. A scan and the first flush of a file at the same time can make a lookup return the description of another message."
  },
  {
   "property": "C70",
   "status": "partial",
   "theorems": [
    "C70_lookups_succeed_partial",
    "C70_refuted_lookup_beside_flush",
    "C70_refuted_scan_beside_flush"
   ],
   "note": "Holds if nobody flushes. A lookup beside a flush can fail; a scan beside a flush can dereference a null pointer."
  },
  {
   "property": "C71",
   "status": "partial",
   "theorems": [
    "C71_inserts_kept_partial",
    "C71_refuted_beside_scan",
    "C71_refuted_two_scans"
   ],
   "note": "Holds for inserts and appending flushes (what archiving does) by any number of threads and processes, one process per data file. A scan at the same time replaces the index file and loses records."
  },
  {
   "property": "C72",
   "status": "proved",
   "theorems": [
    "C72_no_deadlock",
    "C72_all_calls_return",
    "C72_no_endless_run"
   ],
   "note": "No hypothesis on the calls and none on fairness. Every mutex of InfoCache/IndexFile that is held across a file access is modelled; the LRU cache's mutex is held for single accesses only."
  },
  {
   "property": "C73",
   "status": "proved",
   "theorems": [
    "C73_union_request"
   ],
   "note": "The text handed to metkit's parser; what the parser and FDB make of it is an oracle (expansion, keys that a schema does not have)."
  },
  {
   "property": "C74",
   "status": "partial",
   "theorems": [
    "C74_local_scan",
    "C74_nothing_listed",
    "C74_named_files",
    "C74_forwarded_partial",
    "C74_refuted_forwarded_byfiles"
   ],
   "note": "Holds for local scans and for forwarded scans of offsets; a client that forwards ignores byfiles."
  },
  {
   "property": "C75",
   "status": "proved",
   "theorems": [
    "C75_concurrent_scans_keep"
   ],
   "note": "Each file scanned by one thread (what one scan request does), no flush at the same time; any number of lookups beside it. Two threads scanning the same file: C71_refuted_two_scans."
  },
  {
   "property": "C76",
   "status": "partial",
   "theorems": [
    "C76_documented_format",
    "C76_accepts_exactly",
    "C76_refuted_malformed",
    "C76_refuted_missing_file"
   ],
   "note": "Every file in the documented format is read as it says; but other texts are accepted too, and a file that cannot be opened counts as empty."
  },
  {
   "property": "C77",
   "status": "partial",
   "theorems": [
    "C77_labels_partial",
    "C77_ranges",
    "C77_other_options",
    "C77_verb",
    "C77_refuted_labels",
    "C77_refuted_options"
   ],
   "note": "Holds for requests of one field each; a request of several fields makes the tool label results wrongly and read beyond its request list. --raw and --print are refused. MARS parsing, expansion and flattening are oracles."
  },
  {
   "property": "C78",
   "status": "partial",
   "theorems": [
    "C78_files_scanned",
    "C78_all_scanned",
    "C78_refuted_skip_existing"
   ],
   "note": "--skipExisting looks for the index beside the data file even if the configuration puts it elsewhere."
  },
  {
   "property": "C79",
   "status": "partial",
   "theorems": [
    "C79_validates",
    "C79_refuted_missing_points"
   ],
   "note": "Exact characterisation; correct extractions with a missing point (NaN) are reported as mismatches."
  },
  {
   "property": "C80",
   "status": "partial",
   "theorems": [
    "C80_bool_options",
    "C80_int_options",
    "C80_threads",
    "C80_string_options",
    "C80_implementation",
    "C80_server_map",
    "C80_workers",
    "C80_workers_wrapped",
    "C80_plugin",
    "C80_refuted_no_workers",
    "C80_refuted_no_answer",
    "C80_refuted_size_zero"
   ],
   "note": "Every option has its documented value if the file's values have the right types (a wrong type raises even when the environment overrides it). threads <= 0 and cache.size 0 are accepted although they cannot work. eckit's Resource, Translator and YAML reader are parameters."
  },
  {
   "property": "C81",
   "status": "proved",
   "theorems": [
    "C81_options_do_not_change",
    "C81_first_read"
   ],
   "note": ""
  },
  {
   "property": "C82",
   "status": "partial",
   "theorems": [
    "C82_index_location",
    "C82_refuted_disabled",
    "C82_refuted_shared_index",
    "C82_refuted_key"
   ],
   "note": "Holds with the cache enabled; cache.enabled: false does not stop the use of index files but puts them into the root directory; the key documented in Config.cc (cache.enable) is not read."
  },
  {
   "property": "C83",
   "status": "proved",
   "theorems": [
    "C83_range",
    "C83_iter",
    "C83_total_values",
    "C83_is_valid",
    "C83_is_valid_beyond",
    "C83_validity",
    "C83_no_masks",
    "C83_views_of_extraction"
   ],
   "note": ""
  },
  {
   "property": "C84",
   "status": "partial",
   "theorems": [
    "C84_variant_partial",
    "C84_never_gribjump",
    "C84_std_exception",
    "C84_refuted"
   ],
   "note": "Exact for eckit exceptions. A std exception whose text begins like one of the prefixes is misreported; gribjump's own exceptions are Error::Eckit, never Error::Gribjump."
  },
  {
   "property": "C85",
   "status": "partial",
   "theorems": [
    "C85_path_request_partial",
    "C85_built_request",
    "C85_paths_handed_on",
    "C85_requests_handed_on",
    "C85_refuted"
   ],
   "note": "Path requests arrive field by field. scan_requests makes the whole text the verb of an empty request: the text has no influence on what is scanned."
  },
  {
   "property": "C86",
   "status": "proved",
   "theorems": [
    "C86_same_answer",
    "C86_forwarder_keeps_items",
    "C86_one_server",
    "C86_one_server_answers",
    "C86_forwarding_client",
    "C86_through_front",
    "C86_through_front_answers",
    "C86_sound_deployment_exists"
   ],
   "note": "Composition of C51, C62 and C67. In a listing every path has one location (otherwise C50_refuted applies); codecs of eckit and metkit read back what they write."
  },
  {
   "property": "C87",
   "status": "proved",
   "theorems": [
    "C87_distinct_names",
    "C87_local",
    "C87_local_answers",
    "C87_forwarded",
    "C87_forwarded_answers",
    "C87_direct",
    "C87_direct_answers"
   ],
   "note": "Schemes contain no colon; the places are different (otherwise the batch fails, C49/C50); offsets below 2^63; forwarded requests for one file name one host."
  },
  {
   "property": "C88",
   "status": "proved",
   "theorems": [
    "C88_histories",
    "C88_each_once",
    "C88_tasks",
    "C88_answer",
    "C88_answer_paths",
    "C88_answered"
   ],
   "note": "Local tasks (no forwarding); no client is interrupted while it enqueues (C35). A request with a failing task may hang (C33); the theorems speak of requests that have returned, and C88_answered of requests without failing task."
  },
  {
   "property": "C89",
   "status": "proved",
   "theorems": [
    "C89_values",
    "C89_server_values",
    "C89_server_answers"
   ],
   "note": "Each lookup of the engine gets an answer that some execution of ModelThreads gives; answers come if nobody flushes (C70); no flush empties an index (C69) and files are scanned on demand."
  },
  {
   "property": "C90",
   "status": "proved",
   "theorems": [
    "C90_context_follows",
    "C90_variable_unchanged",
    "C90_through_servers",
    "C90_headers_through_servers",
    "C90_interface",
    "C90_interface_refuses",
    "C90_python",
    "C90_python_keys"
   ],
   "note": "No client is interrupted while it enqueues (otherwise its group is destroyed under its tasks, C35)."
  },
  {
   "property": "C91",
   "status": "partial",
   "theorems": [
    "C91_line",
    "C91_no_header",
    "C91_refuted_malformed"
   ],
   "note": "Holds for contexts that are JSON, which all of gribjump's clients send (C90_interface). A context that is not is accepted from the stream; the report then throws after the reply and the line is lost. Timings have no values; what the engine sets is a parameter that avoids the server's names."
  },
  {
   "property": "C92",
   "status": "proved",
   "theorems": [
    "C92_routes",
    "C92_unknown_refused"
   ],
   "note": ""
  },
  {
   "property": "C93",
   "status": "partial",
   "theorems": [
    "C93_messages_true",
    "C93_milestones_partial",
    "C93_refuted_early",
    "C93_refuted_failure"
   ],
   "note": "Messages are true; all of them come if the caller waits before the first task ends and no task fails. A task that ends before the wait, or fails at a milestone, silences all later messages, because the counter is compared for equality."
  },
  {
   "property": "C94",
   "status": "partial",
   "theorems": [
    "C94_own_text_partial",
    "C94_text_stays",
    "C94_refuted_other_text",
    "C94_refuted_race",
    "C94_refuted_dangling"
   ],
   "note": "Holds if calls of at most one thread can fail. Two threads whose calls fail share one unprotected string: wrong text, data race or dangling pointer."
  },
  {
   "property": "C95",
   "status": "proved",
   "theorems": [
    "C95_python_user",
    "C95_call_succeeds",
    "C95_mask",
    "C95_indices",
    "C95_local",
    "C95_server",
    "C95_plain_dict",
    "C95_lists",
    "C95_no_lists"
   ],
   "note": "For keys and values as in MARS requests (no comma or equals sign, keys of letters and underscores), catalogues without duplicate entries and, with the ignore-year-month option, dicts without year and month (C41, C42 treat these). With request parsing, what metkit makes of the text is the parameter expand."
  },
  {
   "property": "C96",
   "status": "partial",
   "theorems": [
    "C96_accuracy",
    "C96_no_overflow",
    "C96_present_is_not_missing",
    "C96_powers_of_two_exact",
    "C96_powers_of_ten",
    "C96_extracted_values_partial"
   ],
   "note": "Simple packing in full; CCSDS and constant fields for D = 0 (for other D the code does not follow the formula, C05_refuted and C66_refuted). Doubles as in SpecFloat: round to nearest even, no fused multiply-add, no extended precision."
  },
  {
   "property": "C97",
   "status": "proved",
   "theorems": [
    "C97_undefined_exactly_when",
    "C97_one_range",
    "C97_exclusions_needed"
   ],
   "note": "libaec returns the number of samples asked for or fails. C97_exclusions_needed shows that the exclusions in the statement are needed: inverted ranges, empty CCSDS intervals (division by zero), a number of points near 2^64."
  },
  {
   "property": "C98",
   "status": "proved",
   "theorems": [
    "C98_requests",
    "C98_path_requests",
    "C98_direct",
    "C98_system",
    "C98_system_paths",
    "C98_system_direct"
   ],
   "note": "What surrounds the engine (eccodes, FDB, eckit, the forwarder) returns or throws; eccodes reports CCSDS block sizes and interval lengths of at least 1. A batch of path requests is not empty (GribJump.cc refuses an empty one)."
  },
  {
   "property": "C99",
   "status": "proved",
   "theorems": [
    "C99_requests",
    "C99_python",
    "C99_python_mask"
   ],
   "note": "Composition of C67, C95 and C96. The packings and scale factors for which the formula itself is not followed are excluded in the statement (C05_refuted, C66_refuted). A remote library is covered through right_answers (C95_server)."
  },
  {
   "property": "C100",
   "status": "proved",
   "theorems": [
    "C100_scan_then_serve",
    "C100_scans_succeed",
    "C100_scan_covers",
    "C100_records_stay"
   ],
   "note": "Needs that no later call flushes with append = false, which replaces the index file (C100_keeps_records_needed shows the loss). Scans run one after the other; C75 has concurrent ones."
  },
  {
   "property": "C101",
   "status": "proved",
   "theorems": [
    "C101_python_local",
    "C101_python_server",
    "C101_rust_local",
    "C101_rust_server",
    "C101_same_view",
    "C101_python",
    "C101_python_error",
    "C101_refused",
    "C101_inside"
   ],
   "note": "FDB's answer and the parser of requests are oracles. Texts with a zero or not ASCII give an exception (C101_zero_example). The int counters of gribjump_axes_t do not overflow below 2^31 values."
  },
  {
   "property": "C102",
   "status": "proved",
   "theorems": [
    "C102_compares",
    "C102_symmetric",
    "C102_made_from_a_file",
    "C102_made_from_a_message",
    "C102_written"
   ],
   "note": "Without the condition on the class the cast in CcsdsInfo::equals is undefined and the answer depends on the side (C102_example). Such infos are not made by the code."
  },
  {
   "property": "C103",
   "status": "partial",
   "theorems": [
    "C103_dump",
    "C103_dump_in_order",
    "C103_dump_missing",
    "C103_info",
    "C103_scan_arguments",
    "C103_scan_file",
    "C103_scan_both",
    "C103_scan_missing_file",
    "C103_refuted_torn",
    "C103_refuted_byfiles_default"
   ],
   "note": "Refuted in two points: torn index files and the default of byfiles. The parser, the expansion and the format of doubles are oracles."
  },
  {
   "property": "C104",
   "status": "proved",
   "theorems": [
    "C104_rust",
    "C104_rust_mars",
    "C104_rust_paths",
    "C104_rust_file",
    "C104_local_paths",
    "C104_local_file",
    "C104_c",
    "C104_cpp",
    "C104_call"
   ],
   "note": "The assumption that the library answers rightly is what C95_local and C95_server prove for fields; C104_local_paths and C104_local_file prove it for files. The expansion of a MARS request is an oracle."
  },
  {
   "property": "C105",
   "status": "proved",
   "theorems": [
    "C105_tasks",
    "C105_answer",
    "C105_answer_paths",
    "C105_answered",
    "C105_values",
    "C105_scan",
    "C105_forwarded_scan",
    "C105_scan_answered",
    "C105_forwarded_scan_answered"
   ],
   "note": "Executions with undefined behaviour inside a task are excluded by `runs_tasks`, as for C88. A request or scan with several tasks of which one fails may hang (finding C33); then C105 says nothing about it."
  },
  {
   "property": "C106",
   "status": "partial",
   "theorems": [
    "C106_server",
    "C106_any_stream_refuted",
    "C106_written_stream_refuted",
    "C106_client",
    "C106_forwarding_client",
    "C106_other_clients",
    "C106_forwarder",
    "C106_deployment",
    "C106_deployment_defined",
    "C106_deployment_paths",
    "C106_deployment_paths_defined",
    "C106_through_front",
    "C106_assumptions_hold"
   ],
   "note": "`C106_any_stream_refuted` and `C106_written_stream_refuted` are false for every server; `C106_server` shows that there are no further ways. The exceptions for ranges are those of C98. What surrounds the engine (eccodes, FDB, eckit's stream operators for URIs and MARS requests) returns or throws."
  },
  {
   "property": "C107",
   "status": "proved",
   "theorems": [
    "C107_seen_as",
    "C107_nothing_lost",
    "C107_histories",
    "C107_returned",
    "C107_answer",
    "C107_never_dangling",
    "C107_completes",
    "C107_no_endless_run",
    "C107_progress",
    "C107_schedules"
   ],
   "note": "`no_abandon`: no request throws while it creates its tasks (what happens then is C35). `C107_completes` has the condition of C32."
  },
  {
   "property": "C108",
   "status": "partial",
   "theorems": [
    "C108_any_use_partial",
    "C108_one_loop",
    "C108_whole_loop",
    "C108_single",
    "C108_dump_values",
    "C108_refuted",
    "C108_after_dump_refuted"
   ],
   "note": "Results come once each and in order for every program. The shape is right for programs that take all results from one loop, and for extract_single; it is wrong for a second loop over an iterator not exhausted."
  },
  {
   "property": "C109",
   "status": "partial",
   "theorems": [
    "C109_first_access",
    "C109_repeatable_partial",
    "C109_refuted",
    "C109_other_shape_refuted"
   ],
   "note": "Holds for results of the requested shape. For a result that does not fit, such as that of a missing field, the first access raises and later ones give zeros."
  },
  {
   "property": "C110",
   "status": "partial",
   "theorems": [
    "C110_safe_partial",
    "C110_kept",
    "C110_owned",
    "C110_all_freed",
    "C110_refuted"
   ],
   "note": "`quiet`: no thread changes the list of requests between the making of `c_requests` and the copy in gribjump_extract. If one does, a request may be freed before it is copied."
  },
  {
   "property": "C111",
   "status": "proved",
   "theorems": [
    "C111_safe",
    "C111_one_by_one",
    "C111_handle",
    "C111_progress",
    "C111_released",
    "C111_results",
    "C111_next",
    "C111_views"
   ],
   "note": "Ownership and borrowing are those of the Rust language for the signatures in the source. Hypotheses: `defined_calls` (the library calls themselves are not undefined, see C98), `in_memory` (no answer has 2^64 results)."
  },
  {
   "property": "C112",
   "status": "proved",
   "theorems": [
    "C112_python_paths",
    "C112_python_paths_succeed",
    "C112_python_paths_refused",
    "C112_cut_at_nul",
    "C112_c_paths",
    "C112_c_passed_on",
    "C112_c_paths_passed_on",
    "C112_local_paths",
    "C112_python_single",
    "C112_python_single_succeeds",
    "C112_python_single_refused"
   ],
   "note": "Hypotheses: texts without NUL (`clean`; a path with one is cut there, C112_cut_at_nul), arrays fit into memory, the library answers rightly (`right_paths`, `right_answers`; C112_local_paths, C95_local, C95_server). Parsing and expansion of the MARS text are parameters."
  },
  {
   "property": "C113",
   "status": "proved",
   "theorems": [
    "C113_forwarding",
    "C113_front",
    "C113_busy_forwarding",
    "C113_busy",
    "C113_busy_server",
    "C113_forwarding_paths",
    "C113_busy_paths",
    "C113_busy_forwarding_paths",
    "C113_python_served",
    "C113_rust_served",
    "C113_cpp_served",
    "C113_c_served",
    "C113_assumptions_hold"
   ],
   "note": "Hypotheses: every server is a sound node (C106), the servers share decoder and float operations (`alike`), every listed file has one home (`at_home`), the front does not check grids that its servers ignore (`checks_grids`). C113_assumptions_hold shows them satisfied by two servers behind a front."
  },
  {
   "property": "C114",
   "status": "proved",
   "theorems": [
    "C114_life",
    "C114_only",
    "C114_library",
    "C114_after",
    "C114_threads"
   ],
   "note": "Each call under a factory's mutex is one step. C114_threads excludes unloading: get and make are two steps in JumperFactory and InfoFactory, and C114_unloaded_in_use shows the gap. C114_too_early: a static object constructed before the library that extracts in its destructor uses a destroyed factory."
  },
  {
   "property": "C115",
   "status": "proved",
   "theorems": [
    "C115_importing",
    "C115_checked",
    "C115_unreadable",
    "C115_older",
    "C115_release_decides",
    "C115_suffixes",
    "C115_version_int",
    "C115_patched_once"
   ],
   "note": "Python's import system and packaging's order of versions are modelled; reading a version from its text is an oracle. C115_checked needs three numbers in each release for the warning (C115_versions: 0.13 and 0.13.0 are the same version, yet it warns). C115_version_int needs minor and patch below 100 (0.100.0 and 1.0.0 have the same number)."
  }
 ]
}