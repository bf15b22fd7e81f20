{
 "claims": [
  {
   "property": "C01",
   "status": "proved",
   "theorems": [
    "triplet_encoding_roundtrip",
    "pair_encoding_roundtrip",
    "obs_value_exists"
   ],
   "note": ""
  },
  {
   "property": "C02",
   "status": "proved",
   "theorems": [
    "merge_two_observations"
   ],
   "note": ""
  },
  {
   "property": "C03",
   "status": "proved",
   "theorems": [
    "merge_any_grouping",
    "merge_order_independent"
   ],
   "note": ""
  },
  {
   "property": "C04",
   "status": "proved",
   "theorems": [
    "merge_index_is_union",
    "merge_index_same",
    "merge_index_empty_absorbs",
    "union_encoding_exists_unique"
   ],
   "note": "For all pairs whose union's documented encoding is shorter than 1024 bytes, the encoder's limit; see C06 for the rest."
  },
  {
   "property": "C05",
   "status": "proved",
   "theorems": [
    "merge_index_any_grouping",
    "merge_index_order_independent"
   ],
   "note": "Under the same size limit as C04."
  },
  {
   "property": "C06",
   "status": "partial",
   "theorems": [
    "merge_index_completes_iff",
    "merge_index_completes_refuted",
    "merge_index_all_types_refuted"
   ],
   "note": "False of the code: merging aborts (assert in merge.c compares with 8192/sizeof(pointer)) or fails (all 65536 types). Proved: it completes exactly when the union encodes in fewer than 1024 bytes."
  },
  {
   "property": "C07",
   "status": "proved",
   "theorems": [
    "merge_time_ranges",
    "merge_time_ranges_order_independent"
   ],
   "note": ""
  },
  {
   "property": "C08",
   "status": "proved",
   "theorems": [
    "merge_versions_lowest",
    "merge_versions_order_independent",
    "merge_versions_unknown_type"
   ],
   "note": ""
  },
  {
   "property": "C09",
   "status": "proved",
   "theorems": [
    "merge_other_keys"
   ],
   "note": ""
  },
  {
   "property": "C10",
   "status": "partial",
   "theorems": [
    "index_test_no_false_negative",
    "index_test_empty",
    "index_test_truncated_partial",
    "index_test_corrupt_refuted"
   ],
   "note": "Proved for all valid values and for empty ones. The clause about corrupt values is false for out-of-order windows (refuted) and proved for truncated ones."
  },
  {
   "property": "C11",
   "status": "partial",
   "theorems": [
    "index_test_exact_partial",
    "index_test_boundary",
    "index_test_exact_refuted",
    "index_test_in_bounds_refuted"
   ],
   "note": "False of the code (off by one in the octet bound): false positives and an out-of-bounds read. Proved exact everywhere except at the octet following a window's bitmap, where the behaviour is characterised."
  },
  {
   "property": "C12",
   "status": "proved",
   "theorems": [
    "index_unpack_sorted_set",
    "index_unpack_all_types",
    "index_unpack_lenient",
    "index_unpack_accepts_only_windows",
    "index_unpack_long_bitmap_refuted"
   ],
   "note": "The set of all 65536 types is the one exception (reported corrupt). Bitmaps longer than 32 octets are accepted although undocumented."
  },
  {
   "property": "C13",
   "status": "proved",
   "theorems": [
    "decode_rrset_entry"
   ],
   "note": ""
  },
  {
   "property": "C14",
   "status": "proved",
   "theorems": [
    "decode_rdata_entry",
    "decode_rdata_entry_unsliced",
    "decode_rdata_long_slices_refuted"
   ],
   "note": "Within the 16-bit rdata length; beyond it the joined slices lose their length (_refuted)."
  },
  {
   "property": "C15",
   "status": "proved",
   "theorems": [
    "decode_rrset_name_entry",
    "decode_rdata_name_entry",
    "decode_time_range_entry",
    "decode_source_info_entry",
    "decode_version_entry"
   ],
   "note": "Source strings without NUL characters, as the accessor returns a C string."
  },
  {
   "property": "C16",
   "status": "partial",
   "theorems": [
    "decode_terminates_refuted",
    "decode_terminates_partial",
    "decode_hang_is_endless",
    "decode_unending_iff"
   ],
   "note": "False of the code: a length field of five continuation bytes starting 0x80 loops for ever. Proved for keys without such a place, and exactly which keys are never decoded (decode_unending_iff)."
  },
  {
   "property": "C17",
   "status": "partial",
   "theorems": [
    "decode_in_bounds_refuted",
    "decode_value_in_bounds_refuted",
    "decode_empty_rdata_name_refuted",
    "decode_in_bounds_partial",
    "decode_overreads_iff",
    "decode_never_aborts"
   ],
   "note": "False of the code: truncated varints in keys and values are read past the end. Proved under the condition 'readable', and exactly which keys and values are read past their end (decode_overreads_iff)."
  },
  {
   "property": "C18",
   "status": "partial",
   "theorems": [
    "decoded_type_partial",
    "decode_empty_key",
    "unknown_type_decoded_refuted"
   ],
   "note": "False of the code in its second half: unknown type bytes decode to a nameless RRset."
  },
  {
   "property": "C19",
   "status": "partial",
   "theorems": [
    "accessors_by_type",
    "get_rdata_index_partial",
    "get_rdata_other_types",
    "get_rdata_last_index_refuted"
   ],
   "note": "False of the code at one index: asking for rdata number n of n aborts."
  },
  {
   "property": "C20",
   "status": "proved",
   "theorems": [
    "rrset_keys_injective",
    "rdata_keys_injective"
   ],
   "note": ""
  },
  {
   "property": "C21",
   "status": "proved",
   "theorems": [
    "rrset_query_exact",
    "query_returns"
   ],
   "note": "Types below 65536 other than 255 (ANY), which the setter maps to no restriction."
  },
  {
   "property": "C22",
   "status": "proved",
   "theorems": [
    "rrset_query_left_wildcard",
    "query_returns"
   ],
   "note": ""
  },
  {
   "property": "C23",
   "status": "proved",
   "theorems": [
    "rrset_query_right_wildcard",
    "query_returns_grouped"
   ],
   "note": "When a type is given, index values must not be hit by the off-by-one of C11 for that type (owner_index_safe)."
  },
  {
   "property": "C24",
   "status": "proved",
   "theorems": [
    "rdata_name_query_exact",
    "query_returns"
   ],
   "note": "Record data of name-bearing types must be well formed (names_canonical); the type, if given, must be a name-bearing one."
  },
  {
   "property": "C25",
   "status": "proved",
   "theorems": [
    "rdata_name_query_right_wildcard",
    "rdata_name_query_left_wildcard",
    "query_returns",
    "query_returns_grouped"
   ],
   "note": "Same conditions as C23 and C24."
  },
  {
   "property": "C26",
   "status": "partial",
   "theorems": [
    "rdata_ip_query_partial",
    "rdata_ip_query_refuted"
   ],
   "note": "False of the code: some keys of other record types make the address filter read one byte behind the key (refuted with an A record met by an AAAA range). Proved for sources without such keys between the addresses asked for (no_overread_between)."
  },
  {
   "property": "C27",
   "status": "partial",
   "theorems": [
    "cidr_prefix_partial",
    "cidr_query_partial",
    "cidr_too_long_refused",
    "cidr_undefined_lengths",
    "address_texts",
    "cidr_prefix_refuted"
   ],
   "note": "False of the code: prefix lengths 0 and 1 (IPv4) and 0 and 64 (IPv6) are undefined behaviour in libmy/ip_arith.h. Proved for every other length, up to the records the query returns; longer lengths are refused. address_texts says which texts are taken at all: nothing but the documented forms, with repeated separators allowed."
  },
  {
   "property": "C28",
   "status": "proved",
   "theorems": [
    "rdata_raw_query",
    "raw_rdata_is_prefix",
    "query_returns"
   ],
   "note": ""
  },
  {
   "property": "C29",
   "status": "proved",
   "theorems": [
    "time_bounds_select",
    "query_fence"
   ],
   "note": "For every kind of query of C21-C26 and C28. See C53 for reported times."
  },
  {
   "property": "C30",
   "status": "proved",
   "theorems": [
    "fileset_query",
    "fileset_query_grouped",
    "fileset_query_unbounded"
   ],
   "note": "For the queries of C21-C26 and C28 with any bounds, and any query without bounds. What libmtbl makes of several files is a parameter constrained by SpecFileset.merges: combining values in any order and grouping."
  },
  {
   "property": "C31",
   "status": "proved",
   "theorems": [
    "fileset_query_unaggregated",
    "fileset_query_unaggregated_grouped"
   ],
   "note": "For the queries of C21-C26 and C28 with any bounds."
  },
  {
   "property": "C32",
   "status": "proved",
   "theorems": [
    "offset_skips_first"
   ],
   "note": ""
  },
  {
   "property": "C33",
   "status": "partial",
   "theorems": [
    "second_iterator_refuted",
    "second_iterator_partial"
   ],
   "note": "False of the code: an iterator uses up the offset of its query. Proved: what a second iterator leaves out, and that without an offset both list the same."
  },
  {
   "property": "C34",
   "status": "proved",
   "theorems": [
    "timeouts_lose_nothing",
    "timeouts_lose_nothing_anywhere",
    "fileset_timeouts_lose_nothing",
    "timeouts_lose_nothing_in_files"
   ],
   "note": "timeouts_lose_nothing gives the entries over well-formed tables; the other three compare with the query without timeout over any table and any files"
  },
  {
   "property": "C35",
   "status": "proved",
   "theorems": [
    "timeout_exactly_when_due",
    "overdue_call_times_out"
   ],
   "note": "Clock, timeout and deadline values have normalised nanoseconds."
  },
  {
   "property": "C36",
   "status": "partial",
   "theorems": [
    "query_filter_exact",
    "query_filter_no_bailiwick",
    "returned_accepted_partial",
    "returned_accepted_refuted"
   ],
   "note": "False of the code in one respect: entries stored with last-seen time 0 are compared with 0 by iterators and with their reported time by dnstable_query_filter. Proved: exactly when the filter accepts; and that returned entries are accepted when the record has a last-seen time or the query does not bound it."
  },
  {
   "property": "C37",
   "status": "partial",
   "theorems": [
    "reader_iterators",
    "reader_iterators_any",
    "setfile_reader_iter_refuted"
   ],
   "note": "Proved for readers over one source, over files of any content (reader_iterators_any). False for readers opened with a set of files: their iterators dereference a source that is not there."
  },
  {
   "property": "C38",
   "status": "proved",
   "theorems": [
    "ljoin_source_behaves",
    "left_join_unique",
    "stacked_sources_behave"
   ],
   "note": "Any next/seek history, any lookup window; the merge function must succeed on the common keys."
  },
  {
   "property": "C39",
   "status": "proved",
   "theorems": [
    "remove_source_behaves",
    "stacked_sources_behave"
   ],
   "note": ""
  },
  {
   "property": "C40",
   "status": "proved",
   "theorems": [
    "filter_source_behaves",
    "stacked_sources_behave"
   ],
   "note": ""
  },
  {
   "property": "C41",
   "status": "partial",
   "theorems": [
    "counters_count_events",
    "filter_counter_exact",
    "remove_counter_exact",
    "ljoin_counter_exact",
    "statistics_there",
    "statistics_count",
    "removing_files_counted",
    "fileset_files_counted_partial",
    "fileset_files_counted_twice",
    "merges_counted",
    "merge_failure_ends_delivery",
    "fileset_files_counted_refuted"
   ],
   "note": "The counters of filter, remove, join, timeout and sink stages: proved. False for the FILES counter of an unaggregated query over a set of files, which counts every file twice. Which numbers a query has is said from the query alone. Counters agree with the recorded history for every call sequence on every stack of stages; exact totals after draining one stage. How often libmtbl's mergers call the merge function is assumed: once less than a delivered key has values."
  },
  {
   "property": "C42",
   "status": "partial",
   "theorems": [
    "increment_is_least",
    "increment_jumps_nothing_partial",
    "increment_jumps_nothing_refuted"
   ],
   "note": "The least-successor part holds; the jump part is false for keys shorter than the incremented prefix (harmless for well-formed keys) and proved for all others."
  },
  {
   "property": "C43",
   "status": "partial",
   "theorems": [
    "new_query",
    "settings_last_wins",
    "settings_answers",
    "address_texts",
    "data_last_wins_partial",
    "bailiwick_last_wins",
    "data_failure_refuted"
   ],
   "note": "False of the code in one respect: a failed data or bailiwick call loses or half-replaces the previous value. Everything else is proved for every history of calls."
  },
  {
   "property": "C44",
   "status": "proved",
   "theorems": [
    "raw_hex"
   ],
   "note": ""
  },
  {
   "property": "C45",
   "status": "proved",
   "theorems": [
    "json_string_lossless",
    "json_string_unescapes_uniquely"
   ],
   "note": ""
  },
  {
   "property": "C46",
   "status": "proved",
   "theorems": [
    "json_number_decimal",
    "decimal_representation_unique"
   ],
   "note": ""
  },
  {
   "property": "C47",
   "status": "partial",
   "theorems": [
    "json_valid_partial",
    "json_record_object",
    "json_index_object",
    "json_time_range_object",
    "json_source_info_object",
    "json_version_object",
    "json_raw_type_refuted",
    "json_huge_time_refuted",
    "json_unknown_type_refuted",
    "json_source_info_utf8_refuted",
    "json_source_info_nul_refuted",
    "formatter_settings"
   ],
   "note": "Proved for every entry of a known type that decodes, with times up to the year 9999 when they are shown in RFC 3339 form and stored types below 2^21 when raw record data is shown; well-formed records print the documented members. False of the code without these conditions, as the refuted theorems show; and source information is not checked to be UTF-8 and is cut at a NUL. What libwdns prints is a parameter."
  },
  {
   "property": "C48",
   "status": "proved",
   "theorems": [
    "entry_type_names",
    "stage_names",
    "category_names",
    "printed_names"
   ],
   "note": ""
  },
  {
   "property": "C49",
   "status": "partial",
   "theorems": [
    "rfc3339_same_second_partial",
    "rfc3339_denotes_one_second",
    "rfc3339_year_10000_refuted",
    "rfc3339_huge_time_refuted"
   ],
   "note": "Proved for times before the year 10000, to which RFC 3339 is limited. Beyond it the code prints the last four digits of the year, and aborts or overflows an int for times gmtime cannot represent."
  },
  {
   "property": "C50",
   "status": "proved",
   "theorems": [
    "dupsort_order",
    "dupsort_total_preorder"
   ],
   "note": ""
  },
  {
   "property": "C51",
   "status": "partial",
   "theorems": [
    "complete_bounds_partial",
    "lookup_file",
    "lookup_set",
    "lookup_set_unaggregated",
    "complete_bounds_refuted"
   ],
   "note": "Proved for records with first-seen <= last-seen. False of the code for a stored last-seen time 0, which is reported as the first-seen time but compared as 0."
  },
  {
   "property": "C52",
   "status": "partial",
   "theorems": [
    "accepted_query_partial",
    "accepted_query_refuted"
   ],
   "note": "False of the code: several accepted histories end in a failed assertion or an access outside buffers. Proved for histories that set data, with the types the code handles, over complete databases."
  },
  {
   "property": "C53",
   "status": "partial",
   "theorems": [
    "time_bounds_reported_partial",
    "time_bounds_reported_refuted"
   ],
   "note": "Proved for records with a last-seen time, and for queries that do not bound it. False of the code otherwise: entries stored with last-seen time 0 are reported with the first-seen time but compared with 0."
  },
  {
   "property": "C54",
   "status": "proved",
   "theorems": [
    "undecodable_entries_hide_nothing"
   ],
   "note": ""
  },
  {
   "property": "C55",
   "status": "partial",
   "theorems": [
    "metadata_queries",
    "metadata_bounds",
    "metadata_bounds_refuted"
   ],
   "note": "False of the code with a time bound: the time filter then reads outside the stored value. Proved for queries without time bounds; with them, metadata_bounds proves that a query with nothing to return ends properly and that every other one reads outside a stored value at the first call that does not time out."
  },
  {
   "property": "C56",
   "status": "partial",
   "theorems": [
    "text_valid_partial",
    "text_record_lines",
    "text_index_line",
    "text_time_range_lines",
    "text_source_info_line",
    "text_version_line",
    "plain_time_denotes_one_second",
    "text_huge_time_refuted",
    "text_count_refuted",
    "text_source_info_break_refuted",
    "formatter_settings"
   ],
   "note": "Proved for every entry of a known type that decodes, with times up to the year 2147483647 (the year 9999 in RFC 3339 form) and counts whose printed form has at most 26 bytes. False of the code without these conditions, as the refuted theorems show, and source information may hold line breaks. What libwdns and the locale print is a parameter."
  },
  {
   "property": "C57",
   "status": "proved",
   "theorems": [
    "lookup_prints",
    "lookup_file",
    "lookup_set",
    "lookup_set_unaggregated",
    "lookup_metadata"
   ],
   "note": "The clock is a parameter; the number of rounds and the fuel of the model's loops are bounds that the theorems show to suffice."
  },
  {
   "property": "C58",
   "status": "partial",
   "theorems": [
    "lookup_times",
    "lookup_times_only",
    "lookup_takes_rfc3339",
    "lookup_times_before_1970",
    "lookup_time_1970_refuted",
    "lookup_time_wraps_refuted",
    "lookup_time_overflow_refuted"
   ],
   "note": "Proved for dates from 1970 to 9999, numbers below 2^63 and durations that do not reach back behind 1970. False of the code: the start of 1970 is refused, dates before 1970 become times in the far future, and durations overflow."
  },
  {
   "property": "C59",
   "status": "proved",
   "theorems": [
    "dump_prints",
    "dump_records",
    "dump_only"
   ],
   "note": "How the options are taken from the command line is C67. The output of an entry that has no text form (see C47, C56) is not covered."
  },
  {
   "property": "C60",
   "status": "proved",
   "theorems": [
    "lookup_prints",
    "lookup_file",
    "lookup_set",
    "lookup_set_unaggregated",
    "lookup_metadata"
   ],
   "note": "For databases with complete indexes, names with at most one wildcard, and types and addresses the library handles (findable); see C21-C28 for the defects outside these conditions."
  },
  {
   "property": "C61",
   "status": "proved",
   "theorems": [
    "number_arguments",
    "lookup_arguments",
    "lookup_only",
    "lookup_refused",
    "getopt_spells",
    "lookup_command_line"
   ],
   "note": "getopt belongs to the C library; it is modelled both with and without the permutation of arguments that the GNU library does. Times that overflow (C58) and address prefixes with undefined lengths (C27) are excepted from the refusals."
  },
  {
   "property": "C62",
   "status": "proved",
   "theorems": [
    "memory_safe",
    "calls_end"
   ],
   "note": "A model of the heap with one block per allocation; the contents of files and all branches that depend on data are arbitrary. That each rule is needed is shown by the examples twice_destroyed, source_closed_early, query_destroyed_early, query_without_data, whole_setfile, bailiwick_changed, unknown_formatted and change_limits_refuted. calls_end: every call returns, with an amount of fuel that depends on the history only, and the result does not depend on the fuel. Bounds of accesses within a block are the matter of C17 and C52."
  },
  {
   "property": "C63",
   "status": "partial",
   "theorems": [
    "no_leak_partial",
    "leftovers_partial",
    "no_leak_refuted"
   ],
   "note": "Proved for clients that never run an aggregated query with time_first_after or time_last_before over a set file; then remove_iter_free leaves two copies of keys behind, and nothing else is left."
  },
  {
   "property": "C64",
   "status": "partial",
   "theorems": [
    "change_limits_partial",
    "change_limits_ends_partial",
    "memory_safe",
    "calls_end",
    "change_limits_refuted"
   ],
   "note": "Proved when one of the two limits is kept, or none is cleared. False of the code when both are cleared while an iterator made with one is in use: its sources still check the limit, but query_iter_next no longer sets the jump buffer."
  },
  {
   "property": "C65",
   "status": "proved",
   "theorems": [
    "lookup_statistics"
   ],
   "note": "For every run that ends with EXIT_SUCCESS; CLOCK_MONOTONIC does not go back. What the numbers mean is C41."
  },
  {
   "property": "C66",
   "status": "proved",
   "theorems": [
    "growable_array",
    "growable_array_memory",
    "growable_array_answers_unique",
    "keys_have_room"
   ],
   "note": "A buffer that is appended to itself is read after it was moved; nothing in the library does that. Objects larger than PTRDIFF_MAX are assumed not to be granted."
  },
  {
   "property": "C67",
   "status": "proved",
   "theorems": [
    "dump_command_line",
    "dump_command_line_refused",
    "dump_command_line_only",
    "synopsis_refuted"
   ],
   "note": "For words and lines without the bytes that mark special table entries (251 and above). Refusals are proved for tame command lines: no file has a line --argv-file without =, and words like -5 do not occur together with it; those crash (C68). The two command lines in the synopsis of dnstable_dump(1), --rrset FILE and --rdata FILE, are not unambiguous abbreviations: they are refused (synopsis_refuted)."
  },
  {
   "property": "C68",
   "status": "partial",
   "theorems": [
    "dump_words_no_crash_partial",
    "dump_words_outcome",
    "dump_switched_off_aborts",
    "dump_words_crash_refuted"
   ],
   "note": "Proved for tame words (see C67) that do not switch off the section they ask for; dump_words_outcome and dump_switched_off_aborts say what tame words do altogether. False of the code: -r=no FILE fails an assertion, the byte 254 as an option letter reads behind the table, --argv-file -5 goes through a null pointer and the byte 251 given several times, or lines --argv-file in a file, overflow the queue."
  },
  {
   "property": "C69",
   "status": "partial",
   "theorems": [
    "compaction_keeps_results",
    "compaction_keeps_results_grouped",
    "merged_file_results",
    "merged_file_results_grouped",
    "file_order_irrelevant",
    "file_order_irrelevant_grouped",
    "compaction_keeps_results_unbounded",
    "compaction_keeps_results_unbounded_grouped",
    "compaction_keeps_results_refuted"
   ],
   "note": "Proved when the merged files all have a time range entry or all lack one, and without this condition for queries without time bounds. False of the code otherwise: a file without the entry merged with one that has it yields a file whose time range does not cover all it holds, and queries with time bounds pass it over."
  },
  {
   "property": "C70",
   "status": "proved",
   "theorems": [
    "offset_slices",
    "pages_once",
    "pages_complete"
   ],
   "note": "Without time limits; with them C34 says what a call after a timeout returns. For the queries C21-C28, C30 and C31 describe (proper)."
  },
  {
   "property": "C71",
   "status": "proved",
   "theorems": [
    "decode_succeeds_iff",
    "decode_overreads_iff",
    "decode_unending_iff",
    "decode_never_aborts"
   ],
   "note": "The description (holds) shows what is accepted beyond what encoders write: numbers with superfluous digits, types and counts modulo powers of two, lengths that do not end within five bytes, which count for their first digit, and entries of unknown type, which decode to an empty one. The fifth byte of a 32 bit number is shifted as by two's complement (see ModelVarint.v)."
  },
  {
   "property": "C72",
   "status": "proved",
   "theorems": [
    "aggregation_collapses",
    "aggregation_collapses_grouped"
   ],
   "note": "Times and counts are the stored ones; C13 and C14 say how a stored 0 is shown. With time bounds the two lists are related by C30 and C31 only: bounds apply to the total, or to each record."
  },
  {
   "property": "C73",
   "status": "partial",
   "theorems": [
    "error_text",
    "error_after_failure_partial",
    "error_after_failure_refuted"
   ],
   "note": "error_text says for every history which message is returned. False of the code as a whole: failures to read raw data, a version type, an address range that has not two ends, data for a time range query and a filter parameter leave no message, so that the text is that of an earlier failure or \"unknown error\"."
  },
  {
   "property": "C74",
   "status": "proved",
   "theorems": [
    "merge_any_values",
    "merge_out_of_bounds_iff",
    "merge_index_in_bounds",
    "merge_no_types_means_all_refuted"
   ],
   "note": "merges_to lists the results. merge_index_in_bounds also covers longer bitmaps. A finding on the way: two different index values whose bitmaps are all zero merge to the empty value, which stands for every type (merge_no_types_means_all_refuted)."
  },
  {
   "property": "C75",
   "status": "proved",
   "theorems": [
    "index_test_any",
    "index_test_outside_iff",
    "merged_index_keeps_types"
   ],
   "note": "The exact form of what C10 and C11 say of valid values. The byte behind the bitmap that decides is the number of the next window, or lies outside the value."
  },
  {
   "property": "C76",
   "status": "partial",
   "theorems": [
    "merge_command_hands_on_partial",
    "merge_command_exact",
    "merge_command_hands_on_iff",
    "merge_command_hands_on_refuted"
   ],
   "note": "Proved for arguments without white space and pattern characters; merge_command_exact says what happens to all others. False of the script as a whole: $@ is not quoted, so that a file name with a blank arrives as two, and empty arguments are lost."
  },
  {
   "property": "C77",
   "status": "proved",
   "theorems": [
    "every_time_has_a_date",
    "rfc3339_any_time",
    "plain_any_time"
   ],
   "note": "The form of the text output is left open for the years 2147483648 to 2147485547, where it depends on the C library whether strftime adds 1900 without overflow."
  },
  {
   "property": "C78",
   "status": "proved",
   "theorems": [
    "json_printed",
    "json_not_printed",
    "text_printed",
    "text_not_printed",
    "in_years_iff",
    "in_struct_tm_iff"
   ],
   "note": "What the members and lines say for well-formed records is C47 and C56. What libwdns and the locale print is a parameter; their strings have no NUL."
  },
  {
   "property": "C79",
   "status": "proved",
   "theorems": [
    "answers_stored_and_asked",
    "fileset_answers_stored_and_asked",
    "fileset_answers_from_files"
   ],
   "note": "Says nothing about completeness (C21-C32) or crashes (C52, C71), which need well-formed files. For address queries only the type is claimed: which addresses are returned depends on the data being addresses (C26). A table out of order is iterated in the order it has, which is an assumption about libmtbl."
  },
  {
   "property": "C80",
   "status": "proved",
   "theorems": [
    "dump_memory",
    "lookup_memory",
    "printed_not_empty",
    "answers_known"
   ],
   "note": "The programs are modelled as clients of C62's model: what they call with which handles; the blocks of argv_process are not in it. In lookup_memory the command line has been accepted (C61). That an aggregated strict lookup leaves blocks is shown by the case (finding of C63). A program that exits with failure leaves its handles to the system, which is not claimed to be otherwise."
  },
  {
   "property": "C81",
   "status": "proved",
   "theorems": [
    "memory_bounded",
    "iteration_bounded",
    "memory_bounded_refuted"
   ],
   "note": "Blocks are counted, not bytes: how long names and data are is not in the model of memory. The exception is needed (memory_bounded_refuted): such queries leave two blocks behind each (finding of C63). The numbers are upper bounds: an iterator with two filters, a timeout and a time bound takes about 40 blocks."
  },
  {
   "property": "C82",
   "status": "partial",
   "theorems": [
    "reuse_partial",
    "reuse_refuted"
   ],
   "note": "Proved for iterators made without offset and time limits, and for settings that leave the iterator alone (harmless): data, offset, aggregation, case sensitivity and time limits always, except data for an address query; type, bailiwick and time bounds unless the iterator goes on looking at them (watches_type, watches_bailiwick, watches_times). False of the code otherwise: the filters of an iterator read the query object, not a copy."
  },
  {
   "property": "C83",
   "status": "proved",
   "theorems": [
    "entries_obey_settings",
    "fileset_entries_obey_settings"
   ],
   "note": "Holds of arbitrary stored bytes. filters_type, watches_bailiwick and watches_times (SpecLive.v) say which iterators were made to filter; c83_case."
  },
  {
   "property": "C84",
   "status": "proved",
   "theorems": [
    "calls_keep_settings"
   ],
   "note": "For every session that starts with one query object without iterators; c84_case."
  },
  {
   "property": "C85",
   "status": "proved",
   "theorems": [
    "junk_hides_nothing",
    "fileset_junk_hides_nothing",
    "index_junk_hides_refuted"
   ],
   "note": "The query asks for the record alone: asks q [r] M, as in C21-C32, with M r. Offset 0. Says nothing of the case that junk makes a call crash (C52, C71). A query that follows an index is not in the property: junk in the index ends its iteration early (index_junk_hides_refuted, finding 13)."
  },
  {
   "property": "C86",
   "status": "proved",
   "theorems": [
    "iteration_ends",
    "fileset_iteration_ends",
    "asking_ends",
    "one_key_hangs_refuted"
   ],
   "note": "One number of rounds per loop suffices for all calls on an iterator, whatever the clock. The condition on keys is needed: one_key_hangs_refuted. Sortedness is what libmtbl guarantees; c79_case shows an unsorted file whose search goes back."
  },
  {
   "property": "C87",
   "status": "proved",
   "theorems": [
    "answers_in_order",
    "indexed_answers_in_order",
    "fileset_answers_in_order",
    "fileset_indexed_answers_in_order"
   ],
   "note": "Keys sorted and made of bytes; values arbitrary. That the iteration does not hang is C86."
  },
  {
   "property": "C88",
   "status": "proved",
   "theorems": [
    "dump_any_file",
    "dump_completes_iff"
   ],
   "note": "The list of harmful entries is that of C71 and C78. A result that is Hang for all large numbers of rounds is a program that does not end. What is written before a crash is not modelled: the output of the program is its output when it ends."
  },
  {
   "property": "C89",
   "status": "proved",
   "theorems": [
    "added_records_take_nothing",
    "added_records_take_nothing_grouped",
    "added_files_take_nothing",
    "added_files_take_nothing_grouped",
    "added_files_unaggregated",
    "added_files_unaggregated_grouped"
   ],
   "note": "lists says what the calls return; the offset leaves out the first of the listed entries, so the statement is made for every number of entries left out. With time bounds an added file may move an answer out of the bounds: added_files_bounds_refuted."
  },
  {
   "property": "C90",
   "status": "proved",
   "theorems": [
    "restriction_adds_nothing",
    "restriction_adds_nothing_grouped",
    "restriction_adds_nothing_files",
    "restriction_adds_nothing_files_grouped",
    "restriction_adds_nothing_unaggregated",
    "restriction_adds_nothing_unaggregated_grouped",
    "answers_within",
    "name_within_wildcard",
    "range_within_range"
   ],
   "note": "For files without the defects that the earlier query theorems name (asks and asks_grouped carry the conditions). The offset is counted over the answers of each query."
  },
  {
   "property": "C91",
   "status": "proved",
   "theorems": [
    "time_split",
    "time_split_files",
    "time_split_grouped",
    "time_split_files_grouped"
   ],
   "note": "The conditions on the files are those of asks and asks_grouped."
  },
  {
   "property": "C92",
   "status": "proved",
   "theorems": [
    "type_picks",
    "type_picks_grouped",
    "type_picks_files",
    "type_picks_files_grouped"
   ],
   "note": "Queries by address set their own type. Of names in record data the type is one whose data hold a name. The conditions on the file are those of asks and asks_grouped."
  }
 ]
}