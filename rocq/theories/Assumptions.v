(** What the theorems of MANIFEST.json rest on: all of them together, so that the
    traversal of their proofs is shared.  Generated from it. *)
From Verif Require PropsMerge PropsUnion PropsEntry PropsDecode PropsQuery PropsSettings PropsFileset PropsResume PropsDeadline PropsReader PropsReaderAny PropsIter PropsCounters PropsFormat PropsText PropsTools PropsLookup PropsGetopt PropsMemory PropsStats PropsVector PropsArgv PropsCompaction PropsPages PropsAggregate PropsErrors PropsMergeAny PropsIndexAny PropsScript PropsTimes PropsPrintable PropsSound PropsToolMemory PropsMemoryBound PropsLive PropsHidden PropsTerm PropsOrder PropsDumpAny PropsGrow PropsNarrow PropsSplit PropsTyped.

Definition every_theorem : True :=
(* C01 *)
  let _ := @PropsMerge.triplet_encoding_roundtrip in
  let _ := @PropsMerge.pair_encoding_roundtrip in
  let _ := @PropsMerge.obs_value_exists in
(* C02 *)
  let _ := @PropsMerge.merge_two_observations in
(* C03 *)
  let _ := @PropsMerge.merge_any_grouping in
  let _ := @PropsMerge.merge_order_independent in
(* C04 *)
  let _ := @PropsUnion.merge_index_is_union in
  let _ := @PropsUnion.merge_index_same in
  let _ := @PropsUnion.merge_index_empty_absorbs in
  let _ := @PropsUnion.union_encoding_exists_unique in
(* C05 *)
  let _ := @PropsUnion.merge_index_any_grouping in
  let _ := @PropsUnion.merge_index_order_independent in
(* C06 *)
  let _ := @PropsUnion.merge_index_completes_iff in
  let _ := @PropsUnion.merge_index_completes_refuted in
  let _ := @PropsUnion.merge_index_all_types_refuted in
(* C07 *)
  let _ := @PropsMerge.merge_time_ranges in
  let _ := @PropsMerge.merge_time_ranges_order_independent in
(* C08 *)
  let _ := @PropsMerge.merge_versions_lowest in
  let _ := @PropsMerge.merge_versions_order_independent in
  let _ := @PropsMerge.merge_versions_unknown_type in
(* C09 *)
  let _ := @PropsMerge.merge_other_keys in
(* C10 *)
  let _ := @PropsUnion.index_test_no_false_negative in
  let _ := @PropsUnion.index_test_empty in
  let _ := @PropsUnion.index_test_truncated_partial in
  let _ := @PropsUnion.index_test_corrupt_refuted in
(* C11 *)
  let _ := @PropsUnion.index_test_exact_partial in
  let _ := @PropsUnion.index_test_boundary in
  let _ := @PropsUnion.index_test_exact_refuted in
  let _ := @PropsUnion.index_test_in_bounds_refuted in
(* C12 *)
  let _ := @PropsUnion.index_unpack_sorted_set in
  let _ := @PropsUnion.index_unpack_all_types in
  let _ := @PropsUnion.index_unpack_lenient in
  let _ := @PropsUnion.index_unpack_accepts_only_windows in
  let _ := @PropsUnion.index_unpack_long_bitmap_refuted in
(* C13 *)
  let _ := @PropsEntry.decode_rrset_entry in
(* C14 *)
  let _ := @PropsEntry.decode_rdata_entry in
  let _ := @PropsEntry.decode_rdata_entry_unsliced in
  let _ := @PropsEntry.decode_rdata_long_slices_refuted in
(* C15 *)
  let _ := @PropsEntry.decode_rrset_name_entry in
  let _ := @PropsEntry.decode_rdata_name_entry in
  let _ := @PropsEntry.decode_time_range_entry in
  let _ := @PropsEntry.decode_source_info_entry in
  let _ := @PropsEntry.decode_version_entry in
(* C16 *)
  let _ := @PropsEntry.decode_terminates_refuted in
  let _ := @PropsEntry.decode_terminates_partial in
  let _ := @PropsEntry.decode_hang_is_endless in
  let _ := @PropsDecode.decode_unending_iff in
(* C17 *)
  let _ := @PropsEntry.decode_in_bounds_refuted in
  let _ := @PropsEntry.decode_value_in_bounds_refuted in
  let _ := @PropsEntry.decode_empty_rdata_name_refuted in
  let _ := @PropsEntry.decode_in_bounds_partial in
  let _ := @PropsDecode.decode_overreads_iff in
  let _ := @PropsDecode.decode_never_aborts in
(* C18 *)
  let _ := @PropsEntry.decoded_type_partial in
  let _ := @PropsEntry.decode_empty_key in
  let _ := @PropsEntry.unknown_type_decoded_refuted in
(* C19 *)
  let _ := @PropsEntry.accessors_by_type in
  let _ := @PropsEntry.get_rdata_index_partial in
  let _ := @PropsEntry.get_rdata_other_types in
  let _ := @PropsEntry.get_rdata_last_index_refuted in
(* C20 *)
  let _ := @PropsEntry.rrset_keys_injective in
  let _ := @PropsEntry.rdata_keys_injective in
(* C21 *)
  let _ := @PropsQuery.rrset_query_exact in
  let _ := @PropsQuery.query_returns in
(* C22 *)
  let _ := @PropsQuery.rrset_query_left_wildcard in
  let _ := @PropsQuery.query_returns in
(* C23 *)
  let _ := @PropsQuery.rrset_query_right_wildcard in
  let _ := @PropsQuery.query_returns_grouped in
(* C24 *)
  let _ := @PropsQuery.rdata_name_query_exact in
  let _ := @PropsQuery.query_returns in
(* C25 *)
  let _ := @PropsQuery.rdata_name_query_right_wildcard in
  let _ := @PropsQuery.rdata_name_query_left_wildcard in
  let _ := @PropsQuery.query_returns in
  let _ := @PropsQuery.query_returns_grouped in
(* C26 *)
  let _ := @PropsQuery.rdata_ip_query_partial in
  let _ := @PropsQuery.rdata_ip_query_refuted in
(* C27 *)
  let _ := @PropsSettings.cidr_prefix_partial in
  let _ := @PropsSettings.cidr_query_partial in
  let _ := @PropsSettings.cidr_too_long_refused in
  let _ := @PropsSettings.cidr_undefined_lengths in
  let _ := @PropsSettings.address_texts in
  let _ := @PropsSettings.cidr_prefix_refuted in
(* C28 *)
  let _ := @PropsQuery.rdata_raw_query in
  let _ := @PropsQuery.raw_rdata_is_prefix in
  let _ := @PropsQuery.query_returns in
(* C29 *)
  let _ := @PropsQuery.time_bounds_select in
  let _ := @PropsQuery.query_fence in
(* C30 *)
  let _ := @PropsFileset.fileset_query in
  let _ := @PropsFileset.fileset_query_grouped in
  let _ := @PropsFileset.fileset_query_unbounded in
(* C31 *)
  let _ := @PropsFileset.fileset_query_unaggregated in
  let _ := @PropsFileset.fileset_query_unaggregated_grouped in
(* C32 *)
  let _ := @PropsQuery.offset_skips_first in
(* C33 *)
  let _ := @PropsQuery.second_iterator_refuted in
  let _ := @PropsQuery.second_iterator_partial in
(* C34 *)
  let _ := @PropsQuery.timeouts_lose_nothing in
  let _ := @PropsResume.timeouts_lose_nothing_anywhere in
  let _ := @PropsResume.fileset_timeouts_lose_nothing in
  let _ := @PropsResume.timeouts_lose_nothing_in_files in
(* C35 *)
  let _ := @PropsDeadline.timeout_exactly_when_due in
  let _ := @PropsDeadline.overdue_call_times_out in
(* C36 *)
  let _ := @PropsReader.query_filter_exact in
  let _ := @PropsReader.query_filter_no_bailiwick in
  let _ := @PropsReader.returned_accepted_partial in
  let _ := @PropsReader.returned_accepted_refuted in
(* C37 *)
  let _ := @PropsReader.reader_iterators in
  let _ := @PropsReaderAny.reader_iterators_any in
  let _ := @PropsFileset.setfile_reader_iter_refuted in
(* C38 *)
  let _ := @PropsIter.ljoin_source_behaves in
  let _ := @PropsIter.left_join_unique in
  let _ := @PropsIter.stacked_sources_behave in
(* C39 *)
  let _ := @PropsIter.remove_source_behaves in
  let _ := @PropsIter.stacked_sources_behave in
(* C40 *)
  let _ := @PropsIter.filter_source_behaves in
  let _ := @PropsIter.stacked_sources_behave in
(* C41 *)
  let _ := @PropsIter.counters_count_events in
  let _ := @PropsIter.filter_counter_exact in
  let _ := @PropsIter.remove_counter_exact in
  let _ := @PropsIter.ljoin_counter_exact in
  let _ := @PropsCounters.statistics_there in
  let _ := @PropsCounters.statistics_count in
  let _ := @PropsCounters.removing_files_counted in
  let _ := @PropsFileset.fileset_files_counted_partial in
  let _ := @PropsFileset.fileset_files_counted_twice in
  let _ := @PropsFileset.merges_counted in
  let _ := @PropsFileset.merge_failure_ends_delivery in
  let _ := @PropsFileset.fileset_files_counted_refuted in
(* C42 *)
  let _ := @PropsQuery.increment_is_least in
  let _ := @PropsQuery.increment_jumps_nothing_partial in
  let _ := @PropsQuery.increment_jumps_nothing_refuted in
(* C43 *)
  let _ := @PropsSettings.new_query in
  let _ := @PropsSettings.settings_last_wins in
  let _ := @PropsSettings.settings_answers in
  let _ := @PropsSettings.address_texts in
  let _ := @PropsSettings.data_last_wins_partial in
  let _ := @PropsSettings.bailiwick_last_wins in
  let _ := @PropsSettings.data_failure_refuted in
(* C44 *)
  let _ := @PropsSettings.raw_hex in
(* C45 *)
  let _ := @PropsFormat.json_string_lossless in
  let _ := @PropsFormat.json_string_unescapes_uniquely in
(* C46 *)
  let _ := @PropsFormat.json_number_decimal in
  let _ := @PropsFormat.decimal_representation_unique in
(* C47 *)
  let _ := @PropsFormat.json_valid_partial in
  let _ := @PropsFormat.json_record_object in
  let _ := @PropsFormat.json_index_object in
  let _ := @PropsFormat.json_time_range_object in
  let _ := @PropsFormat.json_source_info_object in
  let _ := @PropsFormat.json_version_object in
  let _ := @PropsFormat.json_raw_type_refuted in
  let _ := @PropsFormat.json_huge_time_refuted in
  let _ := @PropsFormat.json_unknown_type_refuted in
  let _ := @PropsFormat.json_source_info_utf8_refuted in
  let _ := @PropsFormat.json_source_info_nul_refuted in
  let _ := @PropsText.formatter_settings in
(* C48 *)
  let _ := @PropsSettings.entry_type_names in
  let _ := @PropsSettings.stage_names in
  let _ := @PropsSettings.category_names in
  let _ := @PropsSettings.printed_names in
(* C49 *)
  let _ := @PropsFormat.rfc3339_same_second_partial in
  let _ := @PropsFormat.rfc3339_denotes_one_second in
  let _ := @PropsFormat.rfc3339_year_10000_refuted in
  let _ := @PropsFormat.rfc3339_huge_time_refuted in
(* C50 *)
  let _ := @PropsFileset.dupsort_order in
  let _ := @PropsFileset.dupsort_total_preorder in
(* C51 *)
  let _ := @PropsTools.complete_bounds_partial in
  let _ := @PropsLookup.lookup_file in
  let _ := @PropsLookup.lookup_set in
  let _ := @PropsLookup.lookup_set_unaggregated in
  let _ := @PropsTools.complete_bounds_refuted in
(* C52 *)
  let _ := @PropsSettings.accepted_query_partial in
  let _ := @PropsSettings.accepted_query_refuted in
(* C53 *)
  let _ := @PropsReader.time_bounds_reported_partial in
  let _ := @PropsQuery.time_bounds_reported_refuted in
(* C54 *)
  let _ := @PropsReader.undecodable_entries_hide_nothing in
(* C55 *)
  let _ := @PropsReader.metadata_queries in
  let _ := @PropsReader.metadata_bounds in
  let _ := @PropsReader.metadata_bounds_refuted in
(* C56 *)
  let _ := @PropsText.text_valid_partial in
  let _ := @PropsText.text_record_lines in
  let _ := @PropsText.text_index_line in
  let _ := @PropsText.text_time_range_lines in
  let _ := @PropsText.text_source_info_line in
  let _ := @PropsText.text_version_line in
  let _ := @PropsText.plain_time_denotes_one_second in
  let _ := @PropsText.text_huge_time_refuted in
  let _ := @PropsText.text_count_refuted in
  let _ := @PropsText.text_source_info_break_refuted in
  let _ := @PropsText.formatter_settings in
(* C57 *)
  let _ := @PropsLookup.lookup_prints in
  let _ := @PropsLookup.lookup_file in
  let _ := @PropsLookup.lookup_set in
  let _ := @PropsLookup.lookup_set_unaggregated in
  let _ := @PropsLookup.lookup_metadata in
(* C58 *)
  let _ := @PropsTools.lookup_times in
  let _ := @PropsTools.lookup_times_only in
  let _ := @PropsTools.lookup_takes_rfc3339 in
  let _ := @PropsTools.lookup_times_before_1970 in
  let _ := @PropsTools.lookup_time_1970_refuted in
  let _ := @PropsTools.lookup_time_wraps_refuted in
  let _ := @PropsTools.lookup_time_overflow_refuted in
(* C59 *)
  let _ := @PropsTools.dump_prints in
  let _ := @PropsTools.dump_records in
  let _ := @PropsTools.dump_only in
(* C60 *)
  let _ := @PropsLookup.lookup_prints in
  let _ := @PropsLookup.lookup_file in
  let _ := @PropsLookup.lookup_set in
  let _ := @PropsLookup.lookup_set_unaggregated in
  let _ := @PropsLookup.lookup_metadata in
(* C61 *)
  let _ := @PropsTools.number_arguments in
  let _ := @PropsTools.lookup_arguments in
  let _ := @PropsTools.lookup_only in
  let _ := @PropsTools.lookup_refused in
  let _ := @PropsGetopt.getopt_spells in
  let _ := @PropsGetopt.lookup_command_line in
(* C62 *)
  let _ := @PropsMemory.memory_safe in
  let _ := @PropsMemory.calls_end in
(* C63 *)
  let _ := @PropsMemory.no_leak_partial in
  let _ := @PropsMemory.leftovers_partial in
  let _ := @PropsMemory.no_leak_refuted in
(* C64 *)
  let _ := @PropsMemory.change_limits_partial in
  let _ := @PropsMemory.change_limits_ends_partial in
  let _ := @PropsMemory.memory_safe in
  let _ := @PropsMemory.calls_end in
  let _ := @PropsMemory.change_limits_refuted in
(* C65 *)
  let _ := @PropsStats.lookup_statistics in
(* C66 *)
  let _ := @PropsVector.growable_array in
  let _ := @PropsVector.growable_array_memory in
  let _ := @PropsVector.growable_array_answers_unique in
  let _ := @PropsVector.keys_have_room in
(* C67 *)
  let _ := @PropsArgv.dump_command_line in
  let _ := @PropsArgv.dump_command_line_refused in
  let _ := @PropsArgv.dump_command_line_only in
  let _ := @PropsArgv.synopsis_refuted in
(* C68 *)
  let _ := @PropsArgv.dump_words_no_crash_partial in
  let _ := @PropsArgv.dump_words_outcome in
  let _ := @PropsArgv.dump_switched_off_aborts in
  let _ := @PropsArgv.dump_words_crash_refuted in
(* C69 *)
  let _ := @PropsCompaction.compaction_keeps_results in
  let _ := @PropsCompaction.compaction_keeps_results_grouped in
  let _ := @PropsCompaction.merged_file_results in
  let _ := @PropsCompaction.merged_file_results_grouped in
  let _ := @PropsCompaction.file_order_irrelevant in
  let _ := @PropsCompaction.file_order_irrelevant_grouped in
  let _ := @PropsCompaction.compaction_keeps_results_unbounded in
  let _ := @PropsCompaction.compaction_keeps_results_unbounded_grouped in
  let _ := @PropsCompaction.compaction_keeps_results_refuted in
(* C70 *)
  let _ := @PropsPages.offset_slices in
  let _ := @PropsPages.pages_once in
  let _ := @PropsPages.pages_complete in
(* C71 *)
  let _ := @PropsDecode.decode_succeeds_iff in
  let _ := @PropsDecode.decode_overreads_iff in
  let _ := @PropsDecode.decode_unending_iff in
  let _ := @PropsDecode.decode_never_aborts in
(* C72 *)
  let _ := @PropsAggregate.aggregation_collapses in
  let _ := @PropsAggregate.aggregation_collapses_grouped in
(* C73 *)
  let _ := @PropsErrors.error_text in
  let _ := @PropsErrors.error_after_failure_partial in
  let _ := @PropsErrors.error_after_failure_refuted in
(* C74 *)
  let _ := @PropsMergeAny.merge_any_values in
  let _ := @PropsMergeAny.merge_out_of_bounds_iff in
  let _ := @PropsMergeAny.merge_index_in_bounds in
  let _ := @PropsMergeAny.merge_no_types_means_all_refuted in
(* C75 *)
  let _ := @PropsIndexAny.index_test_any in
  let _ := @PropsIndexAny.index_test_outside_iff in
  let _ := @PropsIndexAny.merged_index_keeps_types in
(* C76 *)
  let _ := @PropsScript.merge_command_hands_on_partial in
  let _ := @PropsScript.merge_command_exact in
  let _ := @PropsScript.merge_command_hands_on_iff in
  let _ := @PropsScript.merge_command_hands_on_refuted in
(* C77 *)
  let _ := @PropsTimes.every_time_has_a_date in
  let _ := @PropsTimes.rfc3339_any_time in
  let _ := @PropsTimes.plain_any_time in
(* C78 *)
  let _ := @PropsPrintable.json_printed in
  let _ := @PropsPrintable.json_not_printed in
  let _ := @PropsPrintable.text_printed in
  let _ := @PropsPrintable.text_not_printed in
  let _ := @PropsPrintable.in_years_iff in
  let _ := @PropsPrintable.in_struct_tm_iff in
(* C79 *)
  let _ := @PropsSound.answers_stored_and_asked in
  let _ := @PropsSound.fileset_answers_stored_and_asked in
  let _ := @PropsSound.fileset_answers_from_files in
(* C80 *)
  let _ := @PropsToolMemory.dump_memory in
  let _ := @PropsToolMemory.lookup_memory in
  let _ := @PropsToolMemory.printed_not_empty in
  let _ := @PropsToolMemory.answers_known in
(* C81 *)
  let _ := @PropsMemoryBound.memory_bounded in
  let _ := @PropsMemoryBound.iteration_bounded in
  let _ := @PropsMemoryBound.memory_bounded_refuted in
(* C82 *)
  let _ := @PropsLive.reuse_partial in
  let _ := @PropsLive.reuse_refuted in
(* C83 *)
  let _ := @PropsLive.entries_obey_settings in
  let _ := @PropsLive.fileset_entries_obey_settings in
(* C84 *)
  let _ := @PropsLive.calls_keep_settings in
(* C85 *)
  let _ := @PropsHidden.junk_hides_nothing in
  let _ := @PropsHidden.fileset_junk_hides_nothing in
  let _ := @PropsHidden.index_junk_hides_refuted in
(* C86 *)
  let _ := @PropsTerm.iteration_ends in
  let _ := @PropsTerm.fileset_iteration_ends in
  let _ := @PropsTerm.asking_ends in
  let _ := @PropsTerm.one_key_hangs_refuted in
(* C87 *)
  let _ := @PropsOrder.answers_in_order in
  let _ := @PropsOrder.indexed_answers_in_order in
  let _ := @PropsOrder.fileset_answers_in_order in
  let _ := @PropsOrder.fileset_indexed_answers_in_order in
(* C88 *)
  let _ := @PropsDumpAny.dump_any_file in
  let _ := @PropsDumpAny.dump_completes_iff in
(* C89 *)
  let _ := @PropsGrow.added_records_take_nothing in
  let _ := @PropsGrow.added_records_take_nothing_grouped in
  let _ := @PropsGrow.added_files_take_nothing in
  let _ := @PropsGrow.added_files_take_nothing_grouped in
  let _ := @PropsGrow.added_files_unaggregated in
  let _ := @PropsGrow.added_files_unaggregated_grouped in
(* C90 *)
  let _ := @PropsNarrow.restriction_adds_nothing in
  let _ := @PropsNarrow.restriction_adds_nothing_grouped in
  let _ := @PropsNarrow.restriction_adds_nothing_files in
  let _ := @PropsNarrow.restriction_adds_nothing_files_grouped in
  let _ := @PropsNarrow.restriction_adds_nothing_unaggregated in
  let _ := @PropsNarrow.restriction_adds_nothing_unaggregated_grouped in
  let _ := @PropsNarrow.answers_within in
  let _ := @PropsNarrow.name_within_wildcard in
  let _ := @PropsNarrow.range_within_range in
(* C91 *)
  let _ := @PropsSplit.time_split in
  let _ := @PropsSplit.time_split_files in
  let _ := @PropsSplit.time_split_grouped in
  let _ := @PropsSplit.time_split_files_grouped in
(* C92 *)
  let _ := @PropsTyped.type_picks in
  let _ := @PropsTyped.type_picks_grouped in
  let _ := @PropsTyped.type_picks_files in
  let _ := @PropsTyped.type_picks_files_grouped in
  I.
Print Assumptions every_theorem.
