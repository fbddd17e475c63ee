{"claims": [
 {"property": "C01", "status": "proved", "theorems": ["C01_fromInt_toInt", "C01_toInt_fromInt", "C01_toInt_monotone", "C01_operator_lt", "C01_toInt_first", "C01_toInt_next_day"], "note": ""},
 {"property": "C02", "status": "proved", "theorems": ["C02_add_days_valid", "C02_add_days_walks_calendar", "C02_add_one_day", "C02_add_then_sub", "C02_add_add", "C02_wraps_at_end"], "note": ""},
 {"property": "C03", "status": "partial", "theorems": ["C03_calendar_agreement_refuted", "C03_calendar_agreement_partial", "C03_elapsed_days_refuted"], "note": "False of the code as stated (refuted: 1900-02-28 + 1 day gives 1900-02-29, which validateDate rejects; elapsed days across 1900 differ). Proved for every result whose year is not a century year skipped by the Gregorian rule."},
 {"property": "C04", "status": "proved", "theorems": ["C04_to_unix_defined", "C04_epoch", "C04_next_second", "C04_round_trip", "C04_from_unix_valid", "C04_out_of_window_termination_refuted"], "note": "Proved for every date-time and every instant of the years -32768..32767. In addition, outside that window the conversion can loop forever (C04_out_of_window_termination_refuted)."},
 {"property": "C05", "status": "proved", "theorems": ["C05_shift_adds", "C05_shift_back", "C05_utc_round_trip", "C05_time_shift_mod_day", "C05_time_shift_back", "C05_to_utc", "C05_date_shift_days"], "note": ""},
 {"property": "C06", "status": "partial", "theorems": ["C06_local_now_refuted", "C06_local_now_only_offset_zero", "C06_local_now_is_opposite_offset_partial", "C06_one_instant"], "note": "False of the code as stated (refuted: the offset is subtracted). Proved: it agrees with utcToDateTime exactly when the offset is 0, and always equals the conversion for the opposite offset."},
 {"property": "C07", "status": "partial", "theorems": ["C07_validate_exact_refuted", "C07_validate_month_out_of_range", "C07_validate_exact_partial"], "note": "False of the code as stated (refuted: day 0 is accepted; months outside 1..12 read outside the table). Proved exact for months 1..12 and days >= 1."},
 {"property": "C08", "status": "partial", "theorems": ["C08_int_arithmetic_exact", "C08_int_remainder_exact", "C08_remainder_defined_refuted"], "note": "All but one part proved for all 64-bit operands. False as stated for the remainder: INT64_MIN % -1 is undefined (refuted). Division of INT64_MIN by -1, sums, differences, products and negation are exact or an overflow null."},
 {"property": "C09", "status": "proved", "theorems": ["C09_null_empty_propagate", "C09_empty_only_from_empty", "C09_connectives"], "note": ""},
 {"property": "C10", "status": "partial", "theorems": ["C10_equivalence_without_floats", "C10_symmetric", "C10_reflexive_refuted", "C10_transitive_refuted"], "note": "False of the code as stated: NaN is not equal to itself and the float tolerance is not transitive (refuted). Symmetry is proved for all well-formed values, and equivalence for all well-formed values without floats, nested to any depth."},
 {"property": "C11", "status": "partial", "theorems": ["C11_strict_weak_order", "C11_direction_consistent", "C11_incomparability_nan_refuted", "C11_incomparability_large_int_refuted", "C11_incomparability_path_refuted"], "note": "Proved a strict weak order for all orderable values (no NaN, integers below 2^53 when mixed with floats, paths without steps of differing shape as in the definition of orderable). Outside it fails (three refuted theorems: NaN, large integers against floats, paths)."},
 {"property": "C12", "status": "partial", "theorems": ["C12_equal_hash_equal", "C12_int_float_refuted", "C12_float_refuted", "C12_null_id_refuted"], "note": "False of the code as stated: 1 and 1.0 are equal but hash differently, floats within the tolerance too, and null ids (refuted). Proved for values without floats whose vertex and edge ids are plain scalars."},
 {"property": "C13", "status": "partial", "theorems": ["C13_equal", "C13_lessThan", "C13_lessThan_operator_refuted"], "note": "equal and lessThan are characterised exactly for all pairs. lessThan does not agree with operator< on all comparable pairs (refuted with witness)."},
 {"property": "C14", "status": "proved", "theorems": ["C14_bucket_capacity_and_values", "C14_cache_capacity", "C14_cached_value_is_last_stored", "C14_bucket_index_in_range", "C14_inconsistent_hints_refuted"], "note": "Capacity is proved for every history; the last-stored-value part for histories that send a key always to the same bucket, and shown false (C14_inconsistent_hints_refuted) when hints for one key differ."},
 {"property": "C15", "status": "proved", "theorems": ["C15_bucket_refines_recency_list", "C15_insert_new_into_full", "C15_get_and_insert_make_most_recent"], "note": ""},
 {"property": "C16", "status": "proved", "theorems": ["C16_counters_exact", "C16_cache_counters"], "note": ""},
 {"property": "C17", "status": "proved", "theorems": ["C17_cord_exact_builder", "C17_cord_append_cord", "C17_append_empty_cord_refuted", "C17_append_mixed_block_sizes_refuted", "C17_typed_writes"], "note": "Proved for every history of writes and clears and every positive content size, including a per-chunk description of applyTo and << of a non-empty Cord with the same block size. Outside the claim: << of an empty Cord, or of a Cord with other block sizes, is undefined (the two _refuted theorems)."},
 {"property": "C18", "status": "partial", "theorems": ["C18_icord_exact_builder", "C18_icord_apply_partial_block", "C18_icord_append_icord", "C18_icord_apply_full_block_refuted", "C18_icord_full_block_refuted", "C18_icord_write_after_clear_refuted"], "note": "False of the code as stated: applyTo and << drop the last block when it is exactly full, and a write after clear() goes through a null pointer (refuted). Proved: str/appendTo/size for every sequence of writes; applyTo and << whenever the size is not a multiple of the block size."},
 {"property": "C19", "status": "partial", "theorems": ["C19_status_history", "C19_move_and_copy", "C19_equality_is_code_equality", "C19_long_message_refuted", "C19_format_truncates_refuted", "C19_format_prefix"], "note": "Proved for every history of constructions, formatted constructions, copies and moves with messages shorter than 65536 bytes. The message part is false beyond that: the length is stored in 16 bits, and printf-style construction keeps 255 characters (the two _refuted theorems)."},
 {"property": "C20", "status": "proved", "theorems": ["C20_either_or_history", "C20_status_or_history", "C20_no_leak", "C20_self_content_assignment_refuted", "C20_error_or", "C20_ok_without_value_refuted"], "note": "Proved for EitherOr and StatusOr over any number of objects, including leak freedom. Outside the claim: assigning an object a reference to its own content is undefined (C20_self_content_assignment_refuted)."},
 {"property": "C21", "status": "proved", "theorems": ["C21_murmur_is_reference", "C21_murmur_range"], "note": ""},
 {"property": "C22", "status": "proved", "theorems": ["C22_part_id_in_range", "C22_integer_ids", "C22_ids_with_nul_share_partition"], "note": ""},
 {"property": "C23", "status": "proved", "theorems": ["C23_no_early_return", "C23_all_released", "C23_no_deadlock"], "note": ""},
 {"property": "C24", "status": "proved", "theorems": ["C24_generations", "C24_reusable", "C24_throwing_completion_refuted"], "note": "Proved for every schedule and fewer than 2^64 generations. Outside the claim: if the completion callback throws, the waiters of that generation stay asleep (C24_throwing_completion_refuted)."},
 {"property": "C25", "status": "proved", "theorems": ["C25_fifo_exactly_once", "C25_mark_meaning", "C25_no_lost_wakeup"], "note": ""},
 {"property": "C26", "status": "partial", "theorems": ["C26_purge_race_refuted", "C26_purged_outside_window", "C26_after_processing"], "note": "False of the code as stated: a purge request that arrives while its timer still waits in pendingTimers_ and the worker is between taking the timers and taking the purge requests is consumed without effect (refuted). Proved for every purge outside that window."},
 {"property": "C27", "status": "proved", "theorems": ["C27_pool_timer_ids", "C27_bounds_tight_refuted"], "note": "Proved for pools of at most 2^16 workers and fewer than 2^48 timers per worker; both bounds are shown necessary (C27_bounds_tight_refuted)."},
 {"property": "C28", "status": "proved", "theorems": ["C28_completes_exactly_once", "C28_degenerate", "C28_only_succeeded_values_refuted"], "note": "Proved as stated. The header comment in addition promises only succeeded values, which is false (C28_only_succeeded_values_refuted)."},
 {"property": "C29", "status": "partial", "theorems": ["C29_genuine_sample", "C29_exact_distribution", "C29_held_is_the_run", "C29_uniform_refuted"], "note": "Size, provenance and distinct positions are proved for all streams and draws. The probability part is false: the exact distribution is proved by counting draw sequences and is not uniform (refuted)."},
 {"property": "C30", "status": "partial", "theorems": ["C30_roundtrip", "C30_consumes_exactly", "C30_prefix_free", "C30_input_property_refuted", "C30_aggregate_without_argument_refuted", "C30_roundtrip_on_the_wire"], "note": "Proved for every tree built from the decodable kinds, given a Value serializer that gives back the constants of the tree (codecFor states what is needed), and for the byte-level model of the actual serializer (C30_roundtrip_on_the_wire; constants as in C76 with edge types -1, 0, 1). False as stated for input and variable property expressions (the decoder aborts) and for an aggregate without an argument: refuted with witnesses."},
 {"property": "C31", "status": "partial", "theorems": ["C31_every_index_refuted", "C31_column_zero_aborts_refuted", "C31_wrong_column_refuted"], "note": "False for every index: the index is written as an 8-byte size and read as a serialized Value. Proved with the byte-level serializer: no int32 index comes back as itself; column 0 ends the process, column 1078 silently becomes column 2."},
 {"property": "C32", "status": "partial", "theorems": ["C32_and", "C32_or", "C32_xor", "C32_xor_without_operands_refuted", "C32_order_irrelevant", "C32_stops"], "note": "Proved for AND, OR over any number of operands and XOR over at least one; operands that evaluate without changing the variables. An XOR without operands gives an old result (refuted with witness)."},
 {"property": "C33", "status": "partial", "theorems": ["C33_null_then_empty_refuted", "C33_exact"], "note": "False of the code: null before empty gives a bad-type null, empty before null gives null (refuted). C33_exact gives the result for every list of nulls and empties."},
 {"property": "C34", "status": "partial", "theorems": ["C34_trichotomy", "C34_antisymmetric", "C34_null", "C34_derived", "C34_exactly_one_refuted", "C34_greater_refuted"], "note": "Proved for every pair of comparable scalars (Boolean, integer, float, string, date, time, datetime), with the ordering specified separately. False as stated for edges (equal and less at once), NaN and infinities: refuted. C34_derived covers values of every type."},
 {"property": "C35", "status": "proved", "theorems": ["C35_subscript", "C35_subscript_total", "C35_slice"], "note": "Proved for every list shorter than 2^62 elements and every 64-bit bound."},
 {"property": "C36", "status": "proved", "theorems": ["C36_first_match", "C36_default", "C36_condition_must_be_boolean"], "note": ""},
 {"property": "C37", "status": "proved", "theorems": ["C37_quantifiers", "C37_filter_must_be_boolean", "C37_stops"], "note": ""},
 {"property": "C38", "status": "proved", "theorems": ["C38_comprehension", "C38_reduce", "C38_not_a_list"], "note": ""},
 {"property": "C39", "status": "partial", "theorems": ["C39_memoryless", "C39_attribute", "C39_attribute_refuted"], "note": "False of the code for an attribute expression on an edge with an unknown name starting with an underscore (refuted: it returns the result of an earlier row). Proved for all other attributes, and for every tree without attribute, UUID and operand-less XOR nodes."},
 {"property": "C40", "status": "partial", "theorems": ["C40_pad", "C40_negative", "C40_empty_pad_refuted", "C40_huge_refuted"], "note": "Proved for a size from 0 with a non-empty pad (and below 2^31 when it shortens the string). False of the code otherwise: an empty pad loops for ever, and a size of 2^31 or more that shortens the string is truncated (both refuted)."},
 {"property": "C41", "status": "partial", "theorems": ["C41_left", "C41_right", "C41_substr", "C41_substr_to_end", "C41_negative", "C41_length_truncated_refuted"], "note": "left and right are proved for all 64-bit sizes. substr is proved for lengths below 2^31 and strings below 2^31 bytes; its length argument is truncated to 32 bits, so the claim is false for larger ones (refuted)."},
 {"property": "C42", "status": "partial", "theorems": ["C42_range", "C42_zero_step", "C42_overflow_refuted"], "note": "Proved whenever the value after the last element is an int64. Otherwise the loop's addition overflows, for every such triple (refuted)."},
 {"property": "C43", "status": "partial", "theorems": ["C43_average", "C43_average_ints", "C43_std_steps", "C43_sum_doubles", "C43_std_is_deviation", "C43_null_ignored", "C43_only_nulls", "C43_error_is_final", "C43_bad_type", "C43_count", "C43_sum", "C43_sum_overflow", "C43_bits", "C43_max_min", "C43_collect", "C43_collect_set", "C43_distinct", "C43_order_count", "C43_order_bits", "C43_order_max_min", "C43_order_sum_refuted", "C43_order_max_nan_refuted"], "note": "Null/empty inputs, error nulls, COUNT, SUM, AVG, STD, MAX, MIN, BIT_*, COLLECT, COLLECT_SET and DISTINCT are proved: AVG is the double sum over the exact count (for integers the exact sum, rounded once), STD the square root of steps in double precision that in rational arithmetic give the population variance; how far rounding takes STD from it is not stated. Order independence is proved for COUNT, BIT_* and, up to incomparability, for orderable values under MAX and MIN; it is false of SUM (an intermediate overflow is final) and of MAX with NaN (refuted)."},
 {"property": "C44", "status": "partial", "theorems": ["C44_reverse_twice", "C44_equals_its_reversal", "C44_type_zero_refuted", "C44_equal_same_key", "C44_same_key_equal", "C44_equal_same_hash", "C44_format_positive", "C44_smallest_type_refuted"], "note": "Proved for every edge of type other than 0 and -2^31. False as stated for type 0 (an edge of type 0 need not equal its reversal) and type -2^31 (negation is undefined): refuted with witnesses. Keys and properties are shown to decide equality in both directions."},
 {"property": "C45", "status": "partial", "theorems": ["C45_equal_not_ordered_refuted", "C45_same_type_not_ordered"], "note": "False of the code as stated: an edge and its reversal are equal and ordered (refuted). Proved for equal edges of the same type."},
 {"property": "C46", "status": "partial", "theorems": ["C46_reverse", "C46_reverse_twice", "C46_append_continues", "C46_append_refused", "C46_append_discontinuous_refuted", "C46_append_empty_refuted"], "note": "Reversal and concatenation proved for every path. False as stated: a path with the same source is accepted though it does not continue the first (refuted), and appending to a path without steps is undefined (refuted)."},
 {"property": "C47", "status": "partial", "theorems": ["C47_emplace", "C47_append", "C47_append_headless_refuted", "C47_merge", "C47_merge_names_refuted", "C47_columns"], "note": "Row widths, order and refusal proved; column reads proved in bounds. False as stated: after a merge the values under a name change (refuted), and appending to a headerless data set that already has rows breaks the row width (refuted)."},
 {"property": "C48", "status": "partial", "theorems": ["C48_unique_ids", "C48_addressing", "C48_sign", "C48_no_failure", "C48_sign_refuted"], "note": "Proved for every sequence of registrations in which no name is registered both as a series and as a histogram. With such a clash the release build returns the other kind's id (refuted with witness)."},
 {"property": "C49", "status": "partial", "theorems": ["C49_groups", "C49_succeeds", "C49_no_parts_refuted"], "note": "Proved for every space with at least one part, all ids and any current leaders. A space without parts divides by zero (refuted)."},
 {"property": "C50", "status": "proved", "theorems": ["C50_at_most_once", "C50_complete", "C50_request_found", "C50_no_deadlock", "C50_every_run_ends", "C50_completeness_is_percentage", "C50_exactly_once"], "note": "Proved for every number of hosts, every answer and every interleaving of the sending loop and the callbacks: at most one value, delivered only after all is done, complete; no deadlock and every run is finite."},
 {"property": "C51", "status": "partial", "theorems": ["C51_update_is_kept", "C51_round_robin", "C51_visits_all", "C51_next_differs", "C51_lookup_tracks", "C51_load_tracks", "C51_is_replica", "C51_refuses", "C51_update_then_invalidate_refuted", "C51_no_replicas_refuted", "C51_concurrent_refuted"], "note": "Proved for sequential calls. False as stated: an updated leader that is invalidated can be picked again at once, a part without replicas is a division by zero, and two concurrent callers can pick differently (all refuted with witnesses)."},
 {"property": "C52", "status": "proved", "theorems": ["C52_notifications_reproduce", "C52_each_change_once"], "note": "Proved for all caches whose maps have distinct keys: a follower that knows the old assignment of the local host knows the new one after the notifications, every notification is applicable when it arrives, and each changed part is reported once. Callbacks are a list of notes; the cache is the parts-by-host and hosts-by-part maps loadData builds."},
 {"property": "C53", "status": "partial", "theorems": ["C53_notifications_reproduce", "C53_peers_changed_refuted"], "note": "As stated it is false: when the replicas of a listened part change, listenerDiff reports the listener as added with the new peers and then as removed by its type (C53_peers_changed_refuted). C53_notifications_reproduce proves the claim for every pair of caches in which no listener that stays has changed peers."},
 {"property": "C54", "status": "partial", "theorems": ["C54_builds", "C54_layout", "C54_ranges_partition", "C54_lookup_agrees", "C54_iterator_visits_all", "C54_duplicate_name_refuted", "C54_negative_length_refuted"], "note": "Proved for all columns with non-negative lengths and distinct names: offsets and ranges, null-flag numbering, lookups and the iterator. A duplicated name makes lookup by name miss the earlier field, and a negative fixed-string length makes offsets decrease (both refuted)."},
 {"property": "C55", "status": "partial", "theorems": ["C55_persist_then_read", "C55_persist_succeeds", "C55_crash_reads_old_new_or_none", "C55_crash_loses_the_id_refuted", "C55_failed_write_loses_the_id_refuted"], "note": "That a successful persist is read back, and that a crash never leaves a wrong id, are proved. False as stated: the old file is removed first, so a crash in between or a failing write leaves no id at all (both refuted with witness)."},
 {"property": "C56", "status": "proved", "theorems": ["C56_elapsed_modulo", "C56_elapsed_exact", "C56_elapsed_nanoseconds"], "note": "Proved for every sequence of calls: exactly for a clock that does not go back and a life below 2^64 ticks, modulo 2^64 otherwise. On x86 in ticks (the floating conversion of ticks to time is not modelled), on other architectures in the reported unit."},
 {"property": "C57", "status": "proved", "theorems": ["C57_four_octets", "C57_readable", "C57_distinct"], "note": "Proved for every 32-bit address: four decimal octets, read back to the same address, distinct addresses have distinct texts, and nothing is written outside the buffer."},
 {"property": "C58", "status": "partial", "theorems": ["C58_divide_join", "C58_divide_join_local", "C58_divide_join_slash", "C58_join_divide", "C58_documented", "C58_parent_shorter", "C58_double_slash_refuted", "C58_nul_refuted"], "note": "Proved for directories that do not end in two slashes and components without a slash or NUL. False for a directory ending in two slashes and for strings with a NUL (refuted)."},
 {"property": "C59", "status": "partial", "theorems": ["C59_bounded_and_answered_once", "C59_answer", "C59_first_success", "C59_error_otherwise", "C59_follows_the_leader", "C59_hosts_tried", "C59_first_success_refuted", "C59_same_host_again_refuted"], "note": "The bound on attempts, the single answer, the host each attempt goes to and what is answered are proved for every sequence of outcomes. Two readings are false and refuted: a response with an error code other than leader-changed ends the request even if a later attempt would succeed, and a retry may ask the same host again."},
 {"property": "C60", "status": "partial", "theorems": ["C60_tag_latest_is_max", "C60_edge_latest_is_first", "C60_edge_latest_is_max", "C60_edge_latest_refuted"], "note": "Proved for tags for every answer; for edges the stored latest version is the one of the first item of the type, which is the maximum if the server sends the versions newest first in one run. Otherwise it is not (refuted)."},
 {"property": "C61", "status": "proved", "theorems": ["C61_oneshot_at_most_once"], "note": ""},
 {"property": "C62", "status": "proved", "theorems": ["C62_duplicate_vertices_exact", "C62_duplicate_edges_exact"], "note": ""},
 {"property": "C63", "status": "proved", "theorems": ["C63_split", "C63_cuts_unique", "C63_replace", "C63_empty_delimiter", "C63_replace_same", "C63_other_arguments"], "note": "The result of split is the unique way to cut at the occurrences found from the left; replace puts the new text at exactly those. An empty delimiter is found nowhere."},
 {"property": "C64", "status": "proved", "theorems": ["C64_connected", "C64_direction", "C64_endpoints"], "note": "Proved for every path, with startnode and endnode as first and last node; C64_direction restates the direction with the src and dst functions."},
 {"property": "C65", "status": "partial", "theorems": ["C65_head_tail", "C65_defined", "C65_empty_refuted"], "note": "Proved for every list with at least one element. head and last of the empty list read an element that is not there (refuted)."},
 {"property": "C66", "status": "proved", "theorems": ["C66_keys"], "note": "Proved for every vertex, edge and map: strictly ascending, each once, exactly the property names."},
 {"property": "C67", "status": "partial", "theorems": ["C67_start_is_src", "C67_reverse_keeps_src", "C67_negative_type_refuted", "C67_reverse_start_refuted", "C67_type_zero_refuted"], "note": "src and dst agree with start and end node for positive types, and are not changed by reversal for types other than 0 and -2^31. False otherwise (refuted with witnesses)."},
 {"property": "C68", "status": "partial", "theorems": ["C68_cell", "C68_named_column", "C68_short_row_refuted"], "note": "Proved for every data set whose rows have at least as many cells as there are columns. A shorter row is read past its end (refuted)."},
 {"property": "C69", "status": "partial", "theorems": ["C69_published_readable", "C69_parsed_percentiles", "C69_dotted_name_refuted", "C69_dotted_percentile_refuted", "C69_statistics_asked_for", "C69_percentile_value", "C69_percentile_refused", "C69_text_read"], "note": "Proved for counter names without a dot and percentiles whose decimal text strToPct reads back; what is published for a name is what its last registration asked for, after any history, and the text asking for it is read word by word in order. False for names or percentiles containing a dot (refuted)."},
 {"property": "C70", "status": "partial", "theorems": ["C70_loads", "C70_tag_schemas", "C70_edge_schemas", "C70_old_to_new_refuted"], "note": "Proved for answers whose items of one id come newest first. An answer in the other order makes loadSchemas write behind the end of the vector (refuted)."},
 {"property": "C71", "status": "proved", "theorems": ["C71_names_and_ids"], "note": ""},
 {"property": "C72", "status": "partial", "theorems": ["C72_port", "C72_round_trip", "C72_results", "C72_from_the_text", "C72_ipv6_refuted", "C72_blank_refuted"], "note": "Proved for host names without ':', ',' and without leading blanks. False for IPv6 addresses and names with a leading blank (refuted)."},
 {"property": "C73", "status": "partial", "theorems": ["C73_dirname_basename", "C73_trailing_slash", "C73_agrees_with_dividePath", "C73_line_end_refuted", "C73_two_slashes_refuted"], "note": "Proved for paths without a line end, ending in at most one slash. Line ends and two slashes at the end give other results (refuted)."},
 {"property": "C74", "status": "partial", "theorems": ["C74_true_means_gone", "C74_left_is_part", "C74_recursive_exact", "C74_flat_exact", "C74_flat_keeps_subdirs", "C74_nonempty_directory_refuted", "C74_failed_removal_refuted"], "note": "That true means gone, that nothing else is touched and what is left after a failure is part of the old tree are proved for all trees. False as documented: without the recursive flag a directory of plain files is removed, and a failing removal has removed files already (refuted)."},
 {"property": "C75", "status": "partial", "theorems": ["C75_makes_the_way", "C75_ends", "C75_true_means_there", "C75_keeps_what_exists", "C75_link_refuted"], "note": "Ending, keeping what exists and what true means are proved for every path, tree and permissions; that the way is made is proved for paths without '..' (a component '..' is a plain name in the model) and trees where the way is clear. For a symbolic link at the path makeDir returns true without looking whether it leads to a directory (refuted)."},
 {"property": "C76", "status": "partial", "theorems": ["C76_value_arrives", "C76_rest_stays", "C76_directions_arrive_whole", "C76_writes_bytes", "C76_edge_type_refuted", "C76_set_loses_an_edge_refuted"], "note": "Proved for every value whose members are in the range of their C++ types, with sizes below 2^31, distinct map keys and hashable distinct set elements: everything arrives except that edge and step types are reduced to their sign; the value arrives whole if they are -1, 0 or 1. False as stated otherwise: an edge type outside -1..1 is lost, and a set can lose an edge (refuted)."},
 {"property": "C77", "status": "partial", "theorems": ["C77_reading_ends", "C77_reads_from_the_front", "C77_what_follows_is_ignored", "C77_set_of_map_aborts_refuted", "C77_edge_members_unset_refuted", "C77_hour_of_wrong_type_doubled_refuted"], "note": "Proved: reading ends for all bytes, consumes at least one byte from the front and does not depend on what follows. False as stated: a set holding a map ends the process in hash, an edge struct without fields has uninitialised type and ranking, and a time whose hour is a 16-bit field is accepted with the hour doubled (refuted). The depth of the native stack is not modelled."},
 {"property": "C78", "status": "proved", "theorems": ["C78_cut_is_refused", "C78_no_encoding_begins_another"], "note": ""},
 {"property": "C79", "status": "partial", "theorems": ["C79_decides_sameness", "C79_equivalence", "C79_equal_evaluates_equally", "C79_evaluates_equally_refuted", "C79_reflexive_refuted", "C79_aggregates_refuted", "C79_defined_refuted", "C79_text_search_refuted", "C79_text_argument", "C79_text_argument_refuted"], "note": "Proved for trees with no missing sub-expression, without text search and with constants equal only to themselves (no floats, bad nulls, graph values): == is true exactly if the trees agree up to original text, inner flag and distinct flag, and then they evaluate alike. False otherwise (refuted with witnesses): 1/2 equals 1.0/2, NaN differs from itself, distinct is ignored, missing version or argument is dereferenced, text search compares pointers."},
 {"property": "C80", "status": "partial", "theorems": ["C80_copy_is_same", "C80_copy_is_equal", "C80_copy_is_made", "C80_text_search_refuted", "C80_text_search_defaults", "C80_defined_refuted"], "note": "Proved for every tree with no missing sub-expression, without text search. False for text search (operator, fuzziness, limit and time limit are lost) and for a versioned variable without version or an aggregate without argument (undefined): refuted."},
 {"property": "C81", "status": "partial", "theorems": ["C81_decoding_ends", "C81_decoded_is_whole", "C81_decoded_can_be_copied", "C81_what_follows_is_ignored", "C81_cut_is_refused", "C81_in_bounds_refuted"], "note": "Ending, completeness of decoded trees, refusal of every cut encoding and independence of what follows are proved for the byte-level serializer and all bytes. False as stated: sizes are read without a bounds check (refuted). The depth of the native stack and memory reserved for a size from the bytes are not modelled."},
 {"property": "C82", "status": "partial", "theorems": ["C82_declared_type_refuted", "C82_declared_type_partial", "C82_announced"], "note": "Proved for every function but strcasecmp, for which it is false: declared to give a string, it gives an integer (refuted). head, last, coalesce and datasetrowcol are declared as EMPTY, which stands for any type. What the math library, clock and random generator return is arbitrary in the theorems."},
 {"property": "C83", "status": "partial", "theorems": ["C83_pure_refuted", "C83_pure_partial", "C83_impure_depend"], "note": "Proved for every function but rand, for which it is false: it is declared pure (refuted)."},
 {"property": "C84", "status": "partial", "theorems": ["C84_clock_functions", "C84_hash", "C84_pow", "C84_tointeger", "C84_pad", "C84_range", "C84_rowcol", "C84_path_checks", "C84_datetime", "C84_signatures_callable", "C84_names_unique", "C84_typeable_refuted", "C84_total", "C84_arity", "C84_returns_refuted", "C84_abs", "C84_head_last", "C84_reversepath"], "note": "Lookup, arity and callable signatures are proved for all names; returning is proved for all functions outside partialNames (17 names) without hypotheses. False for 12 functions (refuted, one argument list each). For all 17 it is proved when they return: exactly for abs, hash, pow, tointeger, lpad, rpad, range, head, last and datasetrowcol; under a guard for reversepath, the duplicate checks, date, time, timestamp and datetime (zones up to thirty years, which datetime needs as isLeapYear takes an int16_t). What std::get_time fills in is assumed to be in the range its documentation gives (goodWorld)."},
 {"property": "C85", "status": "proved", "theorems": ["C85_date_from_map", "C85_datetime_from_map", "C85_time_from_map", "C85_datetime_call", "C85_date_call", "C85_time_call"], "note": "Proved for every map (distinct keys, as std::unordered_map guarantees). The month and day default to 1, all other fields to 0."},
 {"property": "C86", "status": "partial", "theorems": ["C86_rand32_max_refuted", "C86_rand32_max_partial", "C86_rand32_range", "C86_rand64", "C86_bad_bounds"], "note": "Proved for all bounds but rand32(max) with max above 2^31, where the result can be negative (refuted). folly's generator is any 32-bit or 64-bit number, reduced modulo the width of the range as in folly."},
 {"property": "C87", "status": "partial", "theorems": ["C87_int", "C87_same_instant_refuted", "C87_differ_by_offset_partial"], "note": "False for a zone offset other than 0: datetime applies it, timestamp does not (refuted). Proved: they differ by exactly the offset, for texts without a leap second. The integer part is proved for all integers."},
 {"property": "C88", "status": "partial", "theorems": ["C88_trim", "C88_trim_unique", "C88_lower_upper", "C88_strcasecmp_zero_partial", "C88_strcasecmp_nul_refuted", "C88_strcasecmp_order"], "note": "Proved for all texts; strcasecmp only for texts without NUL bytes, since it sees C strings (refuted otherwise). C locale."},
 {"property": "C89", "status": "proved", "theorems": ["C89_spaces", "C89_parts", "C89_accounts", "C89_indexes_by_id", "C89_listeners", "C89_schemas", "C89_hosts", "C89_load_succeeds", "C89_success_needs_answers", "C89_listener_follows"], "note": "Proved for answers that list nothing twice. Schemas as in C60, C70 and C71. One thread at a time: what a concurrent reader sees during a load is not modelled. If only listHosts fails the load does not fail cleanly, see C90."},
 {"property": "C90", "status": "partial", "theorems": ["C90_failed_load_keeps", "C90_accounts_refuted", "C90_hosts_failure_refuted"], "note": "False as stated: accounts, full-text clients and names of indexes are replaced before the requests that may fail (refuted for accounts; for index names see C91), and if listHosts fails its missing answer is read because the wrong status is tested (refuted). Proved: all other lookups are unchanged and nothing is told. "},
 {"property": "C91", "status": "partial", "theorems": ["C91_manager", "C91_manager_lists", "C91_tag_index_by_name", "C91_edge_index_by_name", "C91_failed_load_refuted", "C91_reused_id_refuted"], "note": "False as stated: names are never removed from the name maps, and a failed load redirects them (refuted twice). Proved for any history of loads in which an index id always stands for the same name."},
 {"property": "C92", "status": "partial", "theorems": ["C92_leaders_as_reported", "C92_first_load_learns_none", "C92_first_load_refuted", "C92_recreated_space_refuted"], "note": "False as stated: the first load learns no leader at all and those of a space made again are stored under its old id, because names are looked up in the map of the previous load (refuted twice). Proved if the client was ready and the spaces did not change."},
 {"property": "C93", "status": "partial", "theorems": ["C93_remote_listeners", "C93_first_load_tells_none", "C93_first_load_refuted"], "note": "False as stated for the first load, in which every part is told that it has no listeners since the client is not ready yet (refuted). Proved for every later load."},
 {"property": "C94", "status": "partial", "theorems": ["C94_catches_up", "C94_rests", "C94_lookups_current", "C94_same_time_refuted"], "note": "Proved if update times are positive and grow with every change. False without: after a change with the same millisecond as the previous one the client never reloads (refuted for any number of further rounds). waitForMetadReady is taken to be called once, at the start. Leaders and index names, which are not functions of the last answers, are C91 and C92."},
 {"property": "C95", "status": "proved", "theorems": ["C95_result_arrives", "C95_result_arrives_new", "C95_result_arrives_whole", "C95_auth_arrives", "C95_auth_arrives_new", "C95_address_arrives", "C95_pair_arrives", "C95_result_writes_bytes", "C95_auth_writes_bytes"], "note": "Proved for the compact protocol. A hash map is sent in the order it is iterated, and its keys are distinct."},
 {"property": "C96", "status": "proved", "theorems": ["C96_reading_ends", "C96_auth_reading_ends", "C96_what_follows_is_ignored", "C96_auth_what_follows_is_ignored", "C96_cut_is_refused", "C96_auth_cut_is_refused", "C96_required", "C96_auth_required", "C96_node_required", "C96_plan_required", "C96_profile_required", "C96_branch_required", "C96_pair_required"], "note": "Proved for ExecutionResponse and AuthResponse; HostAddr and KeyValue have no required members."},
 {"property": "C97", "status": "proved", "theorems": ["C97_unknown_members_are_skipped", "C97_auth_unknown_members_are_skipped", "C97_member_of_another_type_is_skipped"], "note": "Proved for additional members with ids up to 15, which the protocol writes as differences. A member of another type: proved for the error message of AuthResponse."},
 {"property": "C98", "status": "partial", "theorems": ["C98_plan_equality", "C98_result_equality", "C98_auth_equality", "C98_time_zone_ignored_refuted", "C98_plan_members_ignored_refuted", "C98_plan_equivalence"], "note": "False as stated: the time zone name is compared with itself, the output variable of a plan node and the optimisation time are not compared (refuted). Proved: exactly the other members count, and equality of plans is an equivalence. The two responses are different objects; values in the result are compared by Value's operator== (C10)."},
 {"property": "C99", "status": "partial", "theorems": ["C99_cleared_result_is_replaced", "C99_uncleared_result_mixes_refuted", "C99_cleared_parts_read_as_new", "C99_cleared_auth_keeps_the_zone_only", "C99_cleared_auth_is_replaced", "C99_zone_leaks_refuted"], "note": "False as stated for AuthResponse, whose clear() keeps the time zone (refuted for any time zone). Proved for ExecutionResponse, and for AuthResponse that nothing but the time zone is left, for all bytes."},
 {"property": "C100", "status": "proved", "theorems": ["C100_search_request"], "note": "Proved for prefix, wildcard, regexp and fuzzy searches against a specification of the shell's word splitting, curl's arguments and a JSON reader (FullTextSpec). MD5, the order of folly's hash maps and doubles as fuzziness are outside the model; user name, password and index name are C102."},
 {"property": "C101", "status": "partial", "theorems": ["C101_put_request", "C101_bulk_request", "C101_bulk_quote_refuted"], "note": "Proved for put, and for bulk if no index name has a single quote; false for bulk otherwise, since the line with the place is not escaped (refuted, the shell runs what follows). Values are sent up to 256 bytes (C103)."},
 {"property": "C102", "status": "partial", "theorems": ["C102_index_requests", "C102_password_refuted", "C102_password_changed_refuted", "C102_index_refuted"], "note": "False as stated: user name and password stand outside quotes and the index name between double quotes without escaping (refuted for a password with ; or \\ and an index name with a double quote). Proved for user names and passwords of plain characters and index names without NUL, \", $, ` and \\."},
 {"property": "C103", "status": "partial", "theorems": ["C103_id_determines", "C103_id_shape", "C103_long_values_refuted", "C103_utf8_refuted", "C103_short_values", "C103_ascii_values"], "note": "False as stated: values that agree in 256 bytes get the same identifier, and the cut can fall inside a character (both refuted). Proved: equal exactly if part, MD5 of the column and the first 256 bytes agree; at most 386 bytes; alphabet; values up to 256 bytes are not cut, ASCII stays ASCII. Parts are not negative."},
 {"property": "C104", "status": "partial", "theorems": ["C104_put_outcome", "C104_bulk_outcome", "C104_bulk_nothing", "C104_index_outcome", "C104_exists_outcome", "C104_search_rows", "C104_search_any", "C104_search_outcome", "C104_failed_rows_refuted"], "note": "Proved for all five operations and for searches, given that the shell and curl follow their specification and that parsed objects have no key twice; what is reported depends on the answer to the request proved in C100-C102. False: a failed search can have added rows (refuted); proved that the caller's rows stay and the added ones are values of leading hits."},
 {"property": "C105", "status": "proved", "theorems": ["C105_first_route_wins", "C105_exact_route", "C105_refused", "C105_prefix", "C105_one_handler"], "note": "Proved for fixed paths without ':' and for templates of segments /text and /:name whose text has no regular expression characters; templates with ^ $ \\ * + ? ( ) [ ] { } | are outside the model. For templates, fits means an instance inside the path (C106)."},
 {"property": "C106", "status": "partial", "theorems": ["C106_serves_when_inside", "C106_instances_served", "C106_only_instances_refuted", "C106_slash_template_refuted", "C106_dot_refuted"], "note": "False as stated: the search is not anchored, so any path with an instance inside it is served; a template that ends in a slash serves none of its instances; a dot stands for any character (all refuted). Proved: served exactly if an instance is inside, and every instance is served."},
 {"property": "C107", "status": "partial", "theorems": ["C107_values", "C107_names_once", "C107_other_paths_refuted"], "note": "Proved for instances. A path that is no instance is served too, with parameters (refuted, see C106)."},
 {"property": "C108", "status": "partial", "theorems": ["C108_own_type", "C108_upsert", "C108_failed_parse", "C108_not_an_object_refuted"], "note": "Proved for configurations that are objects. False otherwise: a JSON text that is no object parses with success, and then every function throws (refuted). Keys have no NUL byte. The JSON parser is any function from texts to values."},
 {"property": "C109", "status": "partial", "theorems": ["C109_entries", "C109_own_type", "C109_int_texts", "C109_failure_keeps_variable_refuted"], "note": "The condition for success, the values and their order are proved. False: a failure leaves the values of the leading entries in the caller's variable (refuted); proved that exactly these are added. How doubles convert is outside the model."},
 {"property": "C110", "status": "partial", "theorems": ["C110_comments", "C110_file", "C110_failure", "C110_strings_refuted"], "note": "Proved for files whose text outside comments has neither # nor //. False for strings with them, such as URLs: they are cut (refuted). Failures are proved for all files. Files are read as C strings, so nothing behind a NUL byte counts."},
 {"property": "C111", "status": "partial", "theorems": ["C111_round_trip", "C111_modes", "C111_declared", "C111_numbers", "C111_unknown_module", "C111_ends_refuted", "C111_map_refuted"], "note": "Proved for flags that hold a value of their type (gflags guarantees that) below 2^63, and nested flags with a JSON object or no JSON. False otherwise: a uint64 flag of 2^63 or more and a nested flag with other JSON end the process (refuted). Back and forth is proved for Booleans, integers and texts; false for maps (refuted). gflags' own parser is modelled but for hexadecimal numbers, doubles and validators; getGflagsModule is not modelled."},
 {"property": "C112", "status": "partial", "theorems": ["C112_untouched", "C112_follows", "C112_local_change_refuted", "C112_mode_change_refuted", "C112_small_change_refuted", "C112_ends_refuted"], "note": "Proved over all histories of loads if flags are changed by loads only, an item keeps its mode and every value fits its flag; doubles up to the tolerance of Value's ==. False otherwise (refuted): a flag changed in the process stays changed, an item that becomes mutable is not taken over, a double changed by less than 1e-8 is not, a null or a value of another kind ends the process. Flags not named are proved untouched for all answers. Names with dashes are outside the model."},
 {"property": "C113", "status": "partial", "theorems": ["C113_told", "C113_flag_text", "C113_quotes_refuted", "C113_once"], "note": "Proved: told once for each space and option, nothing told twice; the flag's text is read back if names and printed values have no character special in JSON (numbers, Booleans). False for texts: they are told with double quotes and the flag's text is no JSON any more (refuted)."},
 {"property": "C114", "status": "partial", "theorems": ["C114_sets_flags", "C114_refused", "C114_other_method", "C114_ends", "C114_ends_refuted", "C114_cut_refuted"], "note": "The effect and the list of refused members are proved for objects with scalar members and distinct names without NUL bytes; refused bodies and the exact condition for ending the process for all requests. False: a request without body dereferences a null pointer, and a JSON text, a JSON array or a null, array or object as member ends the process (refuted); a text is cut at a NUL byte and reported as set (refuted). The JSON parser, hexadecimal numbers, doubles and validators are parameters; flagfile, fromenv and tryfromenv are not modelled."},
 {"property": "C115", "status": "partial", "theorems": ["C115_json", "C115_text", "C115_long_text", "C115_shows_what_was_set", "C115_unknown_refuted", "C115_not_finite_refuted", "C115_negative_refuted", "C115_text_refuted", "C115_other_method"], "note": "Proved for flags that hold a value of their type (gflags guarantees that), integers below 2^63, finite doubles; long text for names of flags only. False otherwise (refuted): the long text of a name that is no flag ends the process, JSON with an infinite or NaN flag does too, a uint64 of 2^63 or more is shown negative, and the plain text of a string can look like further flags. The JSON text itself is folly's."},
 {"property": "C116", "status": "partial", "theorems": ["C116_asked", "C116_all", "C116_all_as_asked", "C116_dotted_refuted", "C116_cut_refuted", "C116_other_method"], "note": "Values and errors are proved for all reachable states; how a series or histogram turns its values into a statistic is a parameter. Same value when asked by name: proved for counter names without dots and percentile names without dots (percentiles as in C69); false for names with dots, and an error text is cut after 255 bytes (refuted)."},
 {"property": "C117", "status": "proved", "theorems": ["C117_routes", "C117_own_method"], "note": "Proved for all service names without ':'. A consequence: none of the handlers' 405 answers can be seen, other methods get 404."},
 {"property": "C118", "status": "partial", "theorems": ["C118_leads_there", "C118_alive", "C118_reused", "C118_options", "C118_name_refuted", "C118_options_refuted"], "note": "Where the client leads and that it is alive are proved for all calls (a socket for a text that is no address counts as not good, which folly ensures). Reuse is proved for hosts given as addresses; for names it is false: the lookup is by name, the entry under the resolved address, so every call opens a connection (refuted). Timeout and protocol: proved if all calls ask for the same, false otherwise (refuted)."},
 {"property": "C119", "status": "partial", "theorems": ["C119_one_each", "C119_replaced", "C119_name_never_reused", "C119_replaced_refuted"], "note": "At most one each is proved for all calls, replacing for hosts given as addresses. For names that resolve, proved that every call opens a further connection, so the last part is false; a broken client stays in the map after a call by name (refuted)."},
 {"property": "C120", "status": "proved", "theorems": ["C120_requests", "C120_integers", "C120_ends", "C120_ends_otherwise"], "note": "Proved for all calls that make requests; whether they do for spaces all of whose parts have replicas (an id of another type, or a row that is too short, ends the process or is undefined). What is copied alike into every request is one value; sending and collecting are C50."},
 {"property": "C121", "status": "partial", "theorems": ["C121_unchanged", "C121_integer_spaces", "C121_rows_refuted"], "note": "Proved for spaces with text ids, and for calls that end with an error. False for integer ids (refuted): proved that every row is then changed, and that the same call with the rows left behind ends the process."},
 {"property": "C122", "status": "proved", "theorems": ["C122_single", "C122_scan", "C122_follows_insertion", "C122_lookup"], "note": "Proved for all calls that make requests. That insertion and update agree is proved for updates that find the leader cache as the insertion left it."},
 {"property": "C123", "status": "partial", "theorems": ["C123_attempts", "C123_destination", "C123_turns", "C123_forgets", "C123_missing_part_refuted", "C123_rpc_failure_refuted"], "note": "Attempts, contents, destinations and the result are proved for all sequences of answers; destinations when nobody else changes the leader cache. False (refuted): a failed RPC is reported as E_UNKNOWN (E_RPC_FAILURE stands for requests that could not be made), a missing part as a missing space; and proved that the call never ends if no answer names a leader, the replicas being asked in turn."},
 {"property": "C124", "status": "partial", "theorems": ["C124_result", "C124_destination", "C124_part", "C124_right_part_refuted", "C124_missing_space_refuted"], "note": "The result is proved for all sequences of answers. False (refuted): the part is computed with the id of the space in place of its number of parts (proved which part that is), so another part than the key's is asked; an unknown space is reported as a missing part (the position of a text that is not found counts as true: proved that it is always so). A key of less than four bytes throws (proved exactly when)."},
 {"property": "C125", "status": "partial", "theorems": ["C125_lines", "C125_file", "C125_dir", "C125_unreadable", "C125_link", "C125_no_abort", "C125_ends_at_once_refuted"], "note": "Proved for files, directories and links to them, and for unreadable paths that are not links. False (refuted): the status is set to OK after the recursive call for the target of a link, so a link to a device, a socket or an unreadable directory ends the process (proved exactly when)."},
 {"property": "C126", "status": "proved", "theorems": ["C126_names", "C126_same"], "note": "The types the file system reports are taken to be right. That opendir fails (empty listing) is not part of the model."},
 {"property": "C127", "status": "partial", "theorems": ["C127_read", "C127_written", "C127_access", "C127_ok_refuted", "C127_throws_refuted", "C127_one_daemon", "C127_restart", "C127_race_refuted"], "note": "Which contents are free is proved for all contents, and that daemons are single for all executions in which a check and its write are not interleaved with another start. False (refuted): two starts at the same time; an OK of makePidFile with nothing written (the writes are not checked); a number beyond 32 bits is an exception; numbers from 2^31 on ask about a process group (proved which)."},
 {"property": "C128", "status": "partial", "theorems": ["C128_output", "C128_failed_read", "C128_success_refuted", "C128_get", "C128_post", "C128_put", "C128_send", "C128_send_refuted", "C128_url_refuted", "C128_hdfs", "C128_hdfs_refuted"], "note": "The output is proved to be complete for all lengths; failures of reading are reported. The arguments are proved to arrive for plain words (options, HDFS), URLs without double quote, backslash, dollar and backquote, JSON without single quotes. False otherwise (refuted): nothing is escaped, so texts can hold commands; the exit status of the command is ignored, so a failed request is an OK answer."},
 {"property": "C129", "status": "partial", "theorems": ["C129_install", "C129_arrival", "C129_every_arrival_once", "C129_child_twice_refuted", "C129_child_twice", "C129_fatal", "C129_not_installed", "C129_window", "C129_window_refuted"], "note": "Proved for all histories in which no signal arrives inside an install and no empty handler is installed, but for SIGCHLD. False (refuted): SIGCHLD calls the handler twice, a fatal signal too (proved for all histories); a signal that arrives between sigaction and the assignment of its handler ends the process (proved for every signal without a handler). Signals that interrupt a handler are not modelled."},
 {"property": "C130", "status": "partial", "theorems": ["C130_not_ready", "C130_by_name", "C130_missing_name", "C130_missing_name_refuted", "C130_lookup_writes", "C130_by_schema_refuted", "C130_all", "C130_by_space", "C130_by_schema", "C130_tag_or_edge_refuted", "C130_clients"], "note": "Proved for all sequences of calls: what every lookup answers, also for missing names. False (refuted): a lookup of a missing name inserts a default index while holding a read lock and answers OK; a later lookup by schema then reads a union member that is not set; a schema number does not say whether a tag or an edge type is meant, so with both the order of the hash map decides."},
 {"property": "C131", "status": "proved", "theorems": ["C131_one_id", "C131_where_from", "C131_durable", "C131_from_then_on", "C131_adopts", "C131_other_roles"], "note": "Heartbeats are sent one after the other, as the code does. Options that come with a cluster id (only tests) are left out."},
 {"property": "C132", "status": "proved", "theorems": ["C132_check_part", "C132_check_space", "C132_agrees_with_parts_map", "C132_latest_safe", "C132_latest_exact"], "note": "The latest schemas are exact when the meta service lists versions new to old (as it does; C70 shows the order matters); that nothing is read outside a vector needs no order."},
 {"property": "C133", "status": "partial", "theorems": ["C133_sent", "C133_defaults_apart", "C133_default_key", "C133_tag_edge_refuted"], "note": "Which requests are sent, that they say what the call said, that the defaults are out of reach, and that space, number and field are told apart, is proved for all arguments. False (refuted): a tag and an edge type with the same number have the same request for a default."},
 {"property": "C134", "status": "partial", "theorems": ["C134_answers", "C134_length_refuted"], "note": "What each call answers is proved for all caches. False (refuted): integer ids without a length have a type but no length."},
 {"property": "C135", "status": "proved", "theorems": ["C135_agree"], "note": "The tables are the ones in the header: one character set with one collation."},
 {"property": "C136", "status": "partial", "theorems": ["C136_success", "C136_failure", "C136_again", "C136_kept_refuted"], "note": "Success and what is in force then is proved for all worlds and states; failure keeps the zone but for one case, proved to be a region that is not in a readable table. False there (refuted): the zone is overwritten with nothing, and the next question for the offset is undefined behaviour."},
 {"property": "C137", "status": "partial", "theorems": ["C137_duration", "C137_within", "C137_monotone", "C137_slow_counter", "C137_exact_refuted", "C137_calibration"], "note": "The error bound, its consequence in figures and monotonicity are proved for all rates and ticks. False (refuted): whole microseconds may come out one short (49 ticks at 49 per microsecond give 0). A counter slower than 1 MHz has rate 0 and every conversion is undefined behaviour (proved)."},
 {"property": "C138", "status": "partial", "theorems": ["C138_slow", "C138_fast", "C138_monotone", "C138_ahead", "C138_back_refuted", "C138_drift_refuted"], "note": "The slow clock is proved in full. The fast clock is proved to give start plus duration, to be monotone between calibrations, and at a calibration to be at most a microsecond behind and at most one part in n ahead. False (refuted): it goes back when a calibration is interrupted between its two readings, and it drifts by more than a second in an hour since the rate is cut off to whole ticks in a microsecond."},
 {"property": "C139", "status": "partial", "theorems": ["C139_slow", "C139_fast", "C139_negative_flag_refuted", "C139_calibration_refuted"], "note": "Proved for all thresholds, flags not below 0, times and questions before, and with the fast clock within one calibration. False (refuted): a negative flag makes every operation slow; a calibration inside a short operation can make it slow."},
 {"property": "C140", "status": "proved", "theorems": ["C140_text", "C140_other", "C140_both", "C140_contains"], "note": "Proved for all operands that can be evaluated; regular expressions are abstract, for =~ only the operand types are treated."},
 {"property": "C141", "status": "partial", "theorems": ["C141_not", "C141_null", "C141_list", "C141_set", "C141_set_refuted", "C141_map"], "note": "Lists, maps, nulls and the negation are proved in full. Sets are proved for members without floats and with ids that can be hashed. False otherwise (refuted): 1 is in the list of 1.0 but not in the set; asking a set for a map aborts."},
 {"property": "C142", "status": "partial", "theorems": ["C142_walk", "C142_connected_refuted", "C142_connected", "C142_join", "C142_total"], "note": "Proved with the exact condition the code checks, and in the form of the claim if the first edge starts at the first vertex. False otherwise (refuted): the first edge's source is not looked at; an id after an edge replaces its destination; a path behind a vertex need not start there. The total statement (no crash) and joining are proved for all items."},
 {"property": "C143", "status": "partial", "theorems": ["C143_list", "C143_set", "C143_set_refuted", "C143_map"], "note": "Lists and maps are proved in full, sets if every value can be hashed. False otherwise (refuted): a set literal with a map in it aborts."},
 {"property": "C144", "status": "partial", "theorems": ["C144_step", "C144_integer", "C144_overflow_refuted", "C144_other", "C144_versioned_refuted"], "note": "Proved for all variables and values for which the sum is defined; undoing for integers inside the range. False at the end of the range (refuted): the variable becomes null and stays so; for a versioned variable it is undefined behaviour (a failed downcast; refuted)."},
 {"property": "C145", "status": "partial", "theorems": ["C145_int_text", "C145_round_trip", "C145_int_text_refuted", "C145_int_float", "C145_int_float_refuted", "C145_float_int", "C145_float_int_refuted", "C145_bool_text", "C145_bool_trip", "C145_validated", "C145_validated_refuted", "C145_not_validated", "C145_not_validated_refuted", "C145_text"], "note": "Proved for texts without a dot and without zero bytes (with a dot the text is read by strtod, which is abstract), for all floats that are numbers, and for all validated casts but those of numbers and dates to truth values. False (refuted): those are validated and give bad type; times are not validated but cast to text; the empty text is cast to 0, and what follows a zero byte is not seen; casting a NaN to an integer is undefined behaviour; integers beyond 2^53 change on the way through a float."},
 {"property": "C146", "status": "proved", "theorems": ["C146_values_are_values", "C146_step", "C146_others"], "note": "Paths name the Values; `apart` says that neither of two is inside the other, self assignment is included. Containers are blocks with their Values in a row and the rest as plain data, so changes inside a container other than of its Values (such as push_back) are not modelled. Addresses are not reused. The fuel N bounds the nesting."},
 {"property": "C147", "status": "proved", "theorems": ["C147_memory_used", "C147_no_leak", "C147_not_shared"], "note": "For the programs of C146."},
 {"property": "C148", "status": "partial", "theorems": ["C148_taken_out", "C148_itself", "C148_part_to_whole_refuted", "C148_whole_to_part_refuted", "C148_set_itself_refuted", "C148_moved_into_itself_refuted", "C148_throwing_copy_refuted"], "note": "False (refuted), for all states, Values and parts: assigning a part to the whole by copy or move and setXxx of it read the part after it is destroyed; assigning the whole to a part copies a half-made Value; setXxx(getXxx()) of strings and containers copies what it destroyed; a copy for which new throws leaves a Value whose destructor is undefined. Moving the whole into a part, and swapping them, lose memory (refuted with witnesses). Proved: assigning a Value to itself does nothing, and taking the part out with moveXxx() first is safe."},
 {"property": "C149", "status": "partial", "theorems": ["C149_text_iff", "C149_complete_trees_print", "C149_built_trees_print_refuted", "C149_other_trees_refuted", "C149_empty_containers_refuted"], "note": "The exact condition is proved for all trees, and that complete trees as make() builds them print. False for some that make() builds (refuted): an attribute with a label on the right, which the CHECK lets pass, is read as an object of another class; AND of nothing, a conditional without a default, a predicate without a filter dereference what is missing. Empty lists, sets and maps print without the opening bracket (refuted). Texts of constants other than integers, Booleans, nulls and strings rest on the abstract externals."},
 {"property": "C150", "status": "partial", "theorems": ["C150_equal_print_alike", "C150_copy_prints_alike", "C150_decoded_prints_alike", "C150_distinct_refuted", "C150_raw_refuted", "C150_text_search_refuted"], "note": "Proved for trees as make() builds them, with constants equal only to themselves and without DISTINCT aggregates; clone and decoding in full. False otherwise (refuted): count(distinct x) == count(x); rawString of equal trees differs; the copy of a text search expression loses its options."},
 {"property": "C151", "status": "partial", "theorems": ["C151_plain_prints", "C151_unambiguous", "C151_self_delimiting", "C151_cast_refuted", "C151_property_refuted", "C151_attribute_refuted", "C151_one_operand_refuted", "C151_quotes_refuted", "C151_label_refuted", "C151_aggregate_refuted", "C151_constant_list_refuted", "C151_uuid_refuted"], "note": "Proved for a large part of the language (integers, Booleans, NULL, strings without quotes, variables, input, variable, source and destination properties, calls, all arithmetic, relational, logical and unary operators, subscripts, ranges, lists, sets, conditionals, versioned variables), by a reader that gets the tree back. False for the rest (refuted, nine witnesses): casts before IS NULL, tag and edge properties, attributes of variables, AND and OR of one operand, quotes in strings, labels, aggregates, constant lists, uuid()."},
 {"property": "C152", "status": "partial", "theorems": ["C152_understood", "C152_different", "C152_sent", "C152_conforms", "C152_list_configs_refuted", "C152_balance"], "note": "Proved for all calls: understood, different, sent. That every field that is not optional is set is proved for all but listConfigs, which never sets `space` (refuted). The calls over keys and values are in C133."},
 {"property": "C153", "status": "proved", "theorems": ["C153_answer", "C153_delivered", "C153_never_false", "C153_terms", "C153_parts"], "note": "Structs made by the server are opaque. That the right member of the union ID is checked by get_...() is thrift's; the failure is seen by the caller as a broken promise."},
 {"property": "C154", "status": "partial", "theorems": ["C154_ingest", "C154_download", "C154_failed_download_refuted", "C154_asks", "C154_ingest_asks", "C154_path_refuted", "C154_different_refuted"], "note": "ingest and the parameters are proved where the texts have no &; download where the command could be run. False otherwise (refuted): if popen or reading fails, download reads the value of a failed StatusOr (DCHECK, undefined behaviour in a release build); a path with & brings parameters of its own and two different calls send the same URL. What the shell makes of the URL is C128."},
 {"property": "C155", "status": "proved", "theorems": ["C155_enough", "C155_huge_refuted"], "note": "Proved up to 4 GiB, where the uint32_t wraps (C155_huge_refuted: 2^32-10 characters are announced as 0 bytes). Sizes of the protocol's parts are transcribed from its description. Years are int16, as declared."},
 {"property": "C156", "status": "proved", "theorems": ["C156_result", "C156_login", "C156_parts"], "note": "serializedSizeZC for the answer to a query; serializedSize there passes pointers instead of texts and is left out (see the findings). Proved up to 4 GiB."},
 {"property": "C157", "status": "partial", "theorems": ["C157_all", "C157_once", "C157_progress", "C157_ends", "C157_twice_refuted", "C157_deadlock_refuted"], "note": "Proved for objects that are added once and whose destructors do not use the pool. An object that is added twice is deleted twice, and clear() with a destructor that uses the pool waits for ever with the lock (refuted). empty() reads without the lock and is not modelled."},
 {"property": "C158", "status": "partial", "theorems": ["C158_owned", "C158_fresh", "C158_stale", "C158_held_refuted"], "note": "Ownership is proved for all sequences of loads, and that default values can be used until the next completed load. False as stated (refuted, and proved for every schema with a default value): the next completed load deletes the expressions although the schema is still held."},
 {"property": "C159", "status": "partial", "theorems": ["C159_used", "C159_monotone", "C159_within", "C159_exact_refuted"], "note": "Kilobytes and monotonicity are proved; the mark is hit up to a relative error of 2^-22 (axioms of the reals). That it is exact is refuted: with 128 GB four kilobytes over 80% are not seen."},
 {"property": "C160", "status": "partial", "theorems": ["C160_read", "C160_scope", "C160_thread", "C160_others", "C160_tid", "C160_order_refuted", "C160_fork_refuted"], "note": "Proved for all schedules, also when other Nominators outlive the scope. Nominators that are destroyed in the order they were made leave a wrong name behind, and gettid is wrong in a forked process (both refuted)."},
 {"property": "C161", "status": "partial", "theorems": ["C161_file_new", "C161_dir_new", "C161_made", "C161_failed", "C161_file_gone", "C161_dir_gone", "C161_spares_directories", "C161_in_parent", "C161_kept", "C161_relative_refuted", "C161_empty_refuted", "C161_template_refuted"], "note": "Proved for absolute templates and contents that can be removed. With a relative template and another working directory at the end, the wrong directory is removed (refuted). Two comments in TempDir.h are wrong (refuted): path() is a null pointer on failure, not empty; the six X have to be at the end. Links on the way are not followed in the model."},
 {"property": "C162", "status": "partial", "theorems": ["C162_no_deadlock", "C162_finishes", "C162_ends", "C162_waits_without_locks", "C162_callback_refuted"], "note": "Proved for listeners that do not register or unregister a listener when they are called. For those that do it is false (refuted: the background thread waits for the lock it holds). folly::RWSpinLock is taken as documented: waiting writers do not keep readers out."},
 {"property": "C163", "status": "partial", "theorems": ["C163_exclusive", "C163_no_race", "C163_index_names_refuted", "C163_download_refuted", "C163_listener_refuted"], "note": "Proved for every member but three. False for those (refuted with executions): the names of indexes have no lock and are written by every load; download and ingest read leader_ without its lock; heartbeats and nested options read listener_ without its lock. Proved for these too as long as nobody looks up indexes by name, downloads, or registers meanwhile."},
 {"property": "C164", "status": "proved", "theorems": ["C164_size", "C164_sum", "C164_keep", "C164_tail", "C164_length", "C164_keys"], "note": "Called by name through the function table."},
 {"property": "C165", "status": "proved", "theorems": ["C165_coalesce", "C165_reverse", "C165_is_in", "C165_is_in_agrees"], "note": "udf_is_in is compared with the IN expression evaluated on the same operands."},
 {"property": "C166", "status": "proved", "theorems": ["C166_bits", "C166_bits_other", "C166_sign_int", "C166_sign_float"], "note": "abs of the least integer is excluded: it is undefined behaviour in the code."},
 {"property": "C167", "status": "proved", "theorems": ["C167_symmetric", "C167_outcome", "C167_zero", "C167_integers"], "note": "Bit by bit on binary64; sqrt is a parameter. Which non-zero vectors count as zero (squared length up to the epsilon) is part of the model but not of the statement."},
 {"property": "C168", "status": "proved", "theorems": ["C168_vertex", "C168_keys", "C168_tags"], "note": "Property maps have distinct names, as unordered_map guarantees; the order of the map is that of insertion in the model and not part of the statement."},
 {"property": "C169", "status": "proved", "theorems": ["C169_integer", "C169_boolean", "C169_float", "C169_kinds"], "note": "Printing of floats is a parameter, so reading them back is not claimed."},
 {"property": "C170", "status": "partial", "theorems": ["C170_returns", "C170_bounded", "C170_unbounded", "C170_unbounded_refuted", "C170_stop_asleep", "C170_stop_soon", "C170_stop_after", "C170_stop_refuted", "C170_stop_hangs_refuted", "C170_stop_lost_refuted"], "note": "Waiting undisturbed is proved for every count (-1 up to 2^31 failures, where the count overflows: refuted beyond). Stopping is proved when the stop falls into a sleep, or after the return. At any time it is false (refuted): the background thread may be used after it is gone, the stop may wait for ever, and a stop before the wait is lost. Memory is taken as sequentially consistent."},
 {"property": "C171", "status": "partial", "theorems": ["C171_refuses", "C171_attempt", "C171_round", "C171_nothing_before", "C171_stays", "C171_all_refuse_refuted"], "note": "Proved for every lookup that looks at ready_. False for getTermFromCache and checkTagIndexed/checkEdgeIndexed (refuted): they answer from a cache that is not ready."},
 {"property": "C172", "status": "partial", "theorems": ["C172_answer", "C172_no_deadlock", "C172_terminates", "C172_only_notify", "C172_asleep_safe", "C172_notify_refuted", "C172_notify_inside", "C172_first_only", "C172_again_refuted", "C172_lifetime"], "note": "Proved: the answer is the outcome of the server, no lost wake-up, at most eight steps. False (refuted): notify_all is called after the mutex is released and may use a condition variable that is gone (proved safe if it were called inside); a second call answers OK after a failed first one; the destructor of a service that never started, or whose ports could not be bound, uses a null pointer."},
 {"property": "C173", "status": "partial", "theorems": ["C173_in_use", "C173_range", "C173_range_default", "C173_range_fails", "C173_free", "C173_found", "C173_never", "C173_low_refuted"], "note": "Proved for dynamic ranges that begin above 1025. False for ranges that begin at 1024 or below (undefined) and at 1025 (port 0): refuted. The regular expression is modelled by hand; the random words are arbitrary."},
 {"property": "C174", "status": "partial", "theorems": ["C174_device", "C174_any", "C174_list", "C174_all_refuted", "C174_null_refuted", "C174_resolve", "C174_one_text"], "note": "Proved where every interface has an address, as getifaddrs does not promise. False otherwise: a null pointer is used (refuted). Listing all addresses is false for a device with several (refuted); one of each device is listed. A little-endian machine is assumed."},
 {"property": "C175", "status": "partial", "theorems": ["C175_swap", "C175_swap_refuted", "C175_minus", "C175_minus_refuted", "C175_double_minus", "C175_double_minus_refuted", "C175_group", "C175_group_refuted", "C175_move", "C175_move_refuted"], "note": "Proved for all numbers with the exceptions named; false in general (each refuted): exchange of texts or of two nulls, the smallest integer and minus zero in l + (-r), the smallest integer under two minus signs, regrouping and moving a summand when a partial result overflows or the operands are doubles."},
 {"property": "C176", "status": "partial", "theorems": ["C176_de_morgan", "C176_double_not", "C176_flat", "C176_flat_refuted", "C176_not_compare", "C176_less_or_equal", "C176_not_compare_refuted"], "note": "De Morgan's laws hold whatever the operands are. Proved with exceptions, each refuted: double negation (only conditions), flattening (no empty operand), NOT < and NOT >= (only operands that are not both less and equal, which no Booleans, numbers, texts, dates and times are, but an edge and its reversal)."},
 {"property": "C177", "status": "partial", "theorems": ["C177_one_after_the_other", "C177_in_between", "C177_exclusion", "C177_progress", "C177_capacity", "C177_counters_refuted", "C177_clear_refuted"], "note": "Proved for the calls on a key: one order, inside the calls, with the results and the cache of a sequential run; exclusion of calls that lock; progress; capacity. False (refuted): the counters total/hits/evicts read without the mutex what other threads write, and clear() is not one moment: it goes bucket by bucket."},
 {"property": "C178", "status": "partial", "theorems": ["C178_text", "C178_unambiguous", "C178_error_refuted"], "note": "Proved for all kinds but the plain error, whose label is empty: its message can be the text of any other status, also of OK (refuted)."},
 {"property": "C179", "status": "proved", "theorems": ["C179_shape", "C179_reads_back", "C179_distinct"], "note": "The table of the code is in the model entry by entry and proved to be the digits and the character."},
 {"property": "C180", "status": "partial", "theorems": ["C180_texts", "C180_shown", "C180_shown_refuted", "C180_lists", "C180_lists_refuted", "C180_dates", "C180_days", "C180_days_refuted"], "note": "Proved with exceptions, each refuted: a text joined with a number or truth value ends at its first NUL; null, empty and data sets are not put into lists, lists not nested; beyond the years of a date the days wrap around, and the largest numbers are undefined."},
 {"property": "C181", "status": "partial", "theorems": ["C181_dot", "C181_brackets", "C181_one", "C181_missing", "C181_hidden_refuted", "C181_row", "C181_date_again", "C181_time_again_refuted"], "note": "Proved with exceptions, each refuted: properties of an edge whose name begins with an underscore and a property _vid of a vertex cannot be read; the fields of a time are those in UTC, so that time() of them is not the time again in a zone."},
 {"property": "C182", "status": "proved", "theorems": ["C182_frame", "C182_depends", "C182_constant", "C182_order", "C182_leak_refuted"], "note": "Versions and columns of variables are assumed to depend on the history of that variable only; C182_leak_refuted shows that the variable of a loop is not local: it overwrites a variable of the same name outside."},
 {"property": "C183", "status": "partial", "theorems": ["C183_date", "C183_date_tells", "C183_date_order", "C183_date_order_refuted", "C183_time", "C183_time_tells", "C183_time_order", "C183_datetime", "C183_datetime_tells", "C183_datetime_order", "C183_microseconds_refuted", "C183_tells", "C183_containers_refuted"], "note": "Proved with exceptions, each refuted: years are not padded, so texts of years of different lengths do not sort; the microseconds of a date-time are not padded, so .5 is 5 microseconds and texts do not sort within a second; lists of texts and empty sets and maps share texts. Floats are not in the theorem."},
 {"property": "C184", "status": "partial", "theorems": ["C184_constants", "C184_each", "C184_integers", "C184_integers_out", "C184_others", "C184_several", "C184_several_others", "C184_radians", "C184_null_refuted", "C184_domain_refuted"], "note": "Proved with exceptions, each refuted: hypot and pow of null are a bad type and not null; the logarithm of a negative number is what the library gives (NaN) and not null as sqrt. The library's functions are parameters. C184_constants is about real numbers and rests on the axioms of the standard library's reals."},
 {"property": "C185", "status": "proved", "theorems": ["C185_listeners_of_host", "C185_answers_agree", "C185_every_listener_refuted", "C185_index_owner", "C185_not_before"], "note": "C185_every_listener_refuted shows that the restriction to existing parts is needed: a listener reported for an unknown part is left out of the answer for its host, though the answer by space has it."},
 {"property": "C186", "status": "proved", "theorems": ["C186_evaluates", "C186_calm", "C186_always_evaluates_refuted", "C186_sound"], "note": "C186_always_evaluates_refuted shows for the conditions (but those that the types of the code ensure, and functions) complete expressions over constants of which every evaluation fails. C186_calm needs no condition on values. C186_sound drops the conditions that C187 ensures: on values as the types allow them only the listed operands are forbidden."},
 {"property": "C187", "status": "proved", "theorems": ["C187_sound", "C187_sequence"], "note": "Floats are not constrained. The functions are part of the environment: what they give for such arguments is assumed to be such a value."},
 {"property": "C188", "status": "proved", "theorems": ["C188_functions", "C188_evaluation"], "note": "The model counts without bound, so texts, lists, maps, sets, paths and data sets are assumed shorter than 2^63 (fitsMemory); the clock gives 64-bit seconds and 0 to 999 milliseconds."},
 {"property": "C189", "status": "proved", "theorems": ["C189_result_arrives", "C189_variables_arrive", "C189_all_arrive_refuted"], "note": "From C187 (what evaluation gives) and C76 (what can be sent). C189_all_arrive_refuted shows that the condition on edge types is needed: a set of two edges arrives with one."},
 {"property": "C190", "status": "proved", "theorems": ["C190_aggregates", "C190_of_expressions"], "note": "For the rows of one group in order; with C187 for rows given by an expression."},
 {"property": "C191", "status": "proved", "theorems": ["C191_values", "C191_passed_on", "C191_expressions", "C191_evaluated", "C191_everything_passed_on_refuted"], "note": "C191_everything_passed_on_refuted shows that the condition on edge types is needed. Bytes on which the reader throws, aborts or leaves members unset give no value (C77)."},
 {"property": "C192", "status": "partial", "theorems": ["C192_passed_on", "C192_can_be_written", "C192_empty_uuid_refuted", "C192_open_range_refuted"], "note": "False as stated for four kinds of expressions: C192_empty_uuid_refuted (read, but writing it ends the process), C192_open_range_refuted (read, but what is written cannot be read), columns (C31_every_index_refuted) and edge types (C191_everything_passed_on_refuted). For all others C192_passed_on; C192_can_be_written needs only that no uuid is empty."},
 {"property": "C193", "status": "proved", "theorems": ["C193_evaluates", "C193_harmless", "C193_calls", "C193_everything_evaluates_refuted"], "note": "From C81, C186 and C191; C193_calls adds C84 for calls of functions of the table. C193_everything_evaluates_refuted gives nine short byte sequences that are read without complaint and fail when evaluated, so the list is needed."}
]}
