{"claims": [
 {"property": "C01", "status": "proved", "theorems": ["C01_round_trip", "C01_writer_total", "C01_writer_format", "C01_valid_frame_received", "C01_terminated"], "note": ""},
 {"property": "C02", "status": "proved", "theorems": ["C02_transparency", "C02_wire_length"], "note": ""},
 {"property": "C03", "status": "proved", "theorems": ["C03_buffer_safety", "C03_confined", "C03_reader_safe"], "note": ""},
 {"property": "C04", "status": "proved", "theorems": ["C04_acceptance_sound", "C04_unique_decoding"], "note": ""},
 {"property": "C05", "status": "proved", "theorems": ["C05_resync", "C05_resync_flag", "C05_resync_second", "C05_resync_refuted"], "note": ""},
 {"property": "C06", "status": "proved", "theorems": ["C06_flow_control"], "note": ""},
 {"property": "C07", "status": "proved", "theorems": ["C07_missing", "C07_synchronised", "C07_duplicated", "C07_rollover"], "note": ""},
 {"property": "C08", "status": "proved", "theorems": ["C08_kermit_is_crc", "C08_kermit_incremental", "C08_kermit_fits"], "note": ""},
 {"property": "C09", "status": "proved", "theorems": ["C09_kermit_detects_bursts"], "note": ""},
 {"property": "C10", "status": "proved", "theorems": ["C10_crc_chars_round_trip", "C10_chars_crc_round_trip", "C10_validity_exact"], "note": ""},
 {"property": "C100", "status": "proved", "theorems": ["C100_read", "C100_write", "C100_usage", "C100_wrap_refuted", "C100_exported_refuted", "C100_empty_refuted"], "note": ""},
 {"property": "C101", "status": "proved", "theorems": ["C101_sleep", "C101_tell", "C101_usage", "C101_zulu", "C101_juliet", "C101_zone_refuted", "C101_error_refuted", "C101_range_refuted"], "note": ""},
 {"property": "C102", "status": "proved", "theorems": ["C102_output", "C102_output_safe", "C102_end_to_end", "C102_lost_refuted", "C102_lines", "C102_whole", "C102_rest_refuted"], "note": ""},
 {"property": "C103", "status": "proved", "theorems": ["C103_yes", "C103_no", "C103_error", "C103_stale_refuted", "C103_default"], "note": ""},
 {"property": "C11", "status": "proved", "theorems": ["C11_fletcher_value", "C11_fletcher_empty", "C11_fletcher_incremental", "C11_fletcher_bound", "C11_fletcher_result", "C11_fletcher_detects_one", "C11_fletcher_detects_one_refuted"], "note": ""},
 {"property": "C12", "status": "proved", "theorems": ["C12_no_error", "C12_single_corrected", "C12_double_detected", "C12_decoder_complete", "C12_encoder_range"], "note": ""},
 {"property": "C13", "status": "proved", "theorems": ["C13_ring_refines_counters", "C13_slots_distinct", "C13_refusal", "C13_array_is_fifo", "C13_huge_request_refuted"], "note": ""},
 {"property": "C14", "status": "proved", "theorems": ["C14_integrity", "C14_partition"], "note": ""},
 {"property": "C15", "status": "proved", "theorems": ["C15_push", "C15_enqueue", "C15_pop", "C15_empty", "C15_head_tail", "C15_asks", "C15_insert", "C15_remove", "C15_move", "C15_replace", "C15_splice", "C15_cut", "C15_queue", "C15_stack", "C15_enqueue_tail_refuted", "C15_push_root_refuted"], "note": ""},
 {"property": "C16", "status": "proved", "theorems": ["C16_defined", "C16_suffices", "C16_balance", "C16_audit", "C16_separate", "C16_audit_complete_refuted", "C16_orphan_position_refuted"], "note": ""},
 {"property": "C17", "status": "proved", "theorems": ["C17_refines", "C17_contents", "C17_find", "C17_insert", "C17_remove", "C17_order", "C17_position", "C17_compare_strings", "C17_compare_pointers_refuted", "C17_compare_pointers"], "note": ""},
 {"property": "C18", "status": "proved", "theorems": ["C18_window", "C18_rate", "C18_interarrivaltime", "C18_shaper", "C18_burst"], "note": ""},
 {"property": "C19", "status": "proved", "theorems": ["C19_delay", "C19_shaper"], "note": ""},
 {"property": "C20", "status": "proved", "theorems": ["C20_exclusion", "C20_defined", "C20_failure", "C20_success", "C20_debug"], "note": ""},
 {"property": "C21", "status": "proved", "theorems": ["C21_handover", "C21_release", "C21_progress", "C21_readers_refuted", "C21_cancel_refuted", "C21_cancel_granted_refuted"], "note": ""},
 {"property": "C22", "status": "proved", "theorems": ["C22_first", "C22_fifo", "C22_no_overtaking", "C22_together", "C22_maximum", "C22_priority", "C22_priority_order_refuted"], "note": ""},
 {"property": "C23", "status": "proved", "theorems": ["C23_meaning", "C23_collapse", "C23_expand", "C23_no_room", "C23_expand_printable"], "note": ""},
 {"property": "C24", "status": "proved", "theorems": ["C24_round_trip", "C24_nul_digit_refuted", "C24_special_letter_refuted"], "note": ""},
 {"property": "C25", "status": "proved", "theorems": ["C25_debounce", "C25_glitch_free", "C25_adopts", "C25_edge", "C25_alternate", "C25_raw_edges"], "note": ""},
 {"property": "C26", "status": "proved", "theorems": ["C26_fibonacci", "C26_saturates", "C26_monotone_bounded", "C26_set_limit", "C26_raised_limits", "C26_inclusive_limit_refuted", "C26_lowered_limit_refuted"], "note": ""},
 {"property": "C27", "status": "proved", "theorems": ["C27_ticks_to_units", "C27_units_round_trip", "C27_multiple_round_trip", "C27_seconds", "C27_fraction", "C27_rounddown", "C27_roundup", "C27_other_frequencies_refuted"], "note": ""},
 {"property": "C28", "status": "proved", "theorems": ["C28_separate", "C28_duration", "C28_most_negative_refuted", "C28_date_round_trip", "C28_zonename"], "note": ""},
 {"property": "C29", "status": "proved", "theorems": ["C29_logical_clock", "C29_increasing", "C29_reset"], "note": ""},
 {"property": "C30", "status": "proved", "theorems": ["C30_defined", "C30_exclusive", "C30_recycle_class", "C30_recycles", "C30_succeeds", "C30_no_leak", "C30_log", "C30_prealloc", "C30_calloc", "C30_strings", "C30_calloc_refuted", "C30_overflow_refuted", "C30_nomalloc"], "note": ""},
 {"property": "C31", "status": "proved", "theorems": ["C31_realloc", "C31_failure_refuted", "C31_failure"], "note": ""},
 {"property": "C32", "status": "proved", "theorems": ["C32_pool", "C32_pool_next", "C32_pool_size_refuted", "C32_well", "C32_well_double_free_refuted", "C32_well_overflow_refuted", "C32_well_size_overflow_refuted", "C32_well_alignment_refuted", "C32_well_size_zero_refuted"], "note": ""},
 {"property": "C33", "status": "proved", "theorems": ["C33_registration", "C33_defined", "C33_shared_refuted", "C33_close_refuted"], "note": ""},
 {"property": "C34", "status": "proved", "theorems": ["C34_round", "C34_once", "C34_resumes", "C34_no_starvation", "C34_defined", "C34_accept_refuted", "C34_interrupted_write_refuted"], "note": ""},
 {"property": "C35", "status": "proved", "theorems": ["C35_total", "C35_unambiguous", "C35_syntax", "C35_accepts", "C35_rejects", "C35_determined", "C35_long_refuted", "C35_port_undefined_refuted", "C35_port_wraps_refuted", "C35_bad_address_refuted", "C35_prefix_refuted", "C35_type_refuted"], "note": ""},
 {"property": "C36", "status": "proved", "theorems": ["C36_exclusion", "C36_held", "C36_contents", "C36_check", "C36_owner", "C36_others", "C36_no_residue", "C36_lock", "C36_postlock", "C36_prelock", "C36_unlock", "C36_reuse_refuted", "C36_fclose_refuted", "C36_mkstemp_refuted"], "note": ""},
 {"property": "C37", "status": "proved", "theorems": ["C37_refines", "C37_target", "C37_commit_contents", "C37_commit_created", "C37_reader", "C37_others", "C37_no_residue", "C37_commit", "C37_discard", "C37_checkpoint", "C37_checkpoint_refuted", "C37_retry_refuted", "C37_create_residue_refuted", "C37_short_path_refuted"], "note": ""},
 {"property": "C38", "status": "proved", "theorems": ["C38_wave", "C38_fraction", "C38_exact_refuted", "C38_change", "C38_stop"], "note": ""},
 {"property": "C39", "status": "proved", "theorems": ["C39_bounds", "C39_defined", "C39_pid", "C39_default", "C39_default_windup_refuted", "C39_saturation_refuted"], "note": ""},
 {"property": "C40", "status": "proved", "theorems": ["C40_map", "C40_unmap", "C40_byte_order", "C40_identify"], "note": ""},
 {"property": "C41", "status": "proved", "theorems": ["C41_read", "C41_write", "C41_map"], "note": ""},
 {"property": "C42", "status": "proved", "theorems": ["C42_accounting", "C42_check_returns_all", "C42_not_lost", "C42_saturates", "C42_other_thread_refuted"], "note": ""},
 {"property": "C43", "status": "proved", "theorems": ["C43_length", "C43_line", "C43_complete", "C43_no_room", "C43_whole_arguments"], "note": ""},
 {"property": "C44", "status": "proved", "theorems": ["C44_string_copy", "C44_no_room", "C44_basename"], "note": ""},
 {"property": "C45", "status": "proved", "theorems": ["C45_power", "C45_power_overflow_refuted", "C45_is_power", "C45_alignment", "C45_alignment_not_power_refuted", "C45_aligned_arguments", "C45_aligned", "C45_aligned_not_power_refuted"], "note": ""},
 {"property": "C46", "status": "proved", "theorems": ["C46_get", "C46_set", "C46_clear", "C46_count", "C46_mask", "C46_out_of_bounds"], "note": ""},
 {"property": "C47", "status": "proved", "theorems": ["C47_trim", "C47_three_backslashes_refuted", "C47_printable"], "note": ""},
 {"property": "C48", "status": "proved", "theorems": ["C48_alarm", "C48_shaper"], "note": "The question whether the alarm was cleared just now (diminuto_throttle_cleared) is in the model but no theorem speaks of it: a wrong version of it survives (seeded/LOG.jsonl). It is not part of the statement of C48."},
 {"property": "C49", "status": "proved", "theorems": ["C49_no_false_alarm", "C49_silence", "C49_all_roots_refuted"], "note": ""},
 {"property": "C50", "status": "proved", "theorems": ["C50_classifiers", "C50_classifiers4", "C50_address2type", "C50_tunnels_refuted", "C50_compare", "C50_compare_order_refuted", "C50_addresses", "C50_ipv4"], "note": ""},
 {"property": "C51", "status": "proved", "theorems": ["C51_bounded", "C51_truncates", "C51_round_trip4", "C51_round_trip6", "C51_round_trip_local", "C51_round_trip_refuted"], "note": ""},
 {"property": "C52", "status": "proved", "theorems": ["C52_registration", "C52_defined", "C52_waits_defined", "C52_round", "C52_once", "C52_resumes", "C52_close_refuted", "C52_hangup_refuted", "C52_accept_refuted", "C52_memory_refuted", "C52_forever_refuted"], "note": ""},
 {"property": "C53", "status": "proved", "theorems": ["C53_refines", "C53_all_back", "C53_read_write", "C53_pool_fini", "C53_send_error_refuted", "C53_append_again_refuted", "C53_insert_elsewhere_refuted", "C53_insert_same_refuted", "C53_length_refuted", "C53_allocate_wraps_refuted"], "note": ""},
 {"property": "C54", "status": "proved", "theorems": ["C54_conforms", "C54_join_value", "C54_notifications", "C54_no_lost_wakeup", "C54_not_stuck", "C54_join_completes", "C54_second_joiner_refuted", "C54_join_twice_refuted", "C54_count_refuted", "C54_handle_refuted", "C54_deadline_refuted"], "note": ""},
 {"property": "C55", "status": "proved", "theorems": ["C55_conforms", "C55_no_lost_wakeup", "C55_stop_can_succeed", "C55_fini_final", "C55_window", "C55_setitimer", "C55_restart_refuted", "C55_stop_again_refuted", "C55_overlap_refuted", "C55_fini_refuted", "C55_stop_inside_refuted", "C55_zero_refuted", "C55_setitimer_refuted", "C55_window_refuted"], "note": ""},
 {"property": "C56", "status": "proved", "theorems": ["C56_walk", "C56_complete", "C56_stops", "C56_once", "C56_walker", "C56_no_function", "C56_fit_refuted"], "note": ""},
 {"property": "C57", "status": "proved", "theorems": ["C57_mkdir_p", "C57_components", "C57_there", "C57_creates", "C57_directory_refuted"], "note": ""},
 {"property": "C58", "status": "proved", "theorems": ["C58_canonicalize", "C58_root_refuted", "C58_dot_refuted", "C58_expand", "C58_expand_refuted", "C58_type"], "note": ""},
 {"property": "C59", "status": "proved", "theorems": ["C59_scan", "C59_first", "C59_find", "C59_long_refuted"], "note": ""},
 {"property": "C60", "status": "proved", "theorems": ["C60_signed", "C60_unsigned", "C60_only", "C60_all", "C60_unique", "C60_written", "C60_empty_refuted", "C60_range_refuted"], "note": ""},
 {"property": "C61", "status": "proved", "theorems": ["C61_enabled", "C61_setmask", "C61_empty_refuted", "C61_wide_refuted", "C61_import", "C61_import_only", "C61_comment_refuted"], "note": ""},
 {"property": "C62", "status": "proved", "theorems": ["C62_record", "C62_line", "C62_safe", "C62_write", "C62_prefix", "C62_interrupted_refuted"], "note": ""},
 {"property": "C63", "status": "proved", "theorems": ["C63_schedules", "C63_exclusive", "C63_destination", "C63_sticky"], "note": ""},
 {"property": "C64", "status": "proved", "theorems": ["C64_text", "C64_token", "C64_unlimited", "C64_lines", "C64_newline_width", "C64_newline_width_refuted", "C64_newline_lost_refuted", "C64_last_newline_refuted", "C64_round_trip", "C64_round_trip_refuted"], "note": ""},
 {"property": "C65", "status": "proved", "theorems": ["C65_dump", "C65_aligned", "C65_top_refuted", "C65_unaligned_refuted"], "note": ""},
 {"property": "C66", "status": "proved", "theorems": ["C66_results", "C66_total", "C66_exact", "C66_sustained", "C66_infinite_peak", "C66_overflow_burst_refuted"], "note": ""},
 {"property": "C67", "status": "proved", "theorems": ["C67_provider4", "C67_consumer4", "C67_peer4", "C67_provider6", "C67_consumer6", "C67_peer6", "C67_provider_local", "C67_consumer_local", "C67_peer_local", "C67_path_refuted", "C67_descriptors", "C67_close"], "note": ""},
 {"property": "C68", "status": "proved", "theorems": ["C68_delay", "C68_uninterruptible", "C68_ends", "C68_refused"], "note": ""},
 {"property": "C69", "status": "proved", "theorems": ["C69_daemon", "C69_service", "C69_system", "C69_works", "C69_ignored_refuted"], "note": ""},
 {"property": "C70", "status": "proved", "theorems": ["C70_null", "C70_closed", "C70_command", "C70_high_refuted", "C70_streams_refuted"], "note": ""},
 {"property": "C71", "status": "proved", "theorems": ["C71_set", "C71_refused", "C71_raw"], "note": ""},
 {"property": "C72", "status": "proved", "theorems": ["C72_map", "C72_closed", "C72_unmap", "C72_wrap_refuted", "C72_minimum", "C72_minimum_refuted"], "note": ""},
 {"property": "C73", "status": "proved", "theorems": ["C73_names", "C73_interface4", "C73_interface6", "C73_read", "C73_zero_refuted", "C73_addresses4", "C73_address4_refuted"], "note": ""},
 {"property": "C74", "status": "proved", "theorems": ["C74_service", "C74_number", "C74_only", "C74_negative_refuted", "C74_roundtrip", "C74_truncated_refuted", "C74_linger", "C74_sizes", "C74_switches", "C74_status"], "note": ""},
 {"property": "C75", "status": "proved", "theorems": ["C75_checksum", "C75_verifies", "C75_detects", "C75_size_refuted"], "note": ""},
 {"property": "C76", "status": "proved", "theorems": ["C76_send", "C76_roundtrip", "C76_receive", "C76_header_refuted", "C76_send6", "C76_roundtrip6", "C76_receive6", "C76_elapsed6_refuted"], "note": ""},
 {"property": "C77", "status": "proved", "theorems": ["C77_find", "C77_path", "C77_name", "C77_only", "C77_negative_refuted", "C77_open", "C77_lines_refuted", "C77_close", "C77_values", "C77_generic", "C77_put_refuted", "C77_read"], "note": ""},
 {"property": "C78", "status": "proved", "theorems": ["C78_configure", "C78_negative", "C78_setup", "C78_unused", "C78_close_refuted", "C78_put", "C78_get", "C78_length_refuted", "C78_delay_refuted"], "note": ""},
 {"property": "C79", "status": "proved", "theorems": ["C79_transactions", "C79_exclusion", "C79_leaves", "C79_get", "C79_set_refuted", "C79_send", "C79_bus", "C79_bus_refuted"], "note": ""},
 {"property": "C80", "status": "proved", "theorems": ["C80_sequential", "C80_no_lost_update", "C80_block", "C80_block_refuted", "C80_mask_refuted", "C80_command_refuted"], "note": ""},
 {"property": "C81", "status": "proved", "theorems": ["C81_map", "C81_unmap", "C81_release_refuted", "C81_module", "C81_module_refuted"], "note": ""},
 {"property": "C82", "status": "proved", "theorems": ["C82_crc", "C82_detect", "C82_damage", "C82_list", "C82_lookup", "C82_value", "C82_name_refuted", "C82_format_refuted", "C82_status", "C82_unmap"], "note": ""},
 {"property": "C83", "status": "proved", "theorems": ["C83_sound", "C83_complete", "C83_failures", "C83_ends", "C83_offset_refuted", "C83_round"], "note": ""},
 {"property": "C84", "status": "proved", "theorems": ["C84_options", "C84_refused", "C84_rate", "C84_order", "C84_report", "C84_peak_refuted", "C84_default_refuted", "C84_short_refuted"], "note": ""},
 {"property": "C85", "status": "proved", "theorems": ["C85_copy", "C85_nul_refuted", "C85_size_refuted"], "note": ""},
 {"property": "C86", "status": "proved", "theorems": ["C86_mutexes", "C86_mask", "C86_spins", "C86_inside", "C86_refused", "C86_break", "C86_undisturbed", "C86_return_refuted", "C86_unblockable_refuted"], "note": ""},
 {"property": "C87", "status": "proved", "theorems": ["C87_atomic", "C87_exclusion", "C87_begin", "C87_progress", "C87_spin_refuted", "C87_counter"], "note": ""},
 {"property": "C88", "status": "proved", "theorems": ["C88_words", "C88_numbers", "C88_digits", "C88_otherwise", "C88_large_refuted", "C88_printable"], "note": ""},
 {"property": "C89", "status": "proved", "theorems": ["C89_minmax", "C89_swap", "C89_swap_refuted", "C89_exit", "C89_status"], "note": ""},
 {"property": "C90", "status": "proved", "theorems": ["C90_balance", "C90_absent", "C90_force", "C90_force_refuted", "C90_handle_refuted"], "note": ""},
 {"property": "C91", "status": "proved", "theorems": ["C91_abort_octets", "C91_abandoned", "C91_abort", "C91_abort_error", "C91_sticky", "C91_end_of_file", "C91_oversize", "C91_empty"], "note": ""},
 {"property": "C92", "status": "proved", "theorems": ["C92_converts", "C92_file", "C92_refused", "C92_strings", "C92_one", "C92_again", "C92_there_and_back", "C92_nothing", "C92_zero_refuted", "C92_long_refuted"], "note": ""},
 {"property": "C93", "status": "proved", "theorems": ["C93_mask", "C93_broadcast", "C93_host", "C93_one", "C93_refused", "C93_help"], "note": ""},
 {"property": "C94", "status": "proved", "theorems": ["C94_region", "C94_addresses", "C94_always", "C94_confined", "C94_bounds_refuted", "C94_address_refuted", "C94_last_refuted", "C94_region_refuted", "C94_bit_refuted"], "note": ""},
 {"property": "C95", "status": "proved", "theorems": ["C95_in_place", "C95_same", "C95_arguments", "C95_round_trip", "C95_short", "C95_nul_refuted"], "note": ""},
 {"property": "C96", "status": "proved", "theorems": ["C96_reads", "C96_arguments", "C96_stops"], "note": ""},
 {"property": "C97", "status": "proved", "theorems": ["C97_safe", "C97_alone", "C97_order", "C97_calls", "C97_progress", "C97_string_refuted"], "note": ""},
 {"property": "C98", "status": "proved", "theorems": ["C98_done", "C98_usage", "C98_nothing_lost", "C98_twice", "C98_dash_refuted"], "note": ""},
 {"property": "C99", "status": "proved", "theorems": ["C99_options", "C99_wait_refuted", "C99_junk_refuted", "C99_bit_refuted", "C99_unknown_refuted"], "note": ""}
]}
