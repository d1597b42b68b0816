{"claims": [
  {"property": "C01", "status": "proved", "theorems": ["numheader32_roundtrip", "numheader32_rejects", "numheader32_prefix_free", "numheader32_accepts_only_in_range", "numheader32_canonical_refuted"], "note": ""},
  {"property": "C02", "status": "proved", "theorems": ["numheader16_roundtrip", "numheader16_rejects", "numheader16_canonical"], "note": ""},
  {"property": "C03", "status": "proved", "theorems": ["numheader_truncated", "numheader_decode_safe"], "note": ""},
  {"property": "C04", "status": "proved", "theorems": ["rmf_header_roundtrip", "rmf_header_rejects", "rmf_header_accepts_only_in_range", "rmf_header_none_is_short", "rmf_header_refuses_negative_refuted"], "note": ""},
  {"property": "C05", "status": "proved", "theorems": ["rmf_header_bare", "rmf_header_roundtrip_unconditional_refuted"], "note": "claim is false of the code; refuted and characterised exactly"},
  {"property": "C06", "status": "proved", "theorems": ["fileinfo_roundtrip", "fileinfo_name_ends_at_nul", "fileinfo_packs_only_what_fits", "fileinfo_short_is_none"], "note": ""},
  {"property": "C07", "status": "proved", "theorems": ["fileopen_roundtrip", "fileopen_rejects", "fileopen_accepts_only_open", "fileclose_roundtrip_refuted", "fileclose_wire"], "note": "open half proved; close commands are produced correctly, but the decoding half is refuted"},
  {"property": "C08", "status": "proved", "theorems": ["socket_chunking_independent", "socket_arbitrary_bytes_safe"], "note": ""},
  {"property": "C09", "status": "proved", "theorems": ["socket_delivers_in_order", "socket_delivers_everything", "socket_requires_acknowledge", "socket_send_length", "socket_close_stops", "socket_greeting"], "note": ""},
  {"property": "C10", "status": "proved", "theorems": ["filemap_allocation", "filemap_insert_auto", "filemap_insert_fixed", "filemap_insert_foreign", "filemap_empty_file_disjoint_refuted", "filemap_reinsert_disjoint_refuted"], "note": "holds for non-empty files inserted once each; both exceptions are refuted by witnesses"},
  {"property": "C11", "status": "proved", "theorems": ["filemap_insert_outcome", "filemap_insert_when_room_refuted"], "note": "claim is false of the code (UnboundLocalError); exact outcome of every insertion proved"},
  {"property": "C12", "status": "proved", "theorems": ["filemap_find_exact", "filemap_find_empty_files_refuted"], "note": ""},
  {"property": "C13", "status": "proved", "theorems": ["filemap_find_name_first", "filemap_find_name_refuted"], "note": "claim is false of the code; proved what the lookup does find"},
  {"property": "C14", "status": "proved", "theorems": ["filemap_remove", "filemap_remove_missing", "filemap_insert_given", "filemap_remove_given"], "note": ""},
  {"property": "C15", "status": "proved", "theorems": ["file_is_memory", "file_initial", "file_initial_rejects", "file_read_length_refuted"], "note": "negative read lengths are refuted separately"},
  {"property": "C16", "status": "proved", "theorems": ["input_write_notifies", "input_local_write_notifies", "input_fragments_report_last", "input_fragments_reported_refuted"], "note": "claim is false of fragmented writes; exact behaviour proved"},
  {"property": "C17", "status": "proved", "theorems": ["output_write_notifies", "plain_file_silent"], "note": ""},
  {"property": "C18", "status": "proved", "theorems": ["nothing_before_connect", "startup_announcements", "local_files_stay_placed"], "note": "Announcement order is the order of the local map, which local_files_stay_placed shows to be address order. Files whose description fits the wire format."},
  {"property": "C19", "status": "proved", "theorems": ["replica_converges", "replica_converges_wire"], "note": "Queue level at every moment; wire level for one connection once the queue is empty."},
  {"property": "C20", "status": "proved", "theorems": ["data_message_frame", "data_message_hits", "data_message_misses", "remote_layout_enforced_refuted"], "note": "Exact effect assumes the peer announced non-overlapping files; that this is enforced is refuted."},
  {"property": "C21", "status": "proved", "theorems": ["requested_file_lifecycle"], "note": ""},
  {"property": "C22", "status": "proved", "theorems": ["announcement_outcomes", "announcements_never_raise_refuted", "other_commands_ignored", "open_request"], "note": "Claim as first stated is false of the code; the complete outcome table is proved with witnesses."},
  {"property": "C23", "status": "proved", "theorems": ["compiled_length_is_packLen", "compiled_has_packLen", "packLen_is_size", "compiler_accepts_exactly", "port_program_direction", "ports_compile_exactly", "sized_types_compile_refuted"], "note": "modulo 2^32, the width of the header field; 64 bit integers, single characters and references to arrays have a length but no program"},
  {"property": "C24", "status": "proved", "theorems": ["pack_exact", "pack_changes_only_window", "pack_small_buffer_refused", "string_encoding"], "note": "for types with array lengths 1..65535, ASCII member names and size below 2^32; array members subject to C29"},
  {"property": "C25", "status": "proved", "theorems": ["unpack_exact", "pack_unpack_identity", "unpack_repeated_members"], "note": ""},
  {"property": "C26", "status": "proved", "theorems": ["out_of_range_refused"], "note": ""},
  {"property": "C27", "status": "proved", "theorems": ["vm_pack_safe", "vm_unpack_safe", "vm_window_refuted", "vm_header_required"], "note": "window claim proved for compiled programs (pack_changes_only_window), refuted for arbitrary byte code"},
  {"property": "C28", "status": "proved", "theorems": ["nested_never_unpacks", "flat_unpacks", "packable_unpackable_refuted"], "note": "refuted; characterised: a regular type unpacks iff it is not nested"},
  {"property": "C29", "status": "proved", "theorems": ["long_array_member_refused", "array_member_refuted"], "note": "refuted; pack_exact gives the exact condition"},
  {"property": "C30", "status": "proved", "theorems": ["array_length_in_code", "array_length_faithful", "array_length_refuted", "array_length_zero_refuted", "long_array_never_unpacks", "array_roundtrip"], "note": "refuted for 0 and >= 65536, proved for 1..65535"},
  {"property": "C31", "status": "proved", "theorems": ["port_layout", "port_files", "layout_exact_cover"], "note": ""},
  {"property": "C32", "status": "proved", "theorems": ["node_data_refines", "last_write_wins", "write_stores"], "note": ""},
  {"property": "C33", "status": "proved", "theorems": ["affected_meaning", "byte_to_port_exact"], "note": ""},
  {"property": "C34", "status": "proved", "theorems": ["arrival_announced", "read_gives_present_value"], "note": ""},
  {"property": "C35", "status": "proved", "theorems": ["rejected_write_changes_nothing", "rejected_write_locks", "locked_for_ever", "rejected_write_harmless_refuted"], "note": "A rejected write changes neither file nor value; the second half (the node stays usable) is false and refuted: the lock is never released."},
  {"property": "C36", "status": "proved", "theorems": ["initial_contents", "init_is_encoding", "initial_value_read", "initial_values_refuted"], "note": "Proved for init values of the shape of their types; refuted without that condition."},
  {"property": "C37", "status": "proved", "theorems": ["signature_text_round_trip", "linked_signature_round_trip", "parsed_signature_normal_form", "signature_parser_terminates", "signature_round_trip_refuted"], "note": "Names in quotes must not contain a quote, type names need paired brackets and record members need names; the refutation shows why."},
  {"property": "C38", "status": "proved", "theorems": ["loaded_references_resolve", "loaded_node_is_what_is_said", "append_adds_port"], "note": "The lines that are accepted and what each does are the relation reads_lines; the only resolution failures left are those raised as errors."},
  {"property": "C39", "status": "proved", "theorems": ["loaded_port_ids", "append_adds_port", "ids_after_finalize_refuted", "ids_after_mirror_refuted"], "note": ""},
  {"property": "C40", "status": "proved", "theorems": ["definition_round_trip", "reading_again_gives_the_same", "sorted_round_trip_refuted", "index_in_own_record_refuted"], "note": "Context.dumps then loads, for nodes whose names can be written; refuted for sorted types and for indices in a port's own record."},
  {"property": "C41", "status": "proved", "theorems": ["mirror_swaps", "mirror_twice"], "note": ""},
  {"property": "C42", "status": "proved", "theorems": ["extend_merges", "extend_port_conflict", "extend_type_conflict", "extend_type_conflict_refuted", "extend_reference_type_refuted", "loaded_settled", "extend_keeps_order"], "note": ""},
  {"property": "C43", "status": "proved", "theorems": ["layout_does_not_matter", "comment_before_header_refuted"], "note": ""},
  {"property": "C44", "status": "proved", "theorems": ["every_port_line_counts", "loaded_node_is_what_is_said", "no_line_dropped_refuted"], "note": ""},
  {"property": "C45", "status": "proved", "theorems": ["load_agrees_with_loads", "load_accepts_what_loads_accepts", "headerless_load_refuted"], "note": ""},
  {"property": "C46", "status": "proved", "theorems": ["init_notation_read", "port_attribute_read", "init_text_round_trip", "init_text_round_trip_refuted", "attribute_text_dropped_refuted", "attribute_parser_terminates", "type_attribute_parser_terminates", "imported_constant_read"], "note": "Every notation of an init value (decimal, hexadecimal, quoted text, nested lists with white space) is read as the value it spells; constants imported from AUTOSAR come back as their value; the round trip fails for the shapes named in the refutation."},
  {"property": "C47", "status": "proved", "theorems": ["rounding_to_nearest", "ramp_climbs", "falling_ramp_moves_away", "ramp_to_itself", "long_ramp_stays_between_refuted", "falling_ramp_reaches_target_refuted", "ramp_of_initial_value_refuted"], "note": "increasing ramps proved up to steps*value <= 2^50; the decreasing, very long and unwritten cases are refuted"},
  {"property": "C48", "status": "proved", "theorems": ["unsigned_range_fits", "signed_range_fits", "signed_small_refused", "integer_ranges_fit_refuted"], "note": "Exact characterisation of the ranges that fit; the stated property fails for the ranges in integer_ranges_fit_refuted."},
  {"property": "C49", "status": "proved", "theorems": ["worker_in_order", "worker_progress", "worker_drains", "transmitted_format"], "note": ""},
  {"property": "C50", "status": "proved", "theorems": ["concurrent_writers_converge_refuted", "disjoint_writers_converge", "single_writer_converges"], "note": "False for writers of the same bytes; proved for writers of different bytes under every schedule."},
  {"property": "C51", "status": "proved", "theorems": ["written_value_reaches_peer", "arriving_value_is_reported", "received_value_is_read", "net_is_history", "written_value_is_received"], "note": "The peer is the server, which is not in the repository: that it passes the bytes of the port on is a hypothesis."},
  {"property": "C52", "status": "proved", "theorems": ["generated_data", "generated_macros", "unsorted_layout_refuted", "backslash_refuted", "case_of_names_refuted"], "note": ""},
  {"property": "C53", "status": "proved", "theorems": ["imported_type_read", "imported_type_refuted"], "note": "For importable types; arrays and names with quotes fail (refuted)."},
  {"property": "C54", "status": "proved", "theorems": ["value_table_round_trip", "value_table_entry", "value_table_refuted"], "note": "For texts without quotes, commas and parentheses."},
  {"property": "C55", "status": "proved", "theorems": ["finalize_sorts", "dumps_round_trip", "sorted_round_trip_refuted"], "note": ""},
  {"property": "C56", "status": "proved", "theorems": ["same_port_same_operation", "identifier_is_unambiguous", "wrong_write_is_rejected", "wrong_read_is_rejected", "wrong_kind_is_value_error_refuted"], "note": ""},
  {"property": "C57", "status": "proved", "theorems": ["client_refines", "clients_never_hang_refuted"], "note": ""},
  {"property": "C58", "status": "proved", "theorems": ["int_reads_numerals", "signature_language", "signature_unambiguous", "signature_refusals", "missing_names_print_as_None", "text_determines_names_refuted"], "note": ""},
  {"property": "C59", "status": "proved", "theorems": ["component_imported", "types_of_one_name_refuted"], "note": ""},
  {"property": "C60", "status": "proved", "theorems": ["write_function", "named_record_members_refuted", "full_texts_refuted"], "note": ""},
  {"property": "C61", "status": "proved", "theorems": ["read_function", "full_texts_refuted"], "note": ""},
  {"property": "C62", "status": "proved", "theorems": ["callbacks_called_right", "partial_data_refuted", "case_of_names_refuted", "no_callbacks_refuted", "callback_arguments"], "note": ""},
  {"property": "C63", "status": "proved", "theorems": ["parsed_file_says", "one_definition", "parser_reused", "parser_reused_refuted", "saved_file_is_read", "save_touches_one_file", "failed_save_keeps_file_refuted", "context_saved", "context_saved_refuted", "context_save_stops", "nameless_not_saved"], "note": ""},
  {"property": "C64", "status": "proved", "theorems": ["size_printed", "size_only", "size_is_data_length", "size_refuted"], "note": ""},
  {"property": "C65", "status": "proved", "theorems": ["rewritten_is_read", "filtered_is_read", "rewritten_alike", "rewritten_again", "rewrite_touches_output", "rewritten_is_read_refuted", "failed_rewrite_refuted", "filter_needs_output_refuted"], "note": "Under the hypothesis that the sorted types refer backwards; refuted without it."},
  {"property": "C66", "status": "proved", "theorems": ["mirrored_is_read", "mirror_of_mirror"], "note": ""},
  {"property": "C67", "status": "proved", "theorems": ["extend_keeps_order", "joined_is_read", "join_blank_file_refuted"], "note": "For runs that succeed."},
  {"property": "C68", "status": "proved", "theorems": ["split_is_read", "names_in_file", "split_help", "tail_mirrored_refuted", "tail_name_unused", "split_double_name_refuted", "split_type_name_refuted"], "note": "For runs that succeed and definitions without double port names."},
  {"property": "C69", "status": "proved", "theorems": ["forward_copies", "unpack_pack_identity", "numbers_copied", "gateway", "untidy_refuted", "long_member_refuted"], "note": ""},
  {"property": "C70", "status": "proved", "theorems": ["supported_builds", "built_is_supported", "supported_text_gives_client", "number_in_own_record_refuted", "array_member_refuted"], "note": ""},
  {"property": "C71", "status": "proved", "theorems": ["dumped_lines", "saved_text", "tools_text", "tools_help", "mirror_text", "joined_text", "split_text", "normalized_docstring_refuted"], "note": ""},
  {"property": "C72", "status": "proved", "theorems": ["fresh_generator", "header_declares", "no_function_twice", "callbacks_declared", "handler_defined", "handler_name_refuted", "one_callback_refuted", "same_names_refuted"], "note": "One word in the theorem on names: no blank, star or parenthesis."},
  {"property": "C73", "status": "proved", "theorems": ["reuse_without_callbacks", "header_history", "header_declares", "reuse_with_callbacks_refuted", "reuse_without_input_refuted", "reuse_after_failure_refuted"], "note": ""},
  {"property": "C74", "status": "proved", "theorems": ["com_delivers", "com_files", "com_links", "shared_variable_refuted", "init_apart_refuted", "source_without_header_refuted"], "note": ""},
  {"property": "C75", "status": "proved", "theorems": ["source_is_c", "write_in_text", "read_in_text", "member_name_refuted", "port_name_refuted"], "note": "The version text may not have a star; the definition text may not have a backslash."},
  {"property": "C76", "status": "proved", "theorems": ["init_in_text", "constants_in_text", "state_in_text", "notify_in_text", "handler_text_refuted"], "note": ""},
  {"property": "C77", "status": "proved", "theorems": ["header_in_text", "callbacks_in_text", "same_guard_refuted"], "note": ""},
  {"property": "C78", "status": "proved", "theorems": ["com_in_text", "com_text_delivers", "element_name_refuted"], "note": ""},
  {"property": "C79", "status": "proved", "theorems": ["left_after_success", "refused_stays_in_window", "small_buffer_untouched", "any_code_keeps_prefix", "members_before_written", "items_before_written", "all_or_nothing_refuted"], "note": ""},
  {"property": "C80", "status": "proved", "theorems": ["left_type_call", "left_port_call", "left_append_call", "left_extend_call", "left_finalize_call", "refused_type_changes_nothing", "refused_port_changes_nothing", "refused_type_can_be_added_later", "refused_port_can_be_added_later", "refused_type_later_refuted", "refused_lines_leave_no_trace", "refused_extend", "extend_all_or_nothing_refuted", "refused_finalize_reorders"], "note": "A merge that raises is not undone and negative positions are bound early: both counterexamples are proved."},
  {"property": "C81", "status": "proved", "theorems": ["compatible_merge", "compatible_again", "extend_order", "copy_into_new_node", "copy_into_new_node_refuted"], "note": ""},
  {"property": "C82", "status": "proved", "theorems": ["reuse_succeeds", "reuse_files"], "note": ""},
  {"property": "C83", "status": "proved", "theorems": ["written_type_read", "written_range_fits", "written_range_refuted", "cyclic_record_raises", "dangling_reference_raises", "shipped_writer_writes", "shipped_writer_refuted", "written_attribute_read", "written_parameter_lost_refuted"], "note": ""},
  {"property": "C84", "status": "proved", "theorems": ["merge_any_order", "merge_any_grouping", "merge_any_order_refuted", "merge_other_order_refuted"], "note": "Ports only; the types no port needs and the order of ports depend on the order of the merges (Example ex_merge_order)."},
  {"property": "C85", "status": "proved", "theorems": ["mirror_of_merge", "mirror_of_compatible_merge", "mirror_of_merge_refuted"], "note": ""},
  {"property": "C86", "status": "proved", "theorems": ["split_then_join", "split_then_join_refuted"], "note": ""},
  {"property": "C87", "status": "proved", "theorems": ["join_any_order", "join_unsorted_refuted", "join_any_order_refuted"], "note": "For runs that succeed."},
  {"property": "C88", "status": "proved", "theorems": ["join_succeeds", "join_every_order", "join_order_fails_refuted", "join_disagreement_refuted"], "note": "files that agree (joinable), with types named in the order of reference as in C86 and C87"},
  {"property": "C89", "status": "proved", "theorems": ["split_succeeds", "split_join_succeeds", "split_join_same_text", "split_join_same_text_refuted", "split_succeeds_refuted"], "note": "types named in the order of reference, and types that can be taken over (MergeOkSpec)"},
  {"property": "C90", "status": "proved", "theorems": ["clear_text_accepted", "clear_file_accepted", "text_accepted_iff", "file_accepted_iff", "one_reading", "again_by_number_refuted"], "note": "A type declared again with a reference by number is refused (again_by_number_refuted)."},
  {"property": "C91", "status": "proved", "theorems": ["mirror_of_join", "mirror_of_unsorted_join_refuted"], "note": ""},
  {"property": "C92", "status": "proved", "theorems": ["array_pack", "array_unpack", "array_pack_unpack", "record_unpack_refuted", "plain_item_refuted"], "note": ""},
  {"property": "C93", "status": "proved", "theorems": ["pack_what_is_asked", "unpack_what_was_asked", "short_list_raises", "missing_member_raises"], "note": ""},
  {"property": "C94", "status": "proved", "theorems": ["finalize_compacts", "compact_text", "compact_normalized_refuted"], "note": ""}
]}
