{
 "claims": [
  {
   "property": "C01",
   "status": "proved",
   "theorems": [
    "C01_infinint_dump_read",
    "C01_infinint_dump_canonical",
    "C01_every_integer",
    "C01_from_machine_integer"
   ],
   "note": "real_infinint.cpp dump/build_from_file; the storage container is flattened to its byte list"
  },
  {
   "property": "C02",
   "status": "proved",
   "theorems": [
    "C02_infinint_read_sound",
    "C02_infinint_truncated",
    "C02_infinint_bad_preamble"
   ],
   "note": "exact characterisation of the accepted byte strings"
  },
  {
   "property": "C03",
   "status": "proved",
   "theorems": [
    "C03_add_exact",
    "C03_sub_exact",
    "C03_mul_exact",
    "C03_mul_byte_exact",
    "C03_div_mod_exact",
    "C03_shift_exact",
    "C03_shift_by_infinint_exact",
    "C03_bitwise_exact",
    "C03_compare_exact",
    "C03_index_power_exact"
   ],
   "note": "all operators modelled as the byte loops of the source"
  },
  {
   "property": "C04",
   "status": "proved",
   "theorems": [
    "C04_unstack",
    "C04_drain"
   ],
   "note": "unstack and the drain idiom"
  },
  {
   "property": "C05",
   "status": "proved",
   "theorems": [
    "C05_add",
    "C05_sub",
    "C05_mul",
    "C05_power",
    "C05_div_mod",
    "C05_shift",
    "C05_mul_complete",
    "C05_power_complete",
    "C05_shl_complete",
    "C05_mul_margin_refuted",
    "C05_shl_refuted",
    "C05_shr_lim_refuted",
    "C05_from_machine_integer",
    "C05_unstack",
    "C05_unstack_refuted",
    "C05_index",
    "C05_dump_same_format",
    "C05_read",
    "C05_truncated_read_refuted"
   ],
   "note": "add/sub/mul/power/div/mod/shr/shl/from/dump/read proved for 32 and 64 bits; false corners proved as _refuted: left shift near 2^32 wraps its own check (UB), right shift by a limitint unchecked (UB), unstack to a wider type in the 32 bit build, truncated field misread by build_from_file The cases excluded from the statement are false of the code and proved so (_refuted theorems)."
  },
  {
   "property": "C06",
   "status": "proved",
   "theorems": [
    "C06_human",
    "C06_numeral_unique",
    "C06_computer",
    "C06_roundtrip",
    "C06_roundtrip_back"
   ],
   "note": ""
  },
  {
   "property": "C07",
   "status": "proved",
   "theorems": [
    "C07_checksum_independent_of_buffering",
    "C07_checksum_any_order",
    "C07_zero_width_rejected"
   ],
   "note": ""
  },
  {
   "property": "C08",
   "status": "proved",
   "theorems": [
    "C08_burst_detected",
    "C08_no_false_alarm",
    "C08_dump_read",
    "C08_truncated_refuted"
   ],
   "note": "Burst detection, no false alarm and dump/read proved. A truncated CRC record is NOT reported (crc_n ignores a short read and keeps uninitialised bytes): C08_truncated_refuted. The cases excluded from the statement are false of the code and proved so (_refuted theorems)."
  },
  {
   "property": "C09",
   "status": "proved",
   "theorems": [
    "C09_exact_size",
    "C09_legal_sizes",
    "C09_small_buffer_rejected",
    "C09_dump_succeeds",
    "C09_read_forward",
    "C09_read_backward",
    "C09_buffer_forward",
    "C09_buffer_backward",
    "C09_huge_buffer_refuted"
   ],
   "note": "Proved for every legal size below 2^31 (size exactness and in-memory reading for every legal size); for larger sizes the file reader ends at a wrong position because the distance is converted to a signed 32-bit int (C09_huge_buffer_refuted). The cases excluded from the statement are false of the code and proved so (_refuted theorems)."
  },
  {
   "property": "C10",
   "status": "proved",
   "theorems": [
    "C10_terminator_found",
    "C10_any_64bit_position",
    "C10_terminator_inside",
    "C10_terminator_before_elastic",
    "C10_damaged_refused",
    "C10_blank_refused"
   ],
   "note": "Bound: the stored position takes less than 2^31-4 bytes (an int counts them); archive versions <= 6 elastic not covered."
  },
  {
   "property": "C11",
   "status": "proved",
   "theorems": [
    "C11_written_is_read_back",
    "C11_reads_exact",
    "C11_reserved_mark_refused",
    "C11_sync_refuted",
    "C11_short_read_refuted"
   ],
   "note": "Write-only and read-only modes of the escape layer, any client of read()/skip_to_next_mark(). Two findings are proved beside: a sync between two writes lets data become a mark (C11_sync_refuted), a short read does not always mean end of data (C11_short_read_refuted). The cases excluded from the statement are false of the code and proved so (_refuted theorems)."
  },
  {
   "property": "C12",
   "status": "proved",
   "theorems": [
    "C12_search",
    "C12_search_found",
    "C12_search_not_found",
    "C12_search_blocked",
    "C12_blocked_refuted",
    "C12_next_mark",
    "C12_next_mark_refuted",
    "C12_reachable"
   ],
   "note": "Success/failure and position after success proved; on failure data may remain before the blocking mark (C12_blocked_refuted), and next_to_read_is_which_mark may throw SRC_BUG on data starting with the fixed sequence (C12_next_mark_refuted). The cases excluded from the statement are false of the code and proved so (_refuted theorems)."
  },
  {
   "property": "C13",
   "status": "proved",
   "theorems": [
    "C13_scrambler_transparent",
    "C13_write_then_read",
    "C13_empty_key_refused",
    "C13_hole_refuted"
   ],
   "note": "Any sequence of reads, writes and skips; finding: a hole left by skipping past the end in the file below is unscrambled into non-zero bytes (C13_hole_refuted). The cases excluded from the statement are false of the code and proved so (_refuted theorems)."
  },
  {
   "property": "C14",
   "status": "proved",
   "theorems": [
    "C14_before_is_the_sum",
    "C14_offset_placed",
    "C14_place_reached",
    "C14_places_distinct",
    "C14_consecutive",
    "C14_single_slice",
    "C14_no_room",
    "C14_layout_roundtrip",
    "C14_layout_truncated"
   ],
   "note": "slice_layout::which_slice and the (de)serialisation of the layout."
  },
  {
   "property": "C15",
   "status": "proved",
   "theorems": [
    "C15_name_roundtrip",
    "C15_names_distinct",
    "C15_recognised",
    "C15_recognised_conversely",
    "C15_foreign_name_refuted",
    "C15_remove_higher",
    "C15_kept_slices_stay",
    "C15_higher_slices_go",
    "C15_foreign_file_removed_refuted",
    "C15_higher_number"
   ],
   "note": "Round trip, distinctness, removal and highest number proved; a name is recognised whatever the two separator characters (C15_foreign_name_refuted), hence a foreign file may be removed (C15_foreign_file_removed_refuted). The cases excluded from the statement are false of the code and proved so (_refuted theorems)."
  },
  {
   "property": "C16",
   "status": "proved",
   "theorems": [
    "C16_union",
    "C16_canonical_refuted",
    "C16_canonical_kept",
    "C16_canonical_lost",
    "C16_integers_canonical",
    "C16_display_faithful"
   ],
   "note": "Union proved for every history; canonical form proved when the added segment touches at most two existing ones (so for integers added one by one), false in general because only one following segment is merged (C16_canonical_refuted). The cases excluded from the statement are false of the code and proved so (_refuted theorems)."
  },
  {
   "property": "C17",
   "status": "proved",
   "theorems": [
    "C17_construct",
    "C17_empty_refused",
    "C17_construct_url",
    "C17_display_parse",
    "C17_display_parse_url_refuted",
    "C17_subdir",
    "C17_subdir_nocase",
    "C17_subdir_one_char",
    "C17_subdir_refuted",
    "C17_pop_add",
    "C17_append_child",
    "C17_add",
    "C17_display_without_root_safe"
   ],
   "note": "Construction, normal form, display/parse, pop, append, add proved; is_subdir_of proved except for a one-character relative parent, which it never recognises (C17_subdir_refuted); the bare URL root does not survive display/parse (C17_display_parse_url_refuted). Upper casing taken character by character. The cases excluded from the statement are false of the code and proved so (_refuted theorems)."
  },
  {
   "property": "C18",
   "status": "proved",
   "theorems": [
    "C18_masks_boolean",
    "C18_empty_refused",
    "C18_exclude_dir_refuted"
   ],
   "note": "All trees of bool/glob/regex/not/and/or/simple_path/same_path masks proved; exclude_dir_mask covers everything (C18_exclude_dir_refuted). The cases excluded from the statement are false of the code and proved so (_refuted theorems)."
  },
  {
   "property": "C19",
   "status": "proved",
   "theorems": [
    "C19_order",
    "C19_add",
    "C19_sub",
    "C19_build",
    "C19_equality",
    "C19_get_value",
    "C19_dump_read",
    "C19_truncated",
    "C19_read_old",
    "C19_loose_equal"
   ],
   "note": "Infinint build; negative time_t and the Elimitint fallback of build() are outside the model."
  },
  {
   "property": "C20",
   "status": "proved",
   "theorems": [
    "C20_numbers_follow",
    "C20_back_number",
    "C20_records",
    "C20_move_back",
    "C20_succeeds",
    "C20_set_permutation_refuted"
   ],
   "note": "Renumbering, record preservation, inverse move proved for every tree; set_permutation(n,n) is not neutral: it resurrects a removed file (C20_set_permutation_refuted). The cases excluded from the statement are false of the code and proved so (_refuted theorems)."
  },
  {
   "property": "C21",
   "status": "proved",
   "theorems": [
    "C21_get_data",
    "C21_even_when_removed",
    "C21_ewr_ignores_removals",
    "C21_get_data_total",
    "C21_restores",
    "C21_revival_refuted",
    "C21_get_EA_total",
    "C21_get_EA"
   ],
   "note": "get_data/get_EA proved total and characterised on chronological records without 'present' after a removal; a 'present' record following an 'absent' one is reported removed (C21_revival_refuted). The cases excluded from the statement are false of the code and proved so (_refuted theorems)."
  },
  {
   "property": "C22",
   "status": "proved",
   "theorems": [
    "C22_flags",
    "C22_only_flags",
    "C22_total",
    "C22_stable",
    "C22_set_data",
    "C22_remove",
    "C22_renumber",
    "C22_finalize_refuted",
    "C22_width_refuted"
   ],
   "note": "Flags proved exact after every set/remove/renumber; not refreshed when finalize erases an 'absent' record (C22_finalize_refuted); SRC_BUG when CRC of both implementations meet (C22_width_refuted). The cases excluded from the statement are false of the code and proved so (_refuted theorems)."
  },
  {
   "property": "C23",
   "status": "proved",
   "theorems": [
    "C23_finalize_data",
    "C23_finalize_EA",
    "C23_recorded_untouched",
    "C23_finalize_new",
    "C23_unmentioned_is_removed",
    "C23_remove_data",
    "C23_remove_EA",
    "C23_remove_again",
    "C23_droppable",
    "C23_kept_or_dropped",
    "C23_renumber",
    "C23_numbers_follow",
    "C23_removal_refuted"
   ],
   "note": "Finalize and removal proved record by record; removing the archive that alone recorded the disappearance resurrects the file (C23_removal_refuted). The cases excluded from the statement are false of the code and proved so (_refuted theorems)."
  },
  {
   "property": "C24",
   "status": "proved",
   "theorems": [
    "C24_criteria",
    "C24_no_operand",
    "C24_chain",
    "C24_test",
    "C24_total",
    "C24_confirm",
    "C24_EA_hardlink_refuted",
    "C24_date_no_inode_refuted",
    "C24_confirm_EA_refuted",
    "C24_undefined_refuted"
   ],
   "note": "Every criterium, boolean combination, test and chain proved against the manual; refuted: 'e' ignores hard links (C24_EA_hardlink_refuted), R(date) holds for non inodes (C24_date_no_inode_refuted), refusing an EA overwrite changes the data action (C24_confirm_EA_refuted), undefined action when restoring (C24_undefined_refuted). The cases excluded from the statement are false of the code and proved so (_refuted theorems)."
  },
  {
   "property": "C25",
   "status": "proved",
   "theorems": [
    "C25_written",
    "C25_write_position",
    "C25_holes_found",
    "C25_read_back",
    "C25_any_stream",
    "C25_skip_forward",
    "C25_copy",
    "C25_copy_zeros",
    "C25_tail_refuted",
    "C25_tail_hole_refuted",
    "C25_copy_crc_refuted",
    "C25_copy_twice_refuted",
    "C25_skip_backward_refuted",
    "C25_no_sync_refuted"
   ],
   "note": "Writing proved for every content, minimum and split; reading, forward skip and restoring copy (content, size, CRC) proved when the stored stream does not end by a start of the fixed sequence (in particular when the content ends by a byte out of {0} and the sequence). Refuted otherwise: C25_tail_refuted, C25_tail_hole_refuted; also CRC of copy without skip, copy after a read, backward skip over escaped data, terminate without sync. The cases excluded from the statement are false of the code and proved so (_refuted theorems)."
  },
  {
   "property": "C26",
   "status": "proved",
   "theorems": [
    "C26_transparent",
    "C26_too_small",
    "C26_instance",
    "C26_relative_forward_refuted",
    "C26_relative_backward_refuted",
    "C26_relative_write_refuted",
    "C26_sync_moves_refuted",
    "C26_eof_from_beyond_refuted",
    "C26_truncate_pending_refuted",
    "C26_truncate_eof_refuted"
   ],
   "note": "Every sequence of reads, writes, absolute skips, jumps to the end (from within the file) and position queries, every size and both buffer modes: same answers and same final file as without cache. Refuted: relative skips leaving the buffer, write after a relative skip back, position after sync, jump to the end from beyond it, truncation. The cases excluded from the statement are false of the code and proved so (_refuted theorems)."
  },
  {
   "property": "C27",
   "status": "proved",
   "theorems": [
    "C27_window",
    "C27_slice",
    "C27_overflow",
    "C27_modify",
    "C27_instance",
    "C27_relative_end_refuted",
    "C27_relative_first_refuted",
    "C27_truncate_refuted",
    "C27_truncate_new_refuted"
   ],
   "note": "Every window (bounded or not), every file and every sequence of reads, writes, absolute and relative skips: answers of a file holding the window, nothing changed out of the window; overflowing writes and moving the window too. Excluded and refuted: relative skip to the exact end, relative skip backward before any access, truncation (cuts what follows the window; SRC_BUG on a new window). The cases excluded from the statement are false of the code and proved so (_refuted theorems)."
  },
  {
   "property": "C28",
   "status": "proved",
   "theorems": [
    "C28_size",
    "C28_dump",
    "C28_clear",
    "C28_read",
    "C28_write",
    "C28_insert",
    "C28_remove",
    "C28_truncate",
    "C28_insert_const",
    "C28_load",
    "C28_skip_to",
    "C28_skip_forward",
    "C28_skip_backward",
    "C28_get_position",
    "C28_deref",
    "C28_index",
    "C28_alloc",
    "C28_copy",
    "C28_memory_file",
    "C28_instance",
    "C28_instance_cells",
    "C28_index_boundary_refuted",
    "C28_index_out_refuted",
    "C28_memory_file_cells_refuted",
    "C28_alloc_odd_refuted",
    "C28_copy_emptied_refuted",
    "C28_skip_end_refuted",
    "C28_compare_refuted"
   ],
   "note": "Reading, writing, inserting, removing, truncating, positioning, copying proved for every chain of cells; memory files for every sequence of operations below 4 GiB while memory is available. Refuted: operator [] at the first byte of a following cell and out of range (out of bounds access), hence memory files left with several cells; make_alloc after a refused request of an odd amount; copy of an emptied storage; skip to the exact end; comparison operators. The cases excluded from the statement are false of the code and proved so (_refuted theorems)."
  },
  {
   "property": "C29",
   "status": "proved",
   "theorems": [
    "C29_encrypted_image",
    "C29_reads_any_position",
    "C29_write_then_read",
    "C29_symmetric_ciphers",
    "C29_read_write_below_refuted",
    "C29_far_seek_refuted"
   ],
   "note": "Every data, block size, write pattern and sequence of reads and seeks, for every cipher with the stated laws (the symmetric module has them when the block size is a multiple of the algorithm block): exact encrypted image, exact data back, with or without trailing clear data found by the callback. Refuted: misplaced end of file for unaligned block sizes and for a trailer reaching the next block; padding check accepting trailing clear data; sync_write inside a block; endless write over a read-write file; seek 4 GiB past a reached end; last block lost after flush_read at the end. Thread cancellation and the state after an exception are not modelled. The cases excluded from the statement are false of the code and proved so (_refuted theorems)."
  },
  {
   "property": "C30",
   "status": "proved",
   "theorems": [
    "C30_compressed_image",
    "C30_stream_reads",
    "C30_write_then_read",
    "C30_damaged_header",
    "C30_suspended_transparent",
    "C30_suspend_completes",
    "C30_truncation_unnoticed_refuted",
    "C30_empty_stream_refuted",
    "C30_skip_drops_pending_refuted",
    "C30_position_inside_refuted"
   ],
   "note": "Every data, block size and invertible block compressor: exact compressed image and recorded positions, each non empty stream read back in any sizes, damaged headers refused, suspension. Refuted: a cut at a block boundary is not noticed, an empty stream reads as the next one, a skip drops pending data, no position inside a stream. The cases excluded from the statement are false of the code and proved so (_refuted theorems)."
  },
  {
   "property": "C31",
   "status": "proved",
   "theorems": [
    "C31_write",
    "C31_write_no_empty_slice",
    "C31_read",
    "C31_roundtrip",
    "C31_read_all",
    "C31_missing_slice",
    "C31_foreign_slice",
    "C31_swapped_slices_refuted",
    "C31_truncated_slice_refuted",
    "C31_truncated_slice_end_refuted",
    "C31_failed_skip_refuted",
    "C31_skip_beyond_refuted",
    "C31_skip_exact_end_refuted",
    "C31_forward_beyond_refuted",
    "C31_backward_before_refuted",
    "C31_sequential_beyond_refuted",
    "C31_sequential_eof_refuted",
    "C31_write_back_refuted",
    "C31_size_refuted"
   ],
   "note": "Conditions shown necessary: C31_size_refuted (a slice of header + flag only is accepted and writing never ends), C31_skip_beyond_refuted, C31_skip_exact_end_refuted, C31_forward_beyond_refuted, C31_backward_before_refuted, C31_sequential_beyond_refuted, C31_sequential_eof_refuted, C31_write_back_refuted. Damaged sets of slices: C31_missing_slice, C31_foreign_slice; not detected: C31_swapped_slices_refuted, C31_truncated_slice_refuted, C31_truncated_slice_end_refuted, C31_failed_skip_refuted. The user asked for a slice always refuses; formats below 8, lax mode, hooks and pauses are not modelled. The cases excluded from the statement are false of the code and proved so (_refuted theorems)."
  },
  {
   "property": "C32",
   "status": "proved",
   "theorems": [
    "C32_typed_list",
    "C32_typed_list_truncated",
    "C32_slice_header",
    "C32_slice_header_truncated",
    "C32_slice_header_any",
    "C32_slice_header_room_refuted",
    "C32_version",
    "C32_version_8",
    "C32_version_truncated",
    "C32_version_fix_refuted",
    "C32_blank_version_refuted",
    "C32_flags",
    "C32_header",
    "C32_header_checksum",
    "C32_unknown_flag_refuted",
    "C32_truncated_salt_refuted",
    "C32_header_copy_refuted",
    "C32_header_copy"
   ],
   "note": "Round trip, truncation and arbitrary bytes proved for typed lists, labels, slice headers, versions (format 8 on), flags and whole archive headers with nested reference header; accepted headers carry the matching checksum unless a flag is unknown. Refuted: fix number below format 8, blank header not recognised, unknown flag hides corruption, truncated salt never ends, copy drops the reference offset, slices without room accepted. The cases excluded from the statement are false of the code and proved so (_refuted theorems)."
  },
  {
   "property": "C33",
   "status": "proved",
   "theorems": [
    "C33_copy_all",
    "C33_copy_all_crc",
    "C33_copy_amount32",
    "C33_copy_amount",
    "C33_large_amount_refuted",
    "C33_diff",
    "C33_equal",
    "C33_diff_offset_refuted",
    "C33_diff_short_refuted"
   ],
   "note": "Unbounded copy (with and without CRC), bounded copies below 2^31 and comparison proved for every content; refuted: amounts beyond the signed 32 bit range (C33_large_amount_refuted), the offset reported when sizes differ (C33_diff_offset_refuted), short reads taken for a difference (C33_diff_short_refuted). The cases excluded from the statement are false of the code and proved so (_refuted theorems)."
  },
  {
   "property": "C34",
   "status": "proved",
   "theorems": [
    "C34_changed_exactly",
    "C34_unchanged_skipped",
    "C34_metadata_seen",
    "C34_date_seen",
    "C34_same_precision_seen",
    "C34_subsecond_refuted",
    "C34_hourshift",
    "C34_more_recent"
   ],
   "note": "No false alarm, metadata, date changes of one second or more, same-precision dates and hour shift proved; a sub-second change is missed when one date is a whole number of seconds (C34_subsecond_refuted). ctime-based and delta-signature checks not modelled. The cases excluded from the statement are false of the code and proved so (_refuted theorems)."
  },
  {
   "property": "C35",
   "status": "proved",
   "theorems": [
    "C35_listing",
    "C35_blank_line_refuted",
    "C35_last_line_case_refuted",
    "C35_absolute_not_normalised_refuted",
    "C35_user_eol_refuted"
   ],
   "note": "Every listing of clean lines, every buffering, default end of lines (LF, CR LF). Upper casing is taken character by character. Conditions shown necessary: C35_blank_line_refuted (an empty line is an internal error), C35_last_line_case_refuted, C35_absolute_not_normalised_refuted, C35_user_eol_refuted. The cases excluded from the statement are false of the code and proved so (_refuted theorems)."
  },
  {
   "property": "C36",
   "status": "proved",
   "theorems": [
    "C36_condition",
    "C36_policy",
    "C36_total",
    "C36_and_or_refuted",
    "C36_nested_refuted",
    "C36_letters",
    "C36_delete_refuted"
   ],
   "note": "Every condition without a conjunction ending in a parenthesised disjunction, every chain of tests with constant actions proved; parser total for all strings; refuted: I&(D|F) read as I&D&F (C36_and_or_refuted), nested conditionals of the manual rejected (C36_nested_refuted). The cases excluded from the statement are false of the code and proved so (_refuted theorems)."
  },
  {
   "property": "C37",
   "status": "proved",
   "theorems": [
    "C37_roundtrip",
    "C37_truncated",
    "C37_checked",
    "C37_terminates",
    "C37_sequential",
    "C37_sequential_checked",
    "C37_twice_refuted",
    "C37_damage_reported_refuted",
    "C37_cut_refuted",
    "C37_patch_refuted"
   ],
   "note": "Every tree, every continuation, every truncation, every sequence of bytes. Limits: C37_twice_refuted (reset_dump needed), C37_damage_reported_refuted (SRC_BUG on a damaged catalogue), C37_cut_refuted (uninitialised variables used on a truncated catalogue), C37_patch_refuted (condition on binary patches needed). The cases excluded from the statement are false of the code and proved so (_refuted theorems)."
  },
  {
   "property": "C38",
   "status": "proved",
   "theorems": [
    "C38_roundtrip",
    "C38_partial",
    "C38_read_only",
    "C38_no_overwrite",
    "C38_credentials",
    "C38_truncated",
    "C38_terminates",
    "C38_old_version_refuted",
    "C38_refused_save_refuted",
    "C38_limit_refuted",
    "C38_damaged_refuted"
   ],
   "note": "Every database that the program builds; every cut; every file for termination. Limits: C38_old_version_refuted, C38_refused_save_refuted, C38_limit_refuted, C38_damaged_refuted. The cases excluded from the statement are false of the code and proved so (_refuted theorems)."
  },
  {
   "property": "C39",
   "status": "proved",
   "theorems": [
    "C39_blocks",
    "C39_order",
    "C39_complete",
    "C39_no_false_alarm",
    "C39_ends",
    "C39_no_deadlock",
    "C39_pool",
    "C39_encryption",
    "C39_compression",
    "C39_instance",
    "C39_worker_exception_refuted",
    "C39_silent_loss_refuted",
    "C39_end_mark_hang_refuted"
   ],
   "note": "Every schedule, with failures. Limits: C39_worker_exception_refuted, C39_silent_loss_refuted, C39_end_mark_hang_refuted (real hangs and a silent loss). The cases excluded from the statement are false of the code and proved so (_refuted theorems)."
  },
  {
   "property": "C40",
   "status": "proved",
   "theorems": [
    "C40_content",
    "C40_exact",
    "C40_full",
    "C40_ends",
    "C40_preserve",
    "C40_filter",
    "C40_filter_full",
    "C40_dir_to_file_refuted",
    "C40_ea_leak_refuted",
    "C40_remove_refuted",
    "C40_astray_refuted",
    "C40_preserve_dir_refuted",
    "C40_unseen_refuted",
    "C40_filter_refuted"
   ],
   "note": "Chains of any length. Limits: C40_dir_to_file_refuted, C40_ea_leak_refuted, C40_remove_refuted, C40_astray_refuted, C40_preserve_dir_refuted, C40_unseen_refuted (behaviours of the code). The cases excluded from the statement are false of the code and proved so (_refuted theorems)."
  },
  {
   "property": "C41",
   "status": "proved",
   "theorems": [
    "C41_full",
    "C41_chain",
    "C41_join_refuted",
    "C41_ea_refuted",
    "C41_full_ea_refuted"
   ],
   "note": "Chains of any length. Limits: C41_join_refuted, C41_ea_refuted, C41_full_ea_refuted (behaviours of the code). The cases excluded from the statement are false of the code and proved so (_refuted theorems)."
  },
  {
   "property": "C42",
   "status": "proved",
   "theorems": [
    "C42_preserve",
    "C42_overwrite",
    "C42_isolation",
    "C42_actions",
    "C42_decremental_content",
    "C42_decremental",
    "C42_flatten",
    "C42_decr_ea_refuted",
    "C42_clear_refuted",
    "C42_clear_crash",
    "C42_naive_refuted",
    "C42_decr_type_refuted"
   ],
   "note": "Archives and histories of any size. Limits: C42_decr_ea_refuted, C42_clear_refuted, C42_clear_crash, C42_naive_refuted, C42_decr_type_refuted (behaviours of the code or of a policy). The cases excluded from the statement are false of the code and proved so (_refuted theorems)."
  },
  {
   "property": "C43",
   "status": "proved",
   "theorems": [
    "C43_complete",
    "C43_cut",
    "C43_bytes",
    "C43_between",
    "C43_checked",
    "C43_dirty_refuted",
    "C43_stale_refuted",
    "C43_hang_refuted",
    "C43_lax_refuted",
    "C43_filtered_refuted",
    "C43_failed_link_refuted",
    "C43_failed_link_described",
    "C43_giga_refuted",
    "C43_dirty_ea_refuted",
    "C43_second_copy_refuted"
   ],
   "note": "Archives of any size, stopped at any byte. Limits: C43_dirty_refuted, C43_stale_refuted, C43_hang_refuted, C43_lax_refuted, C43_filtered_refuted, C43_failed_link_refuted, C43_giga_refuted, C43_dirty_ea_refuted, C43_second_copy_refuted (behaviours of the code). The cases excluded from the statement are false of the code and proved so (_refuted theorems)."
  },
  {
   "property": "C44",
   "status": "proved",
   "theorems": [
    "C44_data",
    "C44_compare",
    "C44_report",
    "C44_every_entry",
    "C44_ok_same_data",
    "C44_no_error_iff",
    "C44_unchanged",
    "C44_hourshift_refuted",
    "C44_ignored_date_refuted",
    "C44_fsa_refuted",
    "C44_refused_directory_refuted",
    "C44_isolated_refuted",
    "C44_offset_refuted"
   ],
   "note": "Trees, data and buffers of any size. Limits: C44_hourshift_refuted, C44_ignored_date_refuted, C44_fsa_refuted, C44_refused_directory_refuted, C44_isolated_refuted, C44_offset_refuted (behaviours of the code). The cases excluded from the statement are false of the code and proved so (_refuted theorems)."
  },
  {
   "property": "C45",
   "status": "proved",
   "theorems": [
    "C45_exact",
    "C45_no_deadlock",
    "C45_ends",
    "C45_reads",
    "C45_pool",
    "C45_as_sequential",
    "C45_round_trip",
    "C45_instance",
    "C45_after_error_refuted",
    "C45_no_end_mark_refuted",
    "C45_cut_block_refuted",
    "C45_position_refuted",
    "C45_damaged_hang_refuted",
    "C45_syntax"
   ],
   "note": "Any number of threads and any schedule. Limits: C45_after_error_refuted, C45_no_end_mark_refuted, C45_cut_block_refuted, C45_position_refuted, C45_damaged_hang_refuted (behaviours of the code). The cases excluded from the statement are false of the code and proved so (_refuted theorems)."
  },
  {
   "property": "C46",
   "status": "proved",
   "theorems": [
    "C46_check",
    "C46_throws_request",
    "C46_throw_value",
    "C46_flag",
    "C46_goes_on",
    "C46_once",
    "C46_status",
    "C46_self",
    "C46_clear_answer",
    "C46_request_kept",
    "C46_cleared",
    "C46_from_request",
    "C46_instance",
    "C46_lost_request_refuted",
    "C46_cleared_thrown_refuted",
    "C46_clear_answer_refuted",
    "C46_transitive_refuted",
    "C46_twice_refuted"
   ],
   "note": "Any history. Limits: C46_lost_request_refuted, C46_cleared_thrown_refuted, C46_clear_answer_refuted, C46_transitive_refuted, C46_twice_refuted (behaviours of the code). The cases excluded from the statement are false of the code and proved so (_refuted theorems)."
  },
  {
   "property": "C47",
   "status": "proved",
   "theorems": [
    "C47_request",
    "C47_answer_data",
    "C47_answer_number",
    "C47_remote",
    "C47_slice_info",
    "C47_instance",
    "C47_many",
    "C47_cut_answer_refuted",
    "C47_old_slices_refuted",
    "C47_slice_info_instance"
   ],
   "note": "Any sequence of calls. Limits: C47_cut_answer_refuted (endless loop when the pipe ends inside an answer), C47_old_slices_refuted. The cases excluded from the statement are false of the code and proved so (_refuted theorems)."
  },
  {
   "property": "C48",
   "status": "proved",
   "theorems": [
    "C48_database",
    "C48_database_ea",
    "C48_manager_asks",
    "C48_manager",
    "C48_databases",
    "C48_honest",
    "C48_manager_date_refuted",
    "C48_manager_removed_refuted",
    "C48_manager_ea_refuted"
   ],
   "note": "Limits shown by C48_manager_date_refuted, C48_manager_removed_refuted and C48_manager_ea_refuted. The cases excluded from the statement are false of the code and proved so (_refuted theorems)."
  },
  {
   "property": "C49",
   "status": "proved",
   "theorems": [
    "C49_backup_ends",
    "C49_backup",
    "C49_full_backup",
    "C49_found_not_removed",
    "C49_gone_is_removed",
    "C49_counts",
    "C49_instance_meets",
    "C49_still_there_removed_refuted",
    "C49_lost_error_refuted"
   ],
   "note": "Limits shown by C49_still_there_removed_refuted and C49_lost_error_refuted. The cases excluded from the statement are false of the code and proved so (_refuted theorems)."
  },
  {
   "property": "C50",
   "status": "proved",
   "theorems": [
    "C50_hooks",
    "C50_all_ended",
    "C50_full_backup",
    "C50_instance_meets",
    "C50_end_lost_refuted",
    "C50_unchanged_directory_refuted"
   ],
   "note": "Limits shown by C50_end_lost_refuted and C50_unchanged_directory_refuted. The cases excluded from the statement are false of the code and proved so (_refuted theorems)."
  },
  {
   "property": "C51",
   "status": "proved",
   "theorems": [
    "C51_reads_right",
    "C51_ends",
    "C51_past_end_refuted",
    "C51_eof_twice_refuted",
    "C51_ahead_at_end_refuted",
    "C51_damaged_skip_refuted"
   ],
   "note": "Limits shown by C51_past_end_refuted, C51_eof_twice_refuted, C51_ahead_at_end_refuted and C51_damaged_skip_refuted. The cases excluded from the statement are false of the code and proved so (_refuted theorems)."
  },
  {
   "property": "C52",
   "status": "proved",
   "theorems": [
    "C52_contents",
    "C52_all_written",
    "C52_refused_is_final",
    "C52_hash_right",
    "C52_check_accepts",
    "C52_hash_after_error_refuted",
    "C52_dropped_silently_refuted",
    "C52_open_fresh",
    "C52_no_overwrite",
    "C52_open_plain",
    "C52_overwrite_works",
    "C52_own_slice_kept",
    "C52_refused_open_refuted",
    "C52_creation_error_refuted"
   ],
   "note": "Limits shown by C52_hash_after_error_refuted, C52_dropped_silently_refuted, C52_refused_open_refuted and C52_creation_error_refuted. The cases excluded from the statement are false of the code and proved so (_refuted theorems)."
  },
  {
   "property": "C53",
   "status": "proved",
   "theorems": [
    "C53_one_per_kind",
    "C53_sort",
    "C53_add",
    "C53_plus",
    "C53_find",
    "C53_immutable",
    "C53_included",
    "C53_included_outcomes",
    "C53_included_overrun",
    "C53_included_empty",
    "C53_roundtrip",
    "C53_storage_size",
    "C53_damaged",
    "C53_flags",
    "C53_two_passes",
    "C53_flags_failures"
   ],
   "note": "Limits shown by C53_included_overrun, C53_included_empty and C53_storage_size."
  },
  {
   "property": "C54",
   "status": "proved",
   "theorems": [
    "C54_output",
    "C54_media_full",
    "C54_input",
    "C54_roundtrip",
    "C54_input_safe",
    "C54_input_overflow_refuted",
    "C54_input_finishes"
   ],
   "note": "Limit shown by C54_input_overflow_refuted. The cases excluded from the statement are false of the code and proved so (_refuted theorems)."
  },
  {
   "property": "C55",
   "status": "proved",
   "theorems": [
    "C55_copy",
    "C55_outside",
    "C55_clean",
    "C55_between_areas_refuted",
    "C55_odd_offset_refuted",
    "C55_short_write_refuted",
    "C55_force_refuted"
   ],
   "note": "Limits shown by C55_between_areas_refuted, C55_odd_offset_refuted, C55_short_write_refuted and C55_force_refuted. The cases excluded from the statement are false of the code and proved so (_refuted theorems)."
  },
  {
   "property": "C56",
   "status": "proved",
   "theorems": [
    "C56_delta",
    "C56_patch",
    "C56_signature",
    "C56_restored"
   ],
   "note": "librsync itself is abstract; read sizes of zero excluded (a null size ends the input in signature mode)."
  },
  {
   "property": "C57",
   "status": "proved",
   "theorems": [
    "C57_options",
    "C57_ordered_option",
    "C57_names",
    "C57_hooks",
    "C57_normal_paths",
    "C57_ordered_paths",
    "C57_ordered_no_pruning",
    "C57_taken",
    "C57_exclude_literal",
    "C57_include_path",
    "C57_ordered_step",
    "C57_ordered_first",
    "C57_exclude_file_ordered_refuted",
    "C57_exclude_file_pruned",
    "C57_exclude_regex",
    "C57_regex_end_anchored_refuted",
    "C57_regex_dollar_refuted"
   ],
   "note": "with the refutation C57_exclude_file_ordered_refuted (-] in ordered mode). The cases excluded from the statement are false of the code and proved so (_refuted theorems)."
  },
  {
   "property": "C58",
   "status": "proved",
   "theorems": [
    "C58_write",
    "C58_read",
    "C58_truncated",
    "C58_round_trip",
    "C58_suspended",
    "C58_suspend_loses_buffer_refuted",
    "C58_empty_not_stored_refuted"
   ],
   "note": "with the refutations C58_suspend_loses_buffer_refuted and C58_empty_not_stored_refuted. The cases excluded from the statement are false of the code and proved so (_refuted theorems)."
  },
  {
   "property": "C59",
   "status": "proved",
   "theorems": [
    "C59_write",
    "C59_read",
    "C59_truncated",
    "C59_truncated_fails",
    "C59_round_trip",
    "C59_suspended",
    "C59_suspend_loses_buffer_refuted",
    "C59_position_inside_refuted"
   ],
   "note": "with the refutations C59_suspend_loses_buffer_refuted and C59_position_inside_refuted. The cases excluded from the statement are false of the code and proved so (_refuted theorems)."
  },
  {
   "property": "C60",
   "status": "proved",
   "theorems": [
    "C60_arguments_of_a_file",
    "C60_one_outcome",
    "C60_arguments_unique",
    "C60_hidden_parts_do_not_exist",
    "C60_comments_removed",
    "C60_conditions_applied",
    "C60_words",
    "C60_quoted_words_come_back",
    "C60_sections",
    "C60_case",
    "C60_case_sections",
    "C60_tab_in_quotes_lost",
    "C60_escaped_character_between_words",
    "C60_quotes_inside_a_word_kept",
    "C60_quotes_do_not_protect_lines_refuted",
    "C60_condition_inside_quotes",
    "C60_last_condition_needs_an_end_of_line",
    "C60_long_read_refuted"
   ],
   "note": "with the refutation C60_quotes_do_not_protect_lines_refuted and C60_long_read_refuted. The cases excluded from the statement are false of the code and proved so (_refuted theorems)."
  },
  {
   "property": "C61",
   "status": "proved",
   "theorems": [
    "C61_sizes",
    "C61_empty_size_is_zero",
    "C61_octal",
    "C61_octal_one_outcome",
    "C61_octal_shown_and_read",
    "C61_templates",
    "C61_refused_templates",
    "C61_hooks",
    "C61_doubled_percent",
    "C61_values_are_not_expanded",
    "C61_xml",
    "C61_xml_injective",
    "C61_block_size",
    "C61_block_size_accepted",
    "C61_block_size_bounds",
    "C61_block_size_grows",
    "C61_lists",
    "C61_case",
    "C61_octal_overflow_refuted",
    "C61_last_empty_field_refuted",
    "C61_xml_control_characters_kept"
   ],
   "note": "with the refutations C61_octal_overflow_refuted and C61_last_empty_field_refuted. The cases excluded from the statement are false of the code and proved so (_refuted theorems)."
  },
  {
   "property": "C62",
   "status": "proved",
   "theorems": [
    "C62_empty",
    "C62_add",
    "C62_add_same",
    "C62_add_others",
    "C62_consulting",
    "C62_plus",
    "C62_enumeration",
    "C62_copies_from_the_beginning",
    "C62_reading_needs_reset",
    "C62_equal",
    "C62_diff",
    "C62_diff_both_sides",
    "C62_diff_one_side_refuted",
    "C62_stored",
    "C62_canonical",
    "C62_truncated",
    "C62_value_cut_never_returns",
    "C62_reads_its_bytes",
    "C62_old_format",
    "C62_null_in_name_refuted"
   ],
   "note": "with the refutations C62_diff_one_side_refuted and C62_null_in_name_refuted, and C62_value_cut_never_returns. The cases excluded from the statement are false of the code and proved so (_refuted theorems)."
  },
  {
   "property": "C63",
   "status": "proved",
   "theorems": [
    "C63_numbers",
    "C63_other_numbers_refused",
    "C63_one_number",
    "C63_plain_numbers",
    "C63_names",
    "C63_asked",
    "C63_refused",
    "C63_one_meaning",
    "C63_bounds",
    "C63_level_range_refuted",
    "C63_last_field_empty_refuted"
   ],
   "note": "with the refutations C63_level_range_refuted and C63_last_field_empty_refuted. The cases excluded from the statement are false of the code and proved so (_refuted theorems)."
  }
 ]
}