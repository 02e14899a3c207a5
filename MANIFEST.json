{
 "claims": [
  {
   "property": "C01",
   "status": "proved",
   "theorems": [
    "C01_lite_file_is_byte_array"
   ],
   "note": "all histories incl. reopen, within MAX_BLOCKS*block_size"
  },
  {
   "property": "C02",
   "status": "proved",
   "theorems": [
    "C02_full_file_is_byte_array"
   ],
   "note": "all histories incl. header writes, flush, reopen; within 2^30 blocks"
  },
  {
   "property": "C03",
   "status": "proved",
   "theorems": [
    "C03_lite_reopen",
    "C03_full_reopen"
   ],
   "note": "both formats"
  },
  {
   "property": "C04",
   "status": "proved",
   "theorems": [
    "C04_stat_size_is_content_size",
    "C04_distinct_sizes_stored_distinct"
   ],
   "note": "without padding, the only case the code computes size from length"
  },
  {
   "property": "C05",
   "status": "proved",
   "theorems": [
    "C05_tampered_read_is_genuine_or_zero",
    "C05_altered_block_rejected"
   ],
   "note": "no-forgery hypothesis about the attacker's bytes"
  },
  {
   "property": "C06",
   "status": "proved",
   "theorems": [
    "C06_accepted_metadata_was_flushed",
    "C06_tampered_read_is_one_flushed_version"
   ],
   "note": "no-forgery and nonce-freshness hypotheses about the attacker's bytes"
  },
  {
   "property": "C07",
   "status": "proved",
   "theorems": [
    "C07_padded_stream_is_byte_array",
    "C07_padded_open",
    "C07_authenticated_stream_is_byte_array",
    "C07_authentication_code_untouched",
    "C07_write_cached_stream_is_byte_array",
    "C07_padded_full_file_is_byte_array"
   ],
   "note": "write cache is never populated by the code"
  },
  {
   "property": "C08",
   "status": "proved",
   "theorems": [
    "C08_padding_bounded",
    "C08_padding_total",
    "C08_no_padding_when_disabled",
    "C08_every_value_attainable",
    "C08_largest_max_refuted"
   ],
   "note": "guard max < 2^32-1; refuted at 2^32-1 (division by zero)"
  },
  {
   "property": "C09",
   "status": "proved",
   "theorems": [
    "C09_lite_untouched_blocks_survive",
    "C09_full_untouched_blocks_survive",
    "C09_lite_all_changes_are_physical_operations",
    "C09_full_all_changes_are_physical_operations",
    "C09_killed_process_leaves_a_left_over",
    "C09_same_block_refuted",
    "C09_full_verified_open_refuted"
   ],
   "note": "Both formats, every operation of an open file, every subset of its physical writes with arbitrary bytes in the written ranges. The original wording for whole files of the full format opened with verification, and for bytes in the same block, is refuted."
  },
  {
   "property": "C10",
   "status": "proved",
   "theorems": [
    "C10_little_endian_roundtrip"
   ],
   "note": "all widths"
  },
  {
   "property": "C100",
   "status": "proved",
   "theorems": [
    "C100_encrypted_names",
    "C100_plain_names",
    "C100_error_changes_nothing",
    "C100_encrypted_link_not_followed",
    "C100_plain_link_refuted"
   ],
   "note": "For all histories, hosts with symbolic links and refusals. The encrypted-link theorem is for the present naming (threshold above zero). That a change through plain names stays inside the repository is refuted."
  },
  {
   "property": "C101",
   "status": "proved",
   "theorems": [
    "C101_number_while_mounted",
    "C101_nothing_left",
    "C101_not_asked_for",
    "C101_mount_goes_on",
    "C101_overlapping",
    "C101_other_mount_refuted",
    "C101_mixed_refuted",
    "C101_foreign_file_refuted",
    "C101_limit_raised",
    "C101_limit_reported",
    "C101_limit_reported_refuted"
   ],
   "note": "the number is in the file while a mount that can write it serves, and the file is gone afterwards; refuted: a mount leaves the files of others, overlapping mounts leave one whole number, the limit reported is always in force"
  },
  {
   "property": "C11",
   "status": "proved",
   "theorems": [
    "C11_hex_codec"
   ],
   "note": ""
  },
  {
   "property": "C12",
   "status": "proved",
   "theorems": [
    "C12_base32_codec"
   ],
   "note": "C12_decode_is_malleable_refuted and C12_nul_accepted_refuted record what decoding does not guarantee"
  },
  {
   "property": "C13",
   "status": "proved",
   "theorems": [
    "C13_attributes_survive_reopen"
   ],
   "note": ""
  },
  {
   "property": "C14",
   "status": "proved",
   "theorems": [
    "C14_page_round_trip",
    "C14_any_page_loads_safely",
    "C14_loader_enforces_limits_refuted"
   ],
   "note": "Round trip for every node within the limits and every page tail; every 4096-byte page loads safely. The _refuted theorem records that the loader accepts 14 entries."
  },
  {
   "property": "C15",
   "status": "proved",
   "theorems": [
    "C15_siv_follows_rfc5297",
    "C15_siv_roundtrip_and_verification"
   ],
   "note": "CMAC and CTR key stream are arbitrary functions"
  },
  {
   "property": "C16",
   "status": "proved",
   "theorems": [
    "C16_hkdf_follows_rfc5869",
    "C16_shorter_keys_are_prefixes",
    "C16_padding_keeps_keys"
   ],
   "note": "HMAC is an arbitrary function with 32-byte results"
  },
  {
   "property": "C17",
   "status": "proved",
   "theorems": [
    "C17_directory_is_a_finite_map",
    "C17_name_orders_are_orders",
    "C17_nul_in_name_refuted"
   ],
   "note": "For directories of at most 6,000,000 names (beyond about 2^20 pages the code's 32-bit page positions wrap, see C19). The case-insensitive and normalising orders are covered through any key function. The _refuted theorem shows the no-NUL hypothesis on names is needed."
  },
  {
   "property": "C18",
   "status": "proved",
   "theorems": [
    "C18_directory_tree_is_balanced"
   ],
   "note": "Up to 6,000,000 names; the depth is then at most 7, far from the limit 32."
  },
  {
   "property": "C19",
   "status": "proved",
   "theorems": [
    "C19_pages_are_partitioned",
    "C19_page_positions_distinct_refuted"
   ],
   "note": "Up to 6,000,000 names. The _refuted theorem records that page positions wrap at 2^20 pages."
  },
  {
   "property": "C20",
   "status": "proved",
   "theorems": [
    "C20_flush_and_reload_are_invisible"
   ],
   "note": "Includes the compaction triggered by flush."
  },
  {
   "property": "C21",
   "status": "proved",
   "theorems": [
    "C21_listing_reports_each_entry_once"
   ],
   "note": "Listing on any reachable directory."
  },
  {
   "property": "C22",
   "status": "proved",
   "theorems": [
    "C22_mtime_and_birthtime",
    "C22_ctime",
    "C22_atime",
    "C22_explicit_times",
    "C22_times_off",
    "C22_utimens_sets_ctime_refuted",
    "C22_utimens_now_refuted",
    "C22_unlink_sets_ctime_refuted"
   ],
   "note": "The two deviations from POSIX (unlink leaves ctime, utimens stores an uninitialised ctime) are refuted theorems; everything else in the statement is proved for every history."
  },
  {
   "property": "C23",
   "status": "proved",
   "theorems": [
    "C23_link_counts",
    "C23_replaced_directory_refuted",
    "C23_long_name_refuted"
   ],
   "note": "every careful history; the unguarded statement is refuted"
  },
  {
   "property": "C24",
   "status": "proved",
   "theorems": [
    "C24_table",
    "C24_waiting",
    "C24_no_orphans",
    "C24_prompt",
    "C24_use_after_free_refuted"
   ],
   "note": "All schedules of atomic actions. The closer's late read of the id is refuted as a finding."
  },
  {
   "property": "C25",
   "status": "proved",
   "theorems": [
    "C25_paths",
    "C25_store"
   ],
   "note": "Paths, and the storage as a map over a model of the host directory with crashes."
  },
  {
   "property": "C26",
   "status": "proved",
   "theorems": [
    "C26_rename",
    "C26_long_name_refuted",
    "C26_own_descendant_refuted"
   ],
   "note": "effect exact, failures without effect, under the stated conditions; refuted without"
  },
  {
   "property": "C27",
   "status": "proved",
   "theorems": [
    "C27_only_empty",
    "C27_refusal_refuted"
   ],
   "note": "success only on empty directories; that refusals have no effect is refuted (finding)"
  },
  {
   "property": "C28",
   "status": "proved",
   "theorems": [
    "C28_open",
    "C28_stat",
    "C28_plain",
    "C28_loop"
   ],
   "note": "both directions, errors included"
  },
  {
   "property": "C29",
   "status": "proved",
   "theorems": [
    "C29_name_round_trip",
    "C29_names_are_accepted",
    "C29_normalised_names",
    "C29_ambiguous_suffix_refuted"
   ],
   "note": "both namings and normalisation; requires a suffix with a non-base32 character (refuted otherwise, the tool does not check)"
  },
  {
   "property": "C30",
   "status": "proved",
   "theorems": [
    "C30_paths_never_collide",
    "C30_plain_paths_never_collide"
   ],
   "note": "component counts are in C31"
  },
  {
   "property": "C31",
   "status": "proved",
   "theorems": [
    "C31_encrypted_paths_stay_inside",
    "C31_double_separator_refuted"
   ],
   "note": "paths starting with two separators are refuted for the old naming"
  },
  {
   "property": "C32",
   "status": "proved",
   "theorems": [
    "C32_new_link_round_trip",
    "C32_old_link_round_trip",
    "C32_plain_link_round_trip",
    "C32_new_link_tampering",
    "C32_old_link_tampering",
    "C32_names_are_valid_targets_refuted"
   ],
   "note": "tampering: the answer is always a string encrypted with the name key; that need not be a link (refuted)"
  },
  {
   "property": "C33",
   "status": "proved",
   "theorems": [
    "C33_old_maximum_exact",
    "C33_new_maximum_sound",
    "C33_new_maximum_is_largest",
    "C33_small_host_limit_refuted"
   ],
   "note": "new naming needs a host limit of at least 77 plus the suffix length (refuted otherwise)"
  },
  {
   "property": "C34",
   "status": "proved",
   "theorems": [
    "C34_listing_exact",
    "C34_listing_sound",
    "C34_listing_complete",
    "C34_foreign_entry_refuted"
   ],
   "note": "a foreign entry that is base32 text repeats the previous name (refuted)"
  },
  {
   "property": "C35",
   "status": "proved",
   "theorems": [
    "C35_long_names_recorded",
    "C35_nothing_stale",
    "C35_listing_is_what_can_be_opened",
    "C35_failed_rmdir_refuted",
    "C35_rename_between_links_refuted",
    "C35_failed_create_refuted"
   ],
   "note": "Histories from an empty repository over a model of the host's directories; the three operations that lose rows are excluded by [benign] and shown to be real by the _refuted theorems."
  },
  {
   "property": "C36",
   "status": "proved",
   "theorems": [
    "C36_lite_as_plain",
    "C36_full_as_plain",
    "C36_full_value_was_set",
    "C36_lite_value_was_set_partial",
    "C36_lite_larger_buffer_refuted",
    "C36_lite_empty_value_refuted",
    "C36_full_failed_set_refuted",
    "C36_full_zero_buffer_refuted",
    "C36_lite_exchange_refuted",
    "C36_full_record_size"
   ],
   "note": "Refinement to plain host attributes in both formats over every history; the refuted theorems show that each restriction in the statement is needed. base64 is an argument with its round-trip law."
  },
  {
   "property": "C37",
   "status": "proved",
   "theorems": [
    "C37_listing_protocol",
    "C37_never_out_of_bounds"
   ],
   "note": "For every list of stored names and buffer, also when the host answers differently in the two calls."
  },
  {
   "property": "C38",
   "status": "proved",
   "theorems": [
    "C38_create_open",
    "C38_round_trip",
    "C38_secrets",
    "C38_no_mac_refuted",
    "C38_suffix_refuted"
   ],
   "note": "All parameters, secrets and file contents, down to the protobuf bytes; complete MAC and textual suffix are needed (refuted theorems)."
  },
  {
   "property": "C39",
   "status": "proved",
   "theorems": [
    "C39_chpass",
    "C39_wrong_old",
    "C39_power_failure_refuted"
   ],
   "note": "All intermediate host states and host failures; power loss refuted."
  },
  {
   "property": "C40",
   "status": "proved",
   "theorems": [
    "C40_migration_keeps_names",
    "C40_migration_keeps_listings"
   ],
   "note": ""
  },
  {
   "property": "C41",
   "status": "proved",
   "theorems": [
    "C41_per_thread"
   ],
   "note": "Histories in which an initializer does not ask its own owner."
  },
  {
   "property": "C42",
   "status": "proved",
   "theorems": [
    "C42_timer",
    "C42_prompt",
    "C42_call_refuted",
    "C42_late_refuted"
   ],
   "note": "Of the decision; the call itself is shown to be able to come after a later request (C42_call_refuted), and to be late when requested times decrease (C42_late_refuted)."
  },
  {
   "property": "C43",
   "status": "proved",
   "theorems": [
    "C43_one_at_a_time",
    "C43_refuted"
   ],
   "note": "Proved for non-overlapping acquisitions, as the property is now worded; C43_refuted gives schedules in which overlapping ones both succeed."
  },
  {
   "property": "C44",
   "status": "proved",
   "theorems": [
    "C44_full_no_deadlock",
    "C44_lite_no_deadlock",
    "C44_bounded",
    "C44_exclusive"
   ],
   "note": "For every list of operations per thread, every path through them and every interleaving. SQLite's own time-limited locks are outside the model."
  },
  {
   "property": "C45",
   "status": "proved",
   "theorems": [
    "C45_inode_numbers"
   ],
   "note": ""
  },
  {
   "property": "C46",
   "status": "proved",
   "theorems": [
    "C46_opens",
    "C46_authentic",
    "C46_sizes_refuted",
    "C46_versions_refuted",
    "C46_newline_refuted"
   ],
   "note": "JSON parsing is an argument; text of ordinary characters starting with a brace."
  },
  {
   "property": "C47",
   "status": "proved",
   "theorems": [
    "C47_suffix_change_keeps_every_path",
    "C47_suffix_change_goes_through",
    "C47_other_orders_refuted"
   ],
   "note": "For every tree reached by a benign history and every order of the directories; the abort half-way in other orders is the _refuted theorem."
  },
  {
   "property": "C48",
   "status": "proved",
   "theorems": [
    "C48_no_confusion",
    "C48_right_type",
    "C48_poisoned_refuted"
   ],
   "note": "All schedules."
  },
  {
   "property": "C49",
   "status": "proved",
   "theorems": [
    "C49_effects"
   ],
   "note": "all operations of the full format, one at a time"
  },
  {
   "property": "C50",
   "status": "proved",
   "theorems": [
    "C50_create",
    "C50_legacy_refuted"
   ],
   "note": "A legacy configuration is not noticed (refuted theorem)."
  },
  {
   "property": "C51",
   "status": "proved",
   "theorems": [
    "C51_passwords",
    "C51_empty_refuted"
   ],
   "note": "The empty string as an option is the exception (refuted theorem)."
  },
  {
   "property": "C52",
   "status": "proved",
   "theorems": [
    "C52_migrate",
    "C52_repeat_refuted"
   ],
   "note": "Configuration part; what happens to the stored names is C47."
  },
  {
   "property": "C53",
   "status": "proved",
   "theorems": [
    "C53_handles_share_one_array",
    "C53_no_byte_on_host",
    "C53_outdated_handle_refuted"
   ],
   "note": "All histories from an empty repository; a file that a crash left without a byte is an empty file (C53_no_byte_on_host). The exception (handles that are used after a later O_TRUNC open of their file) is shown to be needed by C53_outdated_handle_refuted."
  },
  {
   "property": "C54",
   "status": "proved",
   "theorems": [
    "C54_directories_are_a_plain_tree",
    "C54_exact_without_long_names",
    "C54_listings_with_long_names"
   ],
   "note": "Any translator make_translator can choose without normalisation. Two refusals are part of the specification; C54_rename_onto_emptied_directory_refuted and C54_reserved_name_refuted record where plain equality fails."
  },
  {
   "property": "C55",
   "status": "proved",
   "theorems": [
    "C55_transparent",
    "C55_offered",
    "C55_failures_are_seen",
    "C55_special_calls"
   ],
   "note": "an arbitrary file system behind the callbacks; FUSE itself is not modelled"
  },
  {
   "property": "C56",
   "status": "proved",
   "theorems": [
    "C56_contents_are_not_logged",
    "C56_sensitive_only_by_option",
    "C56_errors_are_logged",
    "C56_quiet",
    "C56_names_logged_refuted"
   ],
   "note": "names are logged: see the refuted theorem"
  },
  {
   "property": "C57",
   "status": "proved",
   "theorems": [
    "C57_lite_operations_are_atomic",
    "C57_full_operations_are_atomic",
    "C57_bodies",
    "C57_no_deadlock",
    "C57_noflock_refuted",
    "C57_size_by_path_refuted"
   ],
   "note": "Linearizability of operations on open handles for every interleaving, with the locks of the code, by refinement to atomic byte arrays; deadlock freedom and termination; the two exceptions are refuted theorems."
  },
  {
   "property": "C58",
   "status": "proved",
   "theorems": [
    "C58_background_like_foreground",
    "C58_options_do_not_change_storage",
    "C58_created_then_mounted",
    "C58_exit_code",
    "C58_noflock_in_background_refuted",
    "C58_background_bytes_refuted",
    "C58_use_ino_full_refuted",
    "C58_normalization_checked_refuted",
    "C58_owner_override_lite_refuted",
    "C58_fuse_arguments",
    "C58_no_padding_key"
   ],
   "note": "the message to the child is modelled byte by byte; five deviations are kept as refuted theorems"
  },
  {
   "property": "C59",
   "status": "proved",
   "theorems": [
    "C59_lite_same_without_verification",
    "C59_full_same_without_verification",
    "C59_lite_failure_changes_nothing",
    "C59_full_failure_changes_nothing",
    "C59_insecure_reads_damaged_lite"
   ],
   "note": "any stored bytes, any cipher"
  },
  {
   "property": "C60",
   "status": "proved",
   "theorems": [
    "C60_password",
    "C60_history",
    "C60_history_known",
    "C60_create_succeeds",
    "C60_chpass_succeeds",
    "C60_crlf_refuted",
    "C60_one_line_refuted",
    "C60_echo_refuted"
   ],
   "note": "Histories assume that no configuration the program wrote opens to other parameters than those written (no_collision)."
  },
  {
   "property": "C61",
   "status": "proved",
   "theorems": [
    "C61_masked",
    "C61_shown"
   ],
   "note": "For an arbitrary printer."
  },
  {
   "property": "C62",
   "status": "proved",
   "theorems": [
    "C62_choose",
    "C62_exit_code",
    "C62_empty_word_refuted"
   ],
   "note": "Exit code claim for an existing repository."
  },
  {
   "property": "C63",
   "status": "proved",
   "theorems": [
    "C63_complete",
    "C63_in_hand",
    "C63_reason",
    "C63_never_stuck",
    "C63_stops",
    "C63_no_workers_refuted",
    "C63_single"
   ],
   "note": "Processing a request is one step here; that operations themselves end is C57."
  },
  {
   "property": "C64",
   "status": "proved",
   "theorems": [
    "C64_lite_pending_is_complete",
    "C64_full_pending_is_complete",
    "C64_lite_synced_data_survives",
    "C64_lite_synced_file_survives",
    "C64_full_flushed_and_synced_file_survives",
    "C64_full_synced_data_survives_unverified",
    "C64_full_fsync_refuted"
   ],
   "note": "As worded in properties.jsonl; the fsync of an unflushed full-format file is refuted"
  },
  {
   "property": "C65",
   "status": "proved",
   "theorems": [
    "C65_lite_every_record_its_own_draw",
    "C65_lite_no_nonce_twice",
    "C65_full_every_nonce_its_own_draw",
    "C65_full_no_nonce_twice"
   ],
   "note": "Every stored record has a draw of its own; distinct draws give distinct nonces. One file, one key."
  },
  {
   "property": "C66",
   "status": "proved",
   "theorems": [
    "C66_lite_storage_independent_of_data",
    "C66_full_storage_independent_of_data"
   ],
   "note": "Perfect secrecy with an ideal cipher (one pad per key and nonce). Reads of the two histories are at the same places too. What opening a new lite file stores (id, padding) is drawn before any data."
  },
  {
   "property": "C67",
   "status": "proved",
   "theorems": [
    "C67_lite_success_is_complete_and_failure_is_local",
    "C67_lite_failures_at_once_have_no_effect",
    "C67_full_success_is_complete_and_failure_is_local",
    "C67_full_failures_at_once_have_no_effect",
    "C67_full_flush_can_be_repeated",
    "C67_short_read_refuted",
    "C67_full_torn_metadata_refuted",
    "C67_full_error_on_close_refuted"
   ],
   "note": "The outcomes of the host calls are an argument; fstat is taken not to fail. The three refuted theorems show the exceptions the property names."
  },
  {
   "property": "C68",
   "status": "proved",
   "theorems": [
    "C68_comparison",
    "C68_any_spelling",
    "C68_new_names_keep_their_spelling",
    "C68_spelling_is_stable",
    "C68_true_path",
    "C68_rename_onto_own_link_refuted",
    "C68_lite_tree_of_normal_forms",
    "C68_lite_same_place",
    "C68_lite_listed_but_not_found_refuted"
   ],
   "note": "The Unicode library is a parameter with stated properties (unicode_ok; by_names). Refuted: rename onto another link of the same file respells; lite normalization is chosen at mount time."
  },
  {
   "property": "C69",
   "status": "proved",
   "theorems": [
    "C69_sound",
    "C69_no_undefined",
    "C69_exact",
    "C69_alone",
    "C69_removed_directory_refuted",
    "C69_dotdot_refuted"
   ],
   "note": "Any number of threads, any interleaving of steps between locks.  The link counts stay below 2^32 - 1 (room).  The exact counts need that no directory is filled while it is removed (tidy), which the code does not ensure: refuted."
  },
  {
   "property": "C70",
   "status": "proved",
   "theorems": [
    "C70_one_moment",
    "C70_only_steps",
    "C70_symlink_refuted",
    "C70_link_refuted"
   ],
   "note": "each call's effect is one of its own steps, under any interleaving; the two refuted theorems are the exceptions named in the statement"
  },
  {
   "property": "C71",
   "status": "proved",
   "theorems": [
    "C71_answers_of_a_plain_file_system",
    "C71_exactly_a_plain_file_system"
   ],
   "note": "Names, contents, handles and links together; host read/write errors are not modelled, names without Unicode normalization (see C68 for that)."
  },
  {
   "property": "C72",
   "status": "proved",
   "theorems": [
    "C72_one_by_one",
    "C72_runs"
   ],
   "note": "one call after another (C72_one_by_one) and overlapping calls (C72_runs), over B-trees, headers and encrypted streams; directories below MAX_ENTRIES = 6,000,000 names"
  },
  {
   "property": "C73",
   "status": "proved",
   "theorems": [
    "C73_one_moment",
    "C73_exact_without_long_names",
    "C73_empty_directory_is_removed_refuted",
    "C73_opposite_renames_refuted"
   ],
   "note": "All schedules of any number of threads, with failures of SQLite. Listing and reading are not among the overlapping calls."
  },
  {
   "property": "C74",
   "status": "proved",
   "theorems": [
    "C74_long_names_recorded",
    "C74_listing_is_what_can_be_opened",
    "C74_directory_moved_meanwhile_refuted",
    "C74_directory_removed_meanwhile_refuted",
    "C74_failed_commit_refuted"
   ],
   "note": "Under the proviso of the statement; each part of the proviso is shown to be needed by a refutation."
  },
  {
   "property": "C75",
   "status": "proved",
   "theorems": [
    "C75_killed_at_any_moment",
    "C75_recorded_after_kill_refuted"
   ],
   "note": "Kill at any moment of any interleaving; the calls under way may lose their names (refuted)."
  },
  {
   "property": "C76",
   "status": "proved",
   "theorems": [
    "C76_at_rest",
    "C76_any_moment",
    "C76_flushed",
    "C76_before_first_call_refuted",
    "C76_root_held_refuted"
   ],
   "note": "Kills between two steps of the model; inside a step see C09. The exceptions are recorded as refuted theorems."
  },
  {
   "property": "C77",
   "status": "proved",
   "theorems": [
    "C77_openings_are_atomic",
    "C77_bodies",
    "C77_noflock_refuted",
    "C77_reading_too_early_refuted",
    "C77_cut_off_refuted"
   ],
   "note": "Atomic histories of files that are opened, used and closed by any threads and processes under the host's locks, from files nobody has opened yet. The _refuted theorems show what does not hold without locks, for readers of a file being created, and after a kill between the two writes of a header."
  },
  {
   "property": "C78",
   "status": "proved",
   "theorems": [
    "C78_accounted",
    "C78_who",
    "C78_takes_effect",
    "C78_named"
   ],
   "note": "What stat reports of every file before and after every event of every run follows the table of RepoAttrSpec; a successful chmod/chown/utimens has applied; alone it applies to the file stat finds. Sizes and inode numbers are C72's and C51's; times of the host without stored times are not modelled."
  },
  {
   "property": "C79",
   "status": "proved",
   "theorems": [
    "C79_arguments",
    "C79_input"
   ],
   "note": "Quoting followed by the documented parsing is the identity for all arguments; the loops that feed a child's input."
  },
  {
   "property": "C80",
   "status": "proved",
   "theorems": [
    "C80_kept",
    "C80_set",
    "C80_before_1970_refuted",
    "C80_defined"
   ],
   "note": "Proved as worded; the exception before 1970 is refuted."
  },
  {
   "property": "C81",
   "status": "proved",
   "theorems": [
    "C81_leads",
    "C81_inside",
    "C81_distinct",
    "C81_drive_refuted",
    "C81_absolute"
   ],
   "note": "Relative to an inductive definition of how a path is spelled and where it leads."
  },
  {
   "property": "C82",
   "status": "proved",
   "theorems": [
    "C82_links",
    "C82_open",
    "C82_read",
    "C82_write",
    "C82_backslash_refuted",
    "C82_foreign_link_refuted"
   ],
   "note": "Against POSIX open and the byte-array reads and writes; what CreateFileW, ReadFile and WriteFile do is taken from their documentation."
  },
  {
   "property": "C83",
   "status": "proved",
   "theorems": [
    "C83_mounted",
    "C83_not_mounted",
    "C83_unmount_elsewhere",
    "C83_fuse_t_silent_refuted",
    "C83_inside",
    "C83_inside_fuse_t"
   ],
   "note": "The kernel's translation of system calls into calls of FUSE is part of the model (served) and trusted; what leaving the loop does is C63."
  },
  {
   "property": "C84",
   "status": "proved",
   "theorems": [
    "C84_whole",
    "C84_complete",
    "C84_no_deadlock",
    "C84_times_refuted",
    "C84_level_refuted"
   ],
   "note": "The log level is fixed during the run, as the program does."
  },
  {
   "property": "C85",
   "status": "proved",
   "theorems": [
    "C85_only_what_was_there",
    "C85_what_stays_is_shown_once",
    "C85_nothing_changes",
    "C85_busy_refuted",
    "C85_not_yet_committed_refuted"
   ],
   "note": "Steps of the listing interleaved with the steps of C73; host readdir as POSIX says is a hypothesis of the statements; the stronger statements without provisos are refuted."
  },
  {
   "property": "C86",
   "status": "proved",
   "theorems": [
    "C86_getpath",
    "C86_deep_path_refuted",
    "C86_concurrent_removal_refuted"
   ],
   "note": "safe up to 42 components and closings by others; refuted beyond and under concurrent changes"
  },
  {
   "property": "C87",
   "status": "proved",
   "theorems": [
    "C87_lite",
    "C87_lite_exact",
    "C87_full"
   ],
   "note": "C87_lite with the refusals C71 allows for long names; C87_lite_exact without. Secrets in use are assumed not to open each other's seals (no_accident); --insecure, --plain-text-names and --normalization are left out (C59, C68)."
  },
  {
   "property": "C88",
   "status": "proved",
   "theorems": [
    "C88_access_exact",
    "C88_access_plain",
    "C88_write_only_refuted",
    "C88_created_mode_refuted",
    "C88_stat_refuted",
    "C88_truncated_for_reading_refuted"
   ],
   "note": "every history of calls on one lite file, flags and modes as bits; exact differences from an ordinary file"
  },
  {
   "property": "C89",
   "status": "proved",
   "theorems": [
    "C89_lite_limit_exact",
    "C89_full_limit_exact",
    "C89_lite_failed_call",
    "C89_full_failed_call",
    "C89_failed_write_extends_refuted",
    "C89_beyond_the_limit_refuted",
    "C89_read_past_limit_refuted"
   ],
   "note": "Every operation of every history, also those past the largest size, in both formats; the parts that do not hold are refuted. The host is taken to have room for any size and memory for any read."
  },
  {
   "property": "C90",
   "status": "proved",
   "theorems": [
    "C90_attributes_belong_to_the_file",
    "C90_exactly",
    "C90_empty_value_of_no_file_refuted"
   ],
   "note": "lite format; attributes of regular files; calls as in C71 and C36"
  },
  {
   "property": "C91",
   "status": "proved",
   "theorems": [
    "C91_attributes_belong_to_the_file",
    "C91_which_file"
   ],
   "note": "full format; one call after another; calls as in C72 and C36"
  },
  {
   "property": "C92",
   "status": "proved",
   "theorems": [
    "C92_success",
    "C92_failure",
    "C92_returns_ended",
    "C92_returns_mounted",
    "C92_already_mounted_refuted",
    "C92_ignored_signal_refuted"
   ],
   "note": "findings: an earlier mount is taken for the child's; a caller that ignores SIGCHLD"
  },
  {
   "property": "C93",
   "status": "proved",
   "theorems": [
    "C93_same_place",
    "C93_encrypted",
    "C93_plain",
    "C93_made",
    "C93_norm",
    "C93_moved_refuted",
    "C93_suffix_refuted"
   ],
   "note": "Symbolic links inside the storage directory are not modelled. What is not so in the wording is refuted by the last two theorems."
  },
  {
   "property": "C94",
   "status": "proved",
   "theorems": [
    "C94_count",
    "C94_warns",
    "C94_unfilled",
    "C94_together_refuted"
   ],
   "note": "That the line reaches the log is C84."
  },
  {
   "property": "C95",
   "status": "proved",
   "theorems": [
    "C95_no_leak",
    "C95_child",
    "C95_result",
    "C95_closed_input_refuted"
   ],
   "note": "What is written into the pipe is C79."
  },
  {
   "property": "C96",
   "status": "proved",
   "theorems": [
    "C96_visits",
    "C96_unreadable",
    "C96_suffix_change",
    "C96_migration",
    "C96_untold_suffix_refuted",
    "C96_untold_link_refuted"
   ],
   "note": "For hosts that tell the types of entries; on others the walk misses subdirectories (refuted theorems). Windows' walk is not modelled."
  },
  {
   "property": "C97",
   "status": "proved",
   "theorems": [
    "C97_nothing_lost",
    "C97_never_something_else",
    "C97_ends_as_the_command",
    "C97_one_or_the_other_refuted",
    "C97_again_refuted"
   ],
   "note": "Every state the command passes through, including those after an error; the wording about one suffix or the other and about giving the command again is refuted. A commit that fails without an exception is not modelled."
  },
  {
   "property": "C98",
   "status": "proved",
   "theorems": [
    "C98_only_the_call_that_fails",
    "C98_any_flush_refuted",
    "C98_failed_add_keeps_the_rest_refuted",
    "C98_failed_add_adds_nothing_refuted",
    "C98_failed_remove_removes_nothing_refuted"
   ],
   "note": "Over a stream that fails by plan; changes that fail after the lookup and compacting flushes excluded (false there, refuted)."
  },
  {
   "property": "C99",
   "status": "proved",
   "theorems": [
    "C99_calls_as_before",
    "C99_paths_as_before",
    "C99_no_wrong_row",
    "C99_opened_again_is_recorded",
    "C99_other_names_kept",
    "C99_recorded_refuted",
    "C99_nothing_stale_refuted"
   ],
   "note": "For all histories and all choices of failing commits: answers, host tree and paths as without failures, no wrong row, no other row touched, opening for creation again records the name. That names are recorded or removed as reported is refuted."
  }
 ]
}