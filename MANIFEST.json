{
 "claims": [
  {
   "property": "C01",
   "status": "proved",
   "theorems": [
    "C01_every_session_restorable",
    "C01_failed_update_keeps_previous",
    "C01_failed_rename_refuted",
    "C01_failed_increment_refuted"
   ],
   "note": "Proved for every history of a path in which no error is caught between writing a diff increment and replacing the mirror file; refuted for a caught rename error or a caught error while writing the diff increment."
  },
  {
   "property": "C02",
   "status": "proved",
   "theorems": [
    "C02_crashed_session_undone",
    "C02_complete_session_is_atomic_step",
    "C02_history_with_crashes",
    "C02_loosely_equal_change_refuted",
    "C02_special_fallback_refuted"
   ],
   "note": "Proved for one path under the stated conditions (contents of changed files show in size or loosely compared attributes; no special file replaced by an empty one); refuted where those fail."
  },
  {
   "property": "C03",
   "status": "proved",
   "theorems": [
    "C03_interrupted_regress_completes"
   ],
   "note": "One path; any number of interrupted regress attempts."
  },
  {
   "property": "C04",
   "status": "proved",
   "theorems": [
    "C04_removal_preserves_retained",
    "C04_only_older_deleted",
    "C04_remove_older_than_end_to_end"
   ],
   "note": "Proved for increments recognised as such; see the C08 refutation for source directories named like an increment."
  },
  {
   "property": "C05",
   "status": "proved",
   "theorems": [
    "C05_without_force_exactly_one",
    "C05_removal_time",
    "C05_nothing_to_remove",
    "C05_unparsable_refused",
    "C05_unchanged_session_not_counted_refuted"
   ],
   "note": "Proved for the counted increments (those of the root directory); refuted for sessions without any change, which are not counted."
  },
  {
   "property": "C06",
   "status": "proved",
   "theorems": [
    "C06_complete_not_reported",
    "C06_interrupted_reported",
    "C06_regress_restores_data_directory",
    "C06_failed_first_session_removed",
    "C06_empty_increments_refuted",
    "C06_restore_base_refuted"
   ],
   "note": "Proved for the data directory of every reachable repository, every crash point and repeated regresses, once the increments directory has content; refuted while it's empty, and for the base time used by a restore while an interrupted session is present."
  },
  {
   "property": "C07",
   "status": "proved",
   "theorems": [
    "C07_timestamp_roundtrip",
    "C07_timestamp_roundtrip_refuted",
    "C07_timestamp_west_zone_error",
    "C07_timestamp_alphabet"
   ],
   "note": ""
  },
  {
   "property": "C08",
   "status": "proved",
   "theorems": [
    "C08_increment_name_roundtrip",
    "C08_increment_name_injective",
    "C08_listing_exact",
    "C08_increment_directory_refuted"
   ],
   "note": ""
  },
  {
   "property": "C09",
   "status": "proved",
   "theorems": [
    "C09_path_quoting_roundtrip",
    "C09_quoted_path_on_one_line",
    "C09_path_quoting_injective",
    "C09_ordinary_path_unchanged"
   ],
   "note": ""
  },
  {
   "property": "C10",
   "status": "proved",
   "theorems": [
    "C10_fs_quoting_roundtrip",
    "C10_fs_quoting_roundtrip_detected",
    "C10_fs_quoting_roundtrip_refuted",
    "C10_fs_quoting_avoids_forbidden",
    "C10_no_trailing_space_or_period",
    "C10_no_dos_device",
    "C10_fs_quoting_injective",
    "C10_repository_quoting_constant",
    "C10_device_names",
    "C10_windows_characters",
    "C10_plain_names",
    "C10_capitals_kept_apart"
   ],
   "note": "Proved for ASCII character sets; refuted for destinations without extended file names, where bytes 128-255 are quoted but unquoted to two bytes."
  },
  {
   "property": "C11",
   "status": "proved",
   "theorems": [
    "C11_round_trip",
    "C11_everything_can_be_written",
    "C11_stable",
    "C11_damaged_record_costs_only_itself",
    "C11_user_None_refuted"
   ],
   "note": "For every complete description, every block structure; refuted for a user called None."
  },
  {
   "property": "C12",
   "status": "proved",
   "theorems": [
    "C12_every_session_recovered",
    "C12_restriction_is_subtree",
    "C12_session_never_refused"
   ],
   "note": "For every history of sessions, crashes followed by regress, removals; every session still held; also restricted to a path."
  },
  {
   "property": "C13",
   "status": "proved",
   "theorems": [
    "C13_subtree"
   ],
   "note": ""
  },
  {
   "property": "C14",
   "status": "proved",
   "theorems": [
    "C14_order_total",
    "C14_collate_two",
    "C14_collate_many"
   ],
   "note": ""
  },
  {
   "property": "C15",
   "status": "proved",
   "theorems": [
    "C15_each_entry_once_in_order",
    "C15_directory_closed_once_after_content",
    "C15_order_enforced",
    "C15_fill_in_complete"
   ],
   "note": ""
  },
  {
   "property": "C16",
   "status": "proved",
   "theorems": [
    "C16_pattern_readable",
    "C16_any_glob",
    "C16_pattern_accepted",
    "C16_size",
    "C16_first_match_decides",
    "C16_own_data_excluded",
    "C16_last_must_exclude",
    "C16_no_options",
    "C16_plain_name",
    "C16_glob",
    "C16_include_list",
    "C16_exclude_list",
    "C16_mixed_list_parent_refuted",
    "C16_trailing_newline_refuted",
    "C16_kinds",
    "C16_if_present",
    "C16_other_filesystems",
    "C16_mixed_list",
    "C16_mixed_list_parent_refuted",
    "C16_double_slash_refused"
   ],
   "note": "For every list of options (globs, plain names, file lists without mixed signs, predicates, sizes, presence): the first option matching decides; globs are related to an independent inductive glob semantics. Refuted corner cases: mixed +/- file lists and names ending in a newline."
  },
  {
   "property": "C17",
   "status": "proved",
   "theorems": [
    "C17_tree_selection",
    "C17_single_file",
    "C17_parents_of_match",
    "C17_include_glob",
    "C17_filter",
    "C17_bracket_parent_refuted",
    "C17_escaped_star_refuted",
    "C17_filter_scanned_directory_refuted",
    "C17_filter_scanned_file_refuted",
    "C17_filter_double_star_refuted",
    "C17_filter_excluded_directory_refuted"
   ],
   "note": "Tree selection equals the recursive description for any options parsed and any tree; filtering of listings (restore, compare) proved equal when nothing is merely scanned, refuted otherwise (four counterexamples)."
  },
  {
   "property": "C18",
   "status": "proved",
   "theorems": [
    "C18_prefilter_sound",
    "C18_prefilter_harmless",
    "C18_other_filesystems_refuted",
    "C18_mixed_file_list_refuted"
   ],
   "note": "Prefilter proved harmless for all options except --exclude-other-filesystems and mixed file lists, for which it is refuted."
  },
  {
   "property": "C19",
   "status": "proved",
   "theorems": [
    "C19_executed_paths",
    "C19_dotdot_denied",
    "C19_history",
    "C19_stat_anything_refuted",
    "C19_local_connection_refuted",
    "C19_subpath_widens_refuted",
    "C19_restricted_after_setup"
   ],
   "note": "Any request executed under a restriction names only paths leading into it (independent path-walking semantics, all histories); refuted: get_rpath_data is not vetted, specifics.set may overwrite local_connection, setting up a repository widens the restriction to its base. Unpickling of arguments is outside of the model."
  },
  {
   "property": "C20",
   "status": "proved",
   "theorems": [
    "C20_only_allowed",
    "C20_modes",
    "C20_no_builtins",
    "C20_client_validate",
    "C20_client",
    "C20_settings_open_refuted",
    "C20_read_only_setup_refuted"
   ],
   "note": "Executed requests are in the mode's list for any history; lists compared with an independent table of effects. Refuted: settings can be changed in every mode; RepoShadow.setup writes in read-only mode."
  },
  {
   "property": "C21",
   "status": "proved",
   "theorems": [
    "C21_stream_round_trip",
    "C21_file_in_pieces",
    "C21_errors_passed_on",
    "C21_unread_file_refuted"
   ],
   "note": "For every stream, buffer limits, block structure and sequence of requests, as long as each file is read to its end or error; refuted for a file left before its end (TypeError in close). pickle is assumed to round-trip."
  },
  {
   "property": "C22",
   "status": "proved",
   "theorems": [
    "C22_messages_round_trip",
    "C22_unsendable_refused",
    "C22_streams_unambiguous",
    "C22_broken_header_detected",
    "C22_broken_data_refuted"
   ],
   "note": "pickle is assumed to round-trip; a break within the data of a message is refuted to be noticed at once."
  },
  {
   "property": "C23",
   "status": "proved",
   "theorems": [
    "C23_calls_get_their_own_answers",
    "C23_no_other_outcome",
    "C23_file_numbers"
   ],
   "note": "Up to 256 nested calls; one thread per side, as in the program."
  },
  {
   "property": "C24",
   "status": "proved",
   "theorems": [
    "C24_backup_links",
    "C24_nothing_left",
    "C24_restore_links",
    "C24_restored_tree",
    "C24_first_checksum_for_all",
    "C24_strangers_never_linked",
    "C24_link_added_meanwhile_refuted",
    "C24_restore_over_existing_refuted",
    "C24_changed_links_noticed",
    "C24_new_first_name_refuted",
    "C24_unchanged_links_kept",
    "C24_gone_is_gone",
    "C24_first_name_gone"
   ],
   "note": "For all listings with right link counts, all cache sizes, any comparison function; refuted when a link is added during the backup (KeyError) and for a restore over an existing tree (links broken)."
  },
  {
   "property": "C25",
   "status": "proved",
   "theorems": [
    "C25_names_distinct",
    "C25_never_existing",
    "C25_counter_lost_refuted",
    "C25_empty_counter_refuted",
    "C25_places_distinct",
    "C25_names_for_ever",
    "C25_found_again",
    "C25_new_found",
    "C25_limit_changed_refuted"
   ],
   "note": "Names never repeat nor exist over histories of asks, file creations, deletions, restarts without a cut of the counter write (C25_names_distinct); with cuts, never a name which has files (C25_never_existing); stored places are distinct and found again. Refuted corner cases: a cut between deleting and rewriting next_free repeats a name given out but unused, an empty next_free blocks, a shrinking name limit loses increments."
  },
  {
   "property": "C26",
   "status": "proved",
   "theorems": [
    "C26_verify"
   ],
   "note": "Return code characterised exactly (success, error bit, warning bit, exception) for listings with consistent link counts; the reading of the file from the repository (get_fp) is an input here, see C01."
  },
  {
   "property": "C27",
   "status": "proved",
   "theorems": [
    "C27_blocksize",
    "C27_not_monotone"
   ],
   "note": "Bounds for every length; monotonicity does not hold and is not claimed."
  },
  {
   "property": "C28",
   "status": "proved",
   "theorems": [
    "C28_copy",
    "C28_copy_and_hash",
    "C28_checksum",
    "C28_old_content_refuted",
    "C28_compare",
    "C28_short_reads_refuted"
   ],
   "note": "Any splitting into reads; new output file. Short reads of _cmp_file_obj and copying over old content are the refuted cases."
  },
  {
   "property": "C29",
   "status": "proved",
   "theorems": [
    "C29_reads",
    "C29_read_size",
    "C29_read_rest",
    "C29_read_total",
    "C29_input"
   ],
   "note": "For every maker (librsync job), every input splitting and every sequence of reads; librsync itself is a parameter."
  },
  {
   "property": "C30",
   "status": "proved",
   "theorems": [
    "C30_one_writer",
    "C30_one_writer_new",
    "C30_lock_not_left",
    "C30_first_backup_race_refuted",
    "C30_killed_first_backup_refuted"
   ],
   "note": "All interleavings of system-call steps of any number of processes, kills anywhere: one writer once the first backup is complete (or as long as nobody removes a 'failed' first backup); the lock does not outlive its holder. Refuted: two concurrent first backups can both work; after a killed first backup the left-over lock file blocks unforced backups."
  },
  {
   "property": "C31",
   "status": "proved",
   "theorems": [
    "C31_attributes_read_back",
    "C31_acls_read_back",
    "C31_acl_unchanged_recognised",
    "C31_each_file_its_own_attributes",
    "C31_each_file_its_own_acl",
    "C31_name_with_space_refuted",
    "C31_numeric_user_refuted",
    "C31_set_attribute",
    "C31_acl_comparison"
   ],
   "note": "Proved for attribute names of plain bytes and non-numeric owner names; refuted for an attribute name with a space and a numeric user name."
  },
  {
   "property": "C32",
   "status": "proved",
   "theorems": [
    "C32_default_owner",
    "C32_default_acl",
    "C32_default_total",
    "C32_mapping_file",
    "C32_mapping_file_total",
    "C32_bad_line",
    "C32_numerical",
    "C32_caches_invisible",
    "C32_names_and_ids",
    "C32_preserve_numerical_ids_refuted",
    "C32_listed_id_refuted",
    "C32_nameless_acl_refuted",
    "C32_unknown_target_refuted",
    "C32_shared_id_refuted"
   ],
   "note": "The documented policy for all user databases with one name per id, all mapping files of blank and old:new lines, and any order of earlier lookups (caches are invisible); bad lines are fatal; the numerical map keeps ids. Refuted: --preserve-numerical-ids has no effect (the option is stored under another key); a listed id is not used when the name exists here; nameless ACL entries are dropped when a mapping file is given; unknown names on the right are not reported; accounts sharing an id are answered depending on the order of questions."
  },
  {
   "property": "C33",
   "status": "proved",
   "theorems": [
    "C33_interval_is_sum",
    "C33_interval_only_sums",
    "C33_session_count",
    "C33_session_count_too_many",
    "C33_now",
    "C33_epoch_seconds",
    "C33_interval_before_reference",
    "C33_session_specification",
    "C33_timestamp",
    "C33_timestamp_epoch_refuted",
    "C33_date",
    "C33_nothing_else",
    "C33_duration_in_words"
   ],
   "note": ""
  },
  {
   "property": "C34",
   "status": "proved",
   "theorems": [
    "C34_restore_time",
    "C34_restore_time_exists",
    "C34_candidate_times",
    "C34_restore_as_of"
   ],
   "note": "Conditions on librsync and SHA-1 only for the contents that occur."
  },
  {
   "property": "C35",
   "status": "proved",
   "theorems": [
    "C35_metadata",
    "C35_once_in_order",
    "C35_no_error",
    "C35_parents"
   ],
   "note": "For every cache size, every listing of a tree and every schedule of reports: records written exactly as they should be, once, in order, parents accessible; no error if reports come while the file is in the cache."
  },
  {
   "property": "C36",
   "status": "proved",
   "theorems": [
    "C36_counters",
    "C36_balance",
    "C36_round_trip",
    "C36_round_trip_refuted"
   ],
   "note": "Counters proved for all backups and orders of reports, identities between them, round trip for values up to 2^53; refuted beyond (float)."
  },
  {
   "property": "C37",
   "status": "proved",
   "theorems": [
    "C37_restore"
   ],
   "note": "Restoring only; the backup half (CCPP.dir_perms_list) is to be C47."
  },
  {
   "property": "C38",
   "status": "proved",
   "theorems": [
    "C38_remove_file",
    "C38_others_untouched",
    "C38_dry_run",
    "C38_data_directory_safe",
    "C38_statistics_refuted",
    "C38_odd_directory_refuted",
    "C38_odd_name_refuted"
   ],
   "note": "Exact effect of remove file on every metadata file, the mirror, the increments area and the long-names area; dry run; other paths untouched. Conditions (stats lines containing a space continuation, directories or the path named like an increment) shown necessary by the _refuted theorems."
  },
  {
   "property": "C39",
   "status": "proved",
   "theorems": [
    "C39_sizes",
    "C39_totals_grow"
   ],
   "note": "get_increments_sizes on any listing: one entry per time, sums and cumulative sums exact, ordered, mirror last."
  },
  {
   "property": "C40",
   "status": "proved",
   "theorems": [
    "C40_unchanged_recognised",
    "C40_change_noticed",
    "C40_fifo_for_empty_file_refuted",
    "C40_loose_weaker",
    "C40_kept_attribute_noticed",
    "C40_other_attribute_ignored",
    "C40_resource_fork_compared_refuted",
    "C40_loose_exact"
   ],
   "note": "Refuted for a fifo replacing an empty file."
  },
  {
   "property": "C41",
   "status": "proved",
   "theorems": [
    "C41_meta",
    "C41_hash",
    "C41_full",
    "C41_exit_code",
    "C41_full_same_bytes",
    "C41_hash_first_link_gone_refuted",
    "C41_full_excluded_refuted"
   ],
   "note": "Proved for all listings; refuted corner cases: hash method misses a changed hard linked file whose first name is gone; full method dies if the selection leaves out a file present on both sides."
  },
  {
   "property": "C42",
   "status": "proved",
   "theorems": [
    "C42_tree",
    "C42_top",
    "C42_tree_for_report",
    "C42_merge",
    "C42_lines",
    "C42_hash_refuted"
   ],
   "note": "Full pipeline from lines to tree to report; merging of sessions path by path. C42_hash_refuted: a path starting with '#' is skipped as a comment (finding). Percentages (floats) and their printing aren't modelled."
  },
  {
   "property": "C43",
   "status": "proved",
   "theorems": [
    "C43_written",
    "C43_round_trip",
    "C43_cut_file"
   ],
   "note": "Complete."
  },
  {
   "property": "C44",
   "status": "proved",
   "theorems": [
    "C44_every_held_session_restored",
    "C44_restore_of_a_subtree"
   ],
   "note": "Whole-repository model M_Global: data directory (M_MetaMgr) and files of every path (M_Core, M_Crash) together; the session reads the previous listing from the metadata chain."
  },
  {
   "property": "C45",
   "status": "proved",
   "theorems": [
    "C45_next_session_accepted",
    "C45_interrupted_session_undone",
    "C45_any_order_of_operations"
   ],
   "note": "The first session (crash before any completed session) is covered by C06_failed_first_session_removed; C45 starts with a completed session."
  },
  {
   "property": "C46",
   "status": "proved",
   "theorems": [
    "C46_found",
    "C46_hangs_refuted"
   ],
   "note": "C46_found is the property; C46_hangs_refuted shows the proviso is needed (real endless loop)."
  },
  {
   "property": "C47",
   "status": "proved",
   "theorems": [
    "C47_restored_tree",
    "C47_exactly_what_was_asked",
    "C47_restore_again_changes_nothing",
    "C47_excluded_file_in_the_way_refuted"
   ],
   "note": "M_TreeFs (directory tree with permissions and times), M_DirPatch (apply, _DirPatchITRB, FillInIter, get_diffs): proved by an invariant over the items and the stack of open directories."
  },
  {
   "property": "C48",
   "status": "proved",
   "theorems": [
    "C48_mirror_after_a_session",
    "C48_metadata_describe_the_mirror",
    "C48_mirror_is_the_source",
    "C48_every_history",
    "C48_failed_deletion_in_removed_directory_refuted",
    "C48_low_permissions_refuted"
   ],
   "note": "Tree-level model of the whole patch run; what becomes of writing one file is a parameter (new file or caught failure). Low-permission directories of a non-root user and failed deletions in removed directories are proved exceptions."
  },
  {
   "property": "C49",
   "status": "proved",
   "theorems": [
    "C49_session_whatever_the_permissions",
    "C49_every_history",
    "C49_second_session_exact",
    "C49_new_closed_directory_stays_open_refuted",
    "C49_permissions_back_too_early_refuted"
   ],
   "note": "opening and closing is modelled around C48's run; files of the source are given as read (M_Iter collate); the early reset is a proved exception"
  },
  {
   "property": "C50",
   "status": "proved",
   "theorems": [
    "C50_as_the_manual_says",
    "C50_plain_path_is_itself",
    "C50_plain_host_and_path",
    "C50_quoted_host_and_path",
    "C50_too_many_or_too_few",
    "C50_backslashes_at_the_end_of_the_host_refuted",
    "C50_path_of_backslashes_refuted",
    "C50_newline_refuted",
    "C50_no_path_with_a_backslash_refuted"
   ],
   "note": "Python's re.split, split, replace and join are modelled for these patterns only"
  },
  {
   "property": "C51",
   "status": "proved",
   "theorems": [
    "C51_filled_in_literally",
    "C51_host_needed",
    "C51_only_host_and_version",
    "C51_default_command",
    "C51_other_placeholders_refuted",
    "C51_braces_around_the_host_refuted"
   ],
   "note": "of str.format, fields with braces inside are not modelled; what other fields evaluate to is a parameter"
  },
  {
   "property": "C52",
   "status": "proved",
   "theorems": [
    "C52_agreed_version",
    "C52_agreement_whenever_possible",
    "C52_asked_for",
    "C52_all_the_same",
    "C52_common_version_not_found_refuted"
   ],
   "note": "for remote sides which know about API versions"
  },
  {
   "property": "C53",
   "status": "proved",
   "theorems": [
    "C53_session_shown",
    "C53_changes_listed",
    "C53_files_listed",
    "C53_lines_distinct"
   ],
   "note": "the comparison of two records is a parameter (M_Rorp has it); the fallback to the file system without metadata isn't modelled"
  },
  {
   "property": "C54",
   "status": "proved",
   "theorems": [
    "C54_types_as_restored",
    "C54_types_as_saved",
    "C54_entries",
    "C54_after_removal",
    "C54_special_not_created_refuted"
   ],
   "note": "C54_special_not_created_refuted is the exception named in the statement"
  },
  {
   "property": "C55",
   "status": "proved",
   "theorems": [
    "C55_removals_beside_interrupted_session",
    "C55_time_given_decides",
    "C55_later_time_refuted"
   ],
   "note": "Removals at times not later than the last completed session keep an interrupted session recoverable; C55_time_given_decides links this to the time the user gives; C55_later_time_refuted: a later time destroys the last completed session."
  },
  {
   "property": "C56",
   "status": "proved",
   "theorems": [
    "C56_forced_regress_undoes_last_session",
    "C56_single_session_kept"
   ],
   "note": "For every history of M_Global (which now contains forced regresses themselves); f_forced is the extra condition that no two versions of a path of equal size are both taken for a third file's attributes."
  },
  {
   "property": "C57",
   "status": "proved",
   "theorems": [
    "C57_refused_command_changes_nothing",
    "C57_calculate_tempdir_refuted",
    "C57_restore_deletes_then_refuses_refuted",
    "C57_clock_behind"
   ],
   "note": "every reason to refuse in S_Actions.refusal; exceptions proved: calculate and --tempdir, restore --force deletes first"
  },
  {
   "property": "C58",
   "status": "proved",
   "theorems": [
    "C58_without_force_nothing_overwritten",
    "C58_only_the_target_written",
    "C58_removal_clears_refuted",
    "C58_repository_not_cleared"
   ],
   "note": "C58_without_force_nothing_overwritten, C58_only_the_target_written, C58_repository_not_cleared; exception: removal/regress clear an unmarked repository"
  },
  {
   "property": "C59",
   "status": "proved",
   "theorems": [
    "C59_reading_commands_write_nothing",
    "C59_compare_writes_configuration_only",
    "C59_compare_writes_refuted",
    "C59_compare_writes_nothing"
   ],
   "note": "exception: compare records the quoting if missing"
  },
  {
   "property": "C60",
   "status": "proved",
   "theorems": [
    "C60_backup_order",
    "C60_lock_first",
    "C60_restore_from_repository_in_order"
   ],
   "note": "order for every outcome of every call, the process may end in each"
  },
  {
   "property": "C61",
   "status": "proved",
   "theorems": [
    "C61_compare_time_refuted",
    "C61_verify_warning_refuted",
    "C61_lock_given_up",
    "C61_backup_exit_status",
    "C61_remove_exit_status",
    "C61_regress_exit_status",
    "C61_restore_exit_status"
   ],
   "note": "exceptions: compare with invalid time, verify's warnings"
  },
  {
   "property": "C62",
   "status": "proved",
   "theorems": [
    "C62_recursion_reported",
    "C62_targets_below_reported",
    "C62_root_refuted"
   ],
   "note": "exact for normalised paths; exception: source /"
  },
  {
   "property": "C63",
   "status": "proved",
   "theorems": [
    "C63_first_session_accepted_again",
    "C63_first_session_after_interruptions",
    "C63_found_file_has_no_hash"
   ],
   "note": "Model: a first session over the listing of the files found in the mirror (M_Global.gfirst), interrupted ones keep the mirror files versions (L_First). Hypotheses: those of C44 plus: attributes read from the mirror compare equal to those of the file and carry no hash. C63_found_file_has_no_hash is the exception."
  },
  {
   "property": "C64",
   "status": "proved",
   "theorems": [
    "C64_every_moment",
    "C64_always_a_way_on",
    "C64_removal_repeated",
    "C64_forced_after_killed_removal_refuted"
   ],
   "note": "Includes killed removals, under the condition careful (regress --force not after a killed removal with only one session held); both exceptions are proved: C64_forced_after_killed_removal_refuted and C06_empty_increments_refuted. Per call model M_Life over M_Global."
  },
  {
   "property": "C65",
   "status": "proved",
   "theorems": [
    "C65_extra_metadata_recorded",
    "C65_extra_metadata_restored",
    "C65_unsupported_never_written",
    "C65_switched_off",
    "C65_options",
    "C65_local_dropped_refuted",
    "C65_never_drop_acls",
    "C65_never_drop_acls_refuted",
    "C65_changes_noticed",
    "C65_change_missed_refuted",
    "C65_repository_alone"
   ],
   "note": "Detection of abilities is a flag per kind; settings, recording and writing modelled. Exceptions (C65_*_refuted): local backup to a file system without the kind drops it, also with --never-drop-acls; changes of extra metadata alone are missed if the repository doesn't support the kind."
  },
  {
   "property": "C66",
   "status": "proved",
   "theorems": [
    "C66_same_names_for_ever",
    "C66_names_found_and_decoded",
    "C66_escapes_without_quoting_refuted",
    "C66_enforced_quoting_unchecked_refuted"
   ],
   "note": "Records chars_to_quote and special_escapes and their readers; C10 gives the decoding. Exceptions: escapes without quoting aren't applied; --chars-to-quote in a restore isn't compared with the record."
  },
  {
   "property": "C67",
   "status": "proved",
   "theorems": [
    "C67_errors_recorded",
    "C67_local",
    "C67_one_line_each",
    "C67_null_separated",
    "C67_text_kept",
    "C67_other_side_refuted",
    "C67_changed_file_refuted",
    "C67_without_log"
   ],
   "note": "All processes of a session; _refuted: errors of the other side of a connection, changing files"
  },
  {
   "property": "C68",
   "status": "proved",
   "theorems": [
    "C68_messages_delivered",
    "C68_closed",
    "C68_nothing_after_close",
    "C68_other_actions_refuted",
    "C68_verbosity_all_or_nothing",
    "C68_traffic_not_logged_remotely",
    "C68_exception_hidden_refuted",
    "C68_text_of_messages"
   ],
   "note": "_refuted: log files of actions other than backup; exceptions at the boundary verbosity"
  },
  {
   "property": "C69",
   "status": "proved",
   "theorems": [
    "C69_actions_accepted",
    "C69_unrestricted_accepted",
    "C69_statistics_refuted",
    "C69_compare_configures_refuted",
    "C69_update_only_regress_refuted"
   ],
   "note": "Requests of every action in M_Requests against the lists of M_Security; three proved exceptions."
  },
  {
   "property": "C70",
   "status": "proved",
   "theorems": [
    "C70_attributes_copied",
    "C70_copying_succeeds",
    "C70_source_to_target",
    "C70_permissions_meanwhile",
    "C70_window_refuted",
    "C70_no_window_without_attributes",
    "C70_unsupported_refuted",
    "C70_symlinks",
    "C70_increment_permissions",
    "C70_increment_attributes",
    "C70_increment_attributes_refuted"
   ],
   "note": "Linux semantics of chown/chmod/xattr/ACL is part of the trusted base (first part of M_Attribs). Exceptions proved: world-readable window while EAs are written, file systems without EAs, EAs of read-only increments."
  },
  {
   "property": "C71",
   "status": "proved",
   "theorems": [
    "C71_found_out",
    "C71_nothing_destroyed",
    "C71_case_by_reading",
    "C71_trailing_by_reading",
    "C71_no_collisions",
    "C71_periods_without_quoting_refuted",
    "C71_periods_and_capitals_refuted",
    "C71_device_in_source_refuted",
    "C71_mounts_refuted",
    "C71_capitals_outside_ascii_refuted",
    "C71_high_permissions_refuted",
    "C71_left_over_refuted"
   ],
   "note": "The abilities are the ones of M_Detect.fs; ACLs, resource forks, Carbon and fsync of directories are single answers. The exceptions are proved as _refuted."
  },
  {
   "property": "C72",
   "status": "proved",
   "theorems": [
    "C72_power_failure_during_backup",
    "C72_power_failures_while_going_back",
    "C72_renamed_before_written_refuted",
    "C72_restored_in_place_refuted",
    "C72_directory_replaced_refuted",
    "C72_no_fsync_refuted",
    "C72_no_fsync_forces_nothing",
    "C72_no_directory_fsync_refuted",
    "C72_completed_session_undone"
   ],
   "note": "safe = the file system forces the data of a file to the disk when it's renamed over another; where it doesn't, the theorem holds for all changes but those from a regular file to a regular file. The theorem about interrupted going back needs that no regular file is replaced by something else or deleted; exceptions proved as _refuted."
  },
  {
   "property": "C73",
   "status": "proved",
   "theorems": [
    "C73_power_failure",
    "C73_metadata_kept",
    "C73_first_session",
    "C73_no_fsync_refuted"
   ],
   "note": "Theorems about every history of backups with power failures at any point (also while going back); the reading of the metadata is exact. Exception --no-fsync (C73_no_fsync_refuted). Not covered: --fsync where directories can't be forced to the disk; files other than metadata files and markers (C72 covers mirror and increments)."
  },
  {
   "property": "C74",
   "status": "proved",
   "theorems": [
    "C74_human_size",
    "C74_human_monotone",
    "C74_average",
    "C74_no_times",
    "C74_total_change",
    "C74_errors_refuted",
    "C74_cutoff",
    "C74_cutoff_refuted"
   ],
   "note": "Floats are modelled by exact numbers; what is printed is modelled for sizes (to_human_size_str) and for the whole-number errors."
  },
  {
   "property": "C75",
   "status": "proved",
   "theorems": [
    "C75_session_possible",
    "C75_restored_is_selected",
    "C75_exclude_early_or_late"
   ],
   "note": "Options are tame as in C17 (no --exclude-other-filesystems, no list both excluding and including). Paths whose update failed in the session are apart, as in C44. Names with newlines are apart in the last part."
  },
  {
   "property": "C76",
   "status": "proved",
   "theorems": [
    "C76_pid_is_the_first_one",
    "C76_no_pid",
    "C76_marker_read_back",
    "C76_check_exact",
    "C76_report_is_true",
    "C76_running_session_stops_others",
    "C76_dead_session_stops_nobody",
    "C76_never_two_sessions",
    "C76_prefix_is_orderly",
    "C76_locks_suffice",
    "C76_next_session_takes_over",
    "C76_race_refuted",
    "C76_race_blocks_repository_refuted",
    "C76_other_user_refuted",
    "C76_regressing_session_refuted",
    "C76_unknown_pid_refuted",
    "C76_same_pid_again_refuted",
    "C76_force_not_stopped",
    "C76_damaged_marker_refuted"
   ],
   "note": "Marker text, the regular expression reading it (leftmost match, against an independent relational specification), os.kill(pid,0), _check_pids and the start of a backup as a transition system of any number of processes, with the lock of lock.yml (as one step) working or not. Refuted for: the race between check and mark without a working lock or with --force, sessions of other users (EPERM), a session which regresses (without lock), unknown PID, the same PID again (containers), a damaged marker."
  },
  {
   "property": "C77",
   "status": "proved",
   "theorems": [
    "C77_command_line",
    "C77_options_are_documented",
    "C77_unreadable_list_reported",
    "C77_only_lists_can_be_unreadable",
    "C77_malformed_reported",
    "C77_subpath_selection",
    "C77_documented_option_refuted",
    "C77_documented_option_crashes_refuted",
    "C77_stdin_twice_refuted"
   ],
   "note": "The option table, SelectAction and the dispatch tables, from the sequence of (option, argument) argparse delivers to the criteria of M_Select; argparse itself is assumed. Refuted for the documented options --include-device-files, --include-fifos, --include-sockets and --include-other-filesystems (RuntimeError) and for a second list from the standard input (ValueError)."
  },
  {
   "property": "C78",
   "status": "proved",
   "theorems": [
    "C78_nearest_repository",
    "C78_base_is_a_repository",
    "C78_refused_only_without_repository",
    "C78_increment_names_its_file",
    "C78_increment_of_the_root",
    "C78_increment_sound",
    "C78_below_increments_refuted",
    "C78_root_refuted",
    "C78_dotdot_refuted",
    "C78_looks_like_increment_refuted",
    "C78_data_directory_refuted",
    "C78_within_current_directory_refuted"
   ],
   "note": "nearest repository, base, refusal exactly without repository, increments both ways (names and times); exceptions proved as _refuted: names increments/rdiff-backup-data above, repository at /, .., names like increments, relative path within the repository"
  },
  {
   "property": "C79",
   "status": "proved",
   "theorems": [
    "C79_offers_fit",
    "C79_offers_all",
    "C79_in_order",
    "C79_files",
    "C79_no_exception",
    "C79_first_word",
    "C79_from_the_end",
    "C79_no_unique_refuted",
    "C79_cursor_in_the_middle_refuted",
    "C79_values_not_filtered_refuted",
    "C79_repeated_options_refuted",
    "C79_value_taken_for_action_refuted",
    "C79_optional_location_refuted"
   ],
   "note": "Four positive theorems (what is offered fits, nothing is forgotten, files are offered exactly where there is room, the order) and the absence of exceptions with the cursor on the last word; the exceptions are proved as refutations."
  },
  {
   "property": "C80",
   "status": "proved",
   "theorems": [
    "C80_written_is_read",
    "C80_refused",
    "C80_interrupted",
    "C80_recreated",
    "C80_temporary_unread",
    "C80_recreated_uncompressed_refuted",
    "C80_overwritten_refuted",
    "C80_both_refuted"
   ],
   "note": "Gzip is modelled as a wrapper with a trailer, Python's own buffering is not; the records are byte strings (their format is C03/C04's)."
  },
  {
   "property": "C81",
   "status": "proved",
   "theorems": [
    "C81_succeeds",
    "C81_fails",
    "C81_contacts",
    "C81_tested",
    "C81_others_untested_refuted",
    "C81_warning_unreachable"
   ],
   "note": "One server's behaviour is independent of the others; with extended attributes active the third argument of get_rpath_data (rp.data instead of the index) isn't modelled."
  },
  {
   "property": "C82",
   "status": "proved",
   "theorems": [
    "C82_delivered_first",
    "C82_only_plugins",
    "C82_main_first",
    "C82_main_delivered",
    "C82_added_lost_refuted"
   ],
   "note": "A module is its name and its class; what importing a module executes isn't modelled."
  },
  {
   "property": "C83",
   "status": "proved",
   "theorems": [
    "C83_pairs",
    "C83_warning",
    "C83_result",
    "C83_incomplete_session_refuted"
   ],
   "note": "sessions of calculate statistics: C83_pairs (which files), C83_warning (iff none), C83_result (average and sum of trees with each session's own cutoff), C83_incomplete_session_refuted (finding). Trees: C42; averages: C74."
  }
 ]
}