{
 "claims": [
  {
   "property": "C01",
   "status": "proved",
   "theorems": [
    "C01_base32_roundtrip",
    "C01_bits_are_bits",
    "C01_bits_length"
   ],
   "note": ""
  },
  {
   "property": "C02",
   "status": "proved",
   "theorems": [
    "C02_text_length",
    "C02_text_content",
    "C02_accepts_exactly",
    "C02_decoded_length",
    "C02_case_insensitive"
   ],
   "note": ""
  },
  {
   "property": "C03",
   "status": "proved",
   "theorems": [
    "C03_roundtrip",
    "C03_accepts_exactly",
    "C03_inverse",
    "C03_errors"
   ],
   "note": ""
  },
  {
   "property": "C04",
   "status": "proved",
   "theorems": [
    "C04_printed_key_parses",
    "C04_printed_key_shape",
    "C04_printed_key_injective"
   ],
   "note": ""
  },
  {
   "property": "C05",
   "status": "proved",
   "theorems": [
    "C05_prefix_range_exact",
    "C05_ranges_come_from_prefixes"
   ],
   "note": ""
  },
  {
   "property": "C06",
   "status": "proved",
   "theorems": [
    "C06_never_panics",
    "C06_ref",
    "C06_non_ascii",
    "C06_empty",
    "C06_unknown_prefix",
    "C06_bad_character",
    "C06_full_key"
   ],
   "note": ""
  },
  {
   "property": "C07",
   "status": "proved",
   "theorems": [
    "C07_prefix_resolution",
    "C07_reference_resolution"
   ],
   "note": ""
  },
  {
   "property": "C08",
   "status": "proved",
   "theorems": [
    "C08_full_key_resolves_refuted",
    "C08_full_key_of_stored_object",
    "C08_full_key_of_absent_object"
   ],
   "note": "The property is false of the code: refuted with a witness, and the exact behaviour (always refused with UnknownHashId 0xa3, or a panic when absent) is proved for all states."
  },
  {
   "property": "C09",
   "status": "proved",
   "theorems": [
    "C09_object_roundtrip",
    "C09_key_is_hash_of_encoding"
   ],
   "note": ""
  },
  {
   "property": "C10",
   "status": "proved",
   "theorems": [
    "C10_equal_keys_equal_objects"
   ],
   "note": ""
  },
  {
   "property": "C11",
   "status": "proved",
   "theorems": [
    "C11_item_converts_exactly",
    "C11_item_roundtrip",
    "C11_commit_roundtrip"
   ],
   "note": ""
  },
  {
   "property": "C12",
   "status": "proved",
   "theorems": [
    "C12_stored_objects_stay",
    "C12_commands_never_change_stored_bytes"
   ],
   "note": ""
  },
  {
   "property": "C13",
   "status": "proved",
   "theorems": [
    "C13_put_twice",
    "C13_put_of_stored_object"
   ],
   "note": ""
  },
  {
   "property": "C14",
   "status": "proved",
   "theorems": [
    "C14_store_integrity",
    "C14_session_integrity"
   ],
   "note": ""
  },
  {
   "property": "C15",
   "status": "proved",
   "theorems": [
    "C15_C16_C17_store_refines_spec",
    "C15_C16_C17_store_answers",
    "C15_head_is_last_put"
   ],
   "note": ""
  },
  {
   "property": "C16",
   "status": "proved",
   "theorems": [
    "C15_C16_C17_store_refines_spec",
    "C15_C16_C17_store_answers",
    "C16_history_is_what_was_pushed",
    "C16_reflog_append_only"
   ],
   "note": ""
  },
  {
   "property": "C17",
   "status": "proved",
   "theorems": [
    "C15_C16_C17_store_refines_spec",
    "C15_C16_C17_store_answers",
    "C17_between_exact",
    "C17_exists_iff_get",
    "C17_exists_never_asserts"
   ],
   "note": ""
  },
  {
   "property": "C18",
   "status": "proved",
   "theorems": [
    "C18_round_trip",
    "C18_halves",
    "C18_lost_part",
    "C18_round_trip_refuted",
    "C18_reading_is_deterministic"
   ],
   "note": "The unconditional round trip is false of the code: proved with the exact exceptional condition (top key buffer non-empty, the one below empty at end of input), the loss in that case is characterised, and a witness refutes the unconditional statement. Hash collisions are excluded only among the hashed inputs of the run (no_coll)."
  },
  {
   "property": "C19",
   "status": "proved",
   "theorems": [
    "C19_key_independent_of_store",
    "C19_null_store",
    "C19_twice"
   ],
   "note": ""
  },
  {
   "property": "C20",
   "status": "proved",
   "theorems": [
    "C20_blobs",
    "C20_upper_bound_refuted"
   ],
   "note": "Lower bound and full-read upper bound proved; an upper bound for short reads is refuted with arbitrarily large blobs."
  },
  {
   "property": "C21",
   "status": "proved",
   "theorems": [
    "C21_key_depends_on_read_sizes_refuted",
    "C21_blobs_depend_on_read_sizes",
    "C21_small_files"
   ],
   "note": "The property is false of the code: refuted, with a universal statement of the dependence on read sizes for every table; what holds (small files, equal reads) is proved."
  },
  {
   "property": "C22",
   "status": "proved",
   "theorems": [
    "C22_outcomes",
    "C22_succeeds"
   ],
   "note": ""
  },
  {
   "property": "C23",
   "status": "proved",
   "theorems": [
    "C23_interrupts_invisible",
    "C23_read_errors_reported"
   ],
   "note": ""
  },
  {
   "property": "C24",
   "status": "proved",
   "theorems": [
    "C24_insert_fetch",
    "C24_insert_succeeds",
    "C24_fetch_succeeds"
   ],
   "note": "For trees whose files survive chunking (C18; all files below 64 KiB do). Hash collisions are excluded only among the inputs hashed in the run. Also: both operations succeed when nothing fails."
  },
  {
   "property": "C25",
   "status": "proved",
   "theorems": [
    "C25_directories",
    "C25_empty_directories_refuted"
   ],
   "note": "The property is false of the code: refuted with a witness; the exact set of directories recreated is proved."
  },
  {
   "property": "C26",
   "status": "proved",
   "theorems": [
    "C26_never_overwrites"
   ],
   "note": ""
  },
  {
   "property": "C27",
   "status": "proved",
   "theorems": [
    "C27_stays_inside",
    "C27_inserted_proper",
    "C27_stays_inside_refuted"
   ],
   "note": "Proved for keys whose directories have proper names, which every inserted key has; refuted for crafted objects."
  },
  {
   "property": "C28",
   "status": "proved",
   "theorems": [
    "C28_stored_exactly"
   ],
   "note": "Stated for put_fs_item with the filter built from any exclusions, which insert and commit call."
  },
  {
   "property": "C29",
   "status": "proved",
   "theorems": [
    "C29_key_of_content",
    "C29_key_of_content_refuted"
   ],
   "note": "Proved for equal enumeration orders; refuted with a witness otherwise."
  },
  {
   "property": "C30",
   "status": "proved",
   "theorems": [
    "C30_walks_agree",
    "C30_walk_lists"
   ],
   "note": ""
  },
  {
   "property": "C31",
   "status": "proved",
   "theorems": [
    "C31_no_dangling",
    "C31_reads_find"
   ],
   "note": ""
  },
  {
   "property": "C32",
   "status": "proved",
   "theorems": [
    "C32_acyclic",
    "C32_reads_end",
    "C32_show_and_log_end"
   ],
   "note": ""
  },
  {
   "property": "C33",
   "status": "proved",
   "theorems": [
    "C33_triples_independent",
    "C33_first_put_wins",
    "C33_failed_put"
   ],
   "note": "Distinct triples have distinct encodings; for any history of successful puts the lookup of every triple is the first key ever stored for it; a failing put stores nothing."
  },
  {
   "property": "C34",
   "status": "proved",
   "theorems": [
    "C34_hash_is_insert_key",
    "C34_cache_stays_right",
    "C34_compare_keeps_cache_right",
    "C34_empty_cache_right"
   ],
   "note": "With the cache right and equal contents delivered in equal portions (steady_reads), hash_fs_item returns the key any insertion of a file with that content returns; the cache stays right for every outcome of hash_fs_item and of compare; an empty cache is right."
  },
  {
   "property": "C35",
   "status": "proved",
   "theorems": [
    "C35_modified_iff_content_differs",
    "C35_stale_cache_refuted"
   ],
   "note": "Proved under a right cache: a common file is listed as modified iff contents differ. Without it refuted by a witness: rewrite with same size, inode and second after a comparison."
  },
  {
   "property": "C36",
   "status": "proved",
   "theorems": [
    "C36_stored_trees_exact",
    "C36_inserted_trees_tidy"
   ],
   "note": "Added and modified lists are exact, sorted and free of duplicates for every successful comparison of stored trees; every inserted tree satisfies the hypothesis (tidy)."
  },
  {
   "property": "C37",
   "status": "proved",
   "theorems": [
    "C37_no_deletion_reported",
    "C37_success_means_none_missing",
    "C37_panics_iff_missing",
    "C37_deletion_refuted",
    "C37_deleted_file_refuted"
   ],
   "note": "False of the code: refuted with witnesses. Proved instead: no success ever reports a deletion, success implies nothing is missing, and comparing readable stored trees panics exactly when something is missing."
  },
  {
   "property": "C38",
   "status": "proved",
   "theorems": [
    "C38_added_key_from_cwd",
    "C38_added_key_right_in_cwd",
    "C38_added_key_refuted",
    "C38_added_file_panic_refuted"
   ],
   "note": "False of the code unless the compared directory is the current one: exact behaviour proved, correctness in the current directory proved, two refutations (wrong key; panic)."
  },
  {
   "property": "C39",
   "status": "proved",
   "theorems": [
    "C39_clean_means_same",
    "C39_same_means_clean",
    "C39_file_to_directory_refuted"
   ],
   "note": "Proved under a right cache up to one exception that is refuted by a witness: a file replaced by a directory is reported clean."
  },
  {
   "property": "C40",
   "status": "proved",
   "theorems": [
    "C40_show_exactly",
    "C40_show_snapshots",
    "C40_deleted_path_panics",
    "C40_changed_subdirectory_refuted",
    "C40_deleted_file_refuted",
    "C40_binary_file_refuted"
   ],
   "note": "False as stated: refuted at the level of whole processes (a changed subdirectory, a deleted file, a non-UTF-8 file). Proved: the exact condition under which a commit can be shown."
  },
  {
   "property": "C41",
   "status": "proved",
   "theorems": [
    "C41_topmost_added",
    "C41_topmost_deleted",
    "C41_modified_untouched"
   ],
   "note": "For every comparison result in path order (C36/C37 prove comparisons produce such results)."
  },
  {
   "property": "C42",
   "status": "proved",
   "theorems": [
    "C42_hunks",
    "C42_changed_lines",
    "C42_counts_refuted"
   ],
   "note": "Header counts refuted; proved that every count leaves out exactly the last line of its hunk. Context is up to 3 lines after and 5 lines before a change. The line diff itself (difference crate) is an oracle."
  },
  {
   "property": "C43",
   "status": "proved",
   "theorems": [
    "C43_statistics",
    "C43_printed"
   ],
   "note": "The line diff and the lossy UTF-8 conversion are oracles."
  },
  {
   "property": "C44",
   "status": "proved",
   "theorems": [
    "C44_parent_order",
    "C44_commit_stored"
   ],
   "note": "Assumes no hash collision among hashed inputs; attributes must be encodable (shorter than 2^64)."
  },
  {
   "property": "C45",
   "status": "proved",
   "theorems": [
    "C45_commit_command",
    "C45_branches"
   ],
   "note": "For every reachable world, whatever the fault schedule: when the command returns successfully the stored commit, its tree (content equal to the snapshot of the path), message and parents are as stated, and the other branches and HEAD are unchanged. Hash collisions are excluded only among the inputs hashed so far."
  },
  {
   "property": "C46",
   "status": "proved",
   "theorems": [
    "C46_status_after_commit",
    "C46_next_process"
   ],
   "note": "Inside one process and for the next process; for trees whose files survive chunking and with no faults in the second command."
  },
  {
   "property": "C47",
   "status": "proved",
   "theorems": [
    "C47_log_first_parents",
    "C47_log_succeeds",
    "C47_log_ends"
   ],
   "note": "Headers are counted when all objects in the line of first parents have the type commit. Termination for every reachable repository (with fuel above the number of objects)."
  },
  {
   "property": "C48",
   "status": "proved",
   "theorems": [
    "C48_all_or_nothing",
    "C48_failure_changes_nothing",
    "C48_when_killed",
    "C48_begin_fails_refuted",
    "C48_auto_rollback_refuted"
   ],
   "note": "Proved for every schedule in which BEGIN succeeds and no read triggers SQLite's automatic rollback; the two exceptional cases are refuted with witnesses (the program ignores a failing BEGIN and does not notice an automatic rollback)."
  },
  {
   "property": "C49",
   "status": "proved",
   "theorems": [
    "C49_success_durable",
    "C49_commit_refused_refuted"
   ],
   "note": "The unconditional statement is false of the code (a refused COMMIT is ignored): refuted with a witness; proved when COMMIT is not refused."
  },
  {
   "property": "C50",
   "status": "proved",
   "theorems": [
    "C50_failure_exits_zero",
    "C50_visible_refuted",
    "C50_panic_visible"
   ],
   "note": "The property is false of the code: refuted with a witness, and the exact behaviour (errors exit 0, panics exit 101) is proved."
  },
  {
   "property": "C51",
   "status": "proved",
   "theorems": [
    "C51_only_if_clean",
    "C51_nothing_else",
    "C51_error_refuted"
   ],
   "note": "HEAD moves only when the comparison printed nothing; refs and files otherwise unchanged. An unexpected way of moving HEAD (comparison error swallowed) is recorded as refuted."
  },
  {
   "property": "C52",
   "status": "proved",
   "theorems": [
    "C52_outside",
    "C52_truncated_refuted"
   ],
   "note": "False of the code: refuted with a witness (a file is emptied, then the process panics). Proved instead, for all faults: outside the blessed directory at most one file is created empty or emptied, and nothing changes on success."
  },
  {
   "property": "C53",
   "status": "proved",
   "theorems": [
    "C53_checkout",
    "C53_regular",
    "C53_restores",
    "C53_commit_checkout",
    "C53_excluded_refuted",
    "C53_excluded_overwritten_refuted"
   ],
   "note": "Exact outcome of a successful checkout for every location, restoring of snapshots, and the commit/checkout commands end to end. That excluded files are untouched is refuted twice (inside an extra directory; in the snapshot). Liveness only by example."
  },
  {
   "property": "C54",
   "status": "proved",
   "theorems": [
    "C54_directories_needed",
    "C54_missing_directory_refuted"
   ],
   "note": "False of the code: refuted with a witness; proved instead: success implies that every directory of the tree was there before."
  },
  {
   "property": "C55",
   "status": "proved",
   "theorems": [
    "C55_init_keeps",
    "C55_head_kept_refuted"
   ],
   "note": "Objects and log kept; HEAD preservation refuted with a witness."
  },
  {
   "property": "C56",
   "status": "proved",
   "theorems": [
    "C56_nearest",
    "C56_absolute",
    "C56_always_answers",
    "C56_place"
   ],
   "note": ""
  },
  {
   "property": "C57",
   "status": "proved",
   "theorems": [
    "C57_queries",
    "C57_only_adds",
    "C57_only_head"
   ],
   "note": "Queries keep the whole database; status, compare, insert keep refs and only add objects; checkout-head and set-head only change HEAD."
  },
  {
   "property": "C58",
   "status": "proved",
   "theorems": [
    "C58_serialisable",
    "C58_one_after_another",
    "C58_one_writer",
    "C58_commit_lost_refuted"
   ],
   "note": "Any number of processes, any interleaving the locks permit, any failures: the database is the serial result of the committed ones, and every ended process behaved as if alone at one place of that order. At no time do two processes hold the write lock, and its holder also holds the read lock (C58_one_writer). Processes start with the repository open; they share the repository database only (own files and cache); init and statements outside a transaction (BEGIN refused, automatic rollback) are not scheduled. Durability refuted: COMMIT refused because of a reader ends with status 0."
  },
  {
   "property": "C59",
   "status": "proved",
   "theorems": [
    "C59_ref_update",
    "C59_ref_update_succeeds",
    "C59_reflog_push",
    "C59_reflog_push_succeeds"
   ],
   "note": "Effect and success of both commands at command level."
  },
  {
   "property": "C60",
   "status": "proved",
   "theorems": [
    "C60_ref_log",
    "C60_ref_log_succeeds",
    "C60_reflog_get",
    "C60_reflog_get_succeeds"
   ],
   "note": "Printed lines in order; success when nothing fails."
  },
  {
   "property": "C61",
   "status": "proved",
   "theorems": [
    "C61_set_head",
    "C61_get_head",
    "C61_succeed",
    "C61_head_kept"
   ],
   "note": "Command level, and from one process to the next."
  },
  {
   "property": "C62",
   "status": "proved",
   "theorems": [
    "C62_insert"
   ],
   "note": "The printed key is that of the snapshot (in terms of put_fs_item); what a snapshot contains is C24-C30."
  },
  {
   "property": "C63",
   "status": "proved",
   "theorems": [
    "C63_status",
    "C63_compare",
    "C63_compare_stat",
    "C63_head_tidy",
    "C63_no_commits_refuted"
   ],
   "note": "Exact output of status, compare and compare --stat for tidy trees; every tree made by a commit is tidy (C63_head_tidy). A comparison with deleted files panics (C37). The \"no commits\" line is refuted."
  },
  {
   "property": "C64",
   "status": "proved",
   "theorems": [
    "C64_shared_cache_refuted"
   ],
   "note": "Refuted with two nested repositories."
  },
  {
   "property": "C65",
   "status": "proved",
   "theorems": [
    "C65_insert_then_fetch",
    "C65_fetch_succeeds",
    "C65_printed_key_refuted"
   ],
   "note": "Any commands in between; the argument must stand for the key. With the printed key itself: refuted."
  },
  {
   "property": "C66",
   "status": "proved",
   "theorems": [
    "C66_parent_not_a_commit_refuted"
   ],
   "note": "Refuted."
  },
  {
   "property": "C67",
   "status": "proved",
   "theorems": [
    "C67_walk_tree"
   ],
   "note": "For tidy trees; the order of the lines is that of a hash map and not claimed."
  },
  {
   "property": "C68",
   "status": "proved",
   "theorems": [
    "C68_dangling_link_refuted",
    "C68_bad_pattern"
   ],
   "note": "Refuted; an invalid pattern always panics."
  },
  {
   "property": "C69",
   "status": "proved",
   "theorems": [
    "C69_lines",
    "C69_show",
    "C69_log",
    "C69_show_commit",
    "C69_final_newline_refuted"
   ],
   "note": "The text of one patch is a parameter of the model (`show_patch`), as is the line diff."
  },
  {
   "property": "C70",
   "status": "proved",
   "theorems": [
    "C70_well_shaped",
    "C70_started",
    "C70_readable",
    "C70_show",
    "C70_log",
    "C70_commit_tree_refuted",
    "C70_reference_refuted"
   ],
   "note": "The hash log of the machine is assumed free of collisions. File systems met by the processes have unique proper names (`fs_ok`)."
  },
  {
   "property": "C71",
   "status": "proved",
   "theorems": [
    "C71_insert",
    "C71_commit",
    "C71_status",
    "C71_compare",
    "C71_checkout_head",
    "C71_process",
    "C71_starts",
    "C71_init"
   ],
   "note": "status, compare and checkout-head are for machines used sensibly (C70), with no hash collision, a stack deep enough for the objects and a readable cache; init is a sufficient condition only."
  },
  {
   "property": "C72",
   "status": "proved",
   "theorems": [
    "C72_checkout",
    "C72_story"
   ],
   "note": "For machines used sensibly (C70), no hash collision, a stack deep enough for the objects; between the two processes only files change, not the database."
  },
  {
   "property": "C73",
   "status": "proved",
   "theorems": [
    "C73_compare_stat",
    "C73_cache_kept",
    "C73_one_store",
    "C73_file_for_directory_refuted",
    "C73_refused_commit_refuted"
   ],
   "note": "For machines used sensibly (C70), no hash collision, a stack deep enough for the objects."
  },
  {
   "property": "C74",
   "status": "proved",
   "theorems": [
    "C74_pretty_print",
    "C74_succeeds",
    "C74_text_determines"
   ],
   "note": "[writeln!] of one line is one operation; colours do not occur in this command."
  },
  {
   "property": "C75",
   "status": "proved",
   "theorems": [
    "C75_fetch",
    "C75_fetched",
    "C75_walk_tree",
    "C75_show",
    "C75_commit_tree",
    "C75_ref_update",
    "C75_reflog_push",
    "C75_ref_log",
    "C75_reflog_get",
    "C75_get_head",
    "C75_walk_fs_tree",
    "C75_walk_fs_listed"
   ],
   "note": "fetch: the destination is a path of plain names, as typed without . or ..; for other destinations see C24, C26 and C65. Success of show needs one more level of stack than the number of objects."
  },
  {
   "property": "C76",
   "status": "proved",
   "theorems": [
    "C76_insert",
    "C76_reflog_get",
    "C76_ref_log",
    "C76_ref_log_determines",
    "C76_get_head",
    "C76_pretty_print",
    "C76_status",
    "C76_compare",
    "C76_compare_stat",
    "C76_report_determines",
    "C76_report_refuted",
    "C76_log",
    "C76_show_file",
    "C76_show_stored",
    "C76_walk_tree"
   ],
   "note": "Colours and the text of errors are not modelled; the quoted form of a string or path (Debug) is an arbitrary function. The order of the lines of walk-tree is that of a hash table."
  },
  {
   "property": "C77",
   "status": "proved",
   "theorems": [
    "C77_commit_tree",
    "C77_first_parent_refuted"
   ],
   "note": ""
  },
  {
   "property": "C78",
   "status": "proved",
   "theorems": [
    "C78_cache_right",
    "C78_status",
    "C78_compare",
    "C78_compare_stat",
    "C78_story",
    "C78_clean",
    "C78_found"
   ],
   "note": "A directory in the place of a file is not reported (C39), and removed files make status panic (C37), so both are excluded or left open in the statement."
  },
  {
   "property": "C79",
   "status": "proved",
   "theorems": [
    "C79_restore"
   ],
   "note": "For machines used sensibly (C70), no hash collision on the machine, a stack deep enough for the objects, HEAD's name text, the repository below the hard-coded path. A full key does not stand for its commit (C08), a prefix does."
  },
  {
   "property": "C80",
   "status": "proved",
   "theorems": [
    "C80_typed",
    "C80_why",
    "C80_says",
    "C80_outside"
   ],
   "note": "C80_why is about all failures, C80_says and C80_outside about runs without failures. The exit status 0 is that of C50."
  },
  {
   "property": "C81",
   "status": "proved",
   "theorems": [
    "C81_linked",
    "C81_ancestry",
    "C81_never_lost",
    "C81_log",
    "C81_by_hand_refuted"
   ],
   "note": "C81_by_hand_refuted shows that the condition is needed: after ref update to an older commit that one is an entry twice."
  },
  {
   "property": "C82",
   "status": "proved",
   "theorems": [
    "C82_all_kept"
   ],
   "note": "That nothing failed is needed: a process whose COMMIT is refused says nothing (C58_commit_lost_refuted)."
  },
  {
   "property": "C83",
   "status": "proved",
   "theorems": [
    "C83_command",
    "C83_story"
   ],
   "note": "The hypotheses on the edits are those of C78; without them the program panics or fails (C37, C38)."
  },
  {
   "property": "C84",
   "status": "proved",
   "theorems": [
    "C84_status_since"
   ],
   "note": "The hypotheses on the edits are those of C78. After the checkout the files have new times and inodes; that these conform to T, that the new files survive chunking (C18) and that the disk is quiet are hypotheses on the machine."
  },
  {
   "property": "C85",
   "status": "proved",
   "theorems": [
    "C85_commit_again"
   ],
   "note": "That no row but the commit's is added needs no assumption on hashes; that both commits are of the same tree assumes that no two of the values hashed so far have the same hash. The order of enumeration matters: C29 has two orders of the same files with different keys."
  },
  {
   "property": "C86",
   "status": "proved",
   "theorems": [
    "C86_show_history"
   ],
   "note": "Assumes that no two of the values hashed so far have the same hash, that the files survive chunking (C18), that reads return the same pieces whenever a file is read (else the same content may get another key, C21), and a stack as deep as there are objects."
  },
  {
   "property": "C87",
   "status": "proved",
   "theorems": [
    "C87_log_history"
   ],
   "note": "Assumes that no two of the values hashed so far have the same hash, that the files survive chunking (C18), that reads return the same pieces whenever a file is read (else the same content may get another key, C21), and a stack and a loop bound that cover the number of objects."
  },
  {
   "property": "C88",
   "status": "proved",
   "theorems": [
    "C88_inserted"
   ],
   "note": "Assumes that no two of the values hashed so far have the same hash, that the files survive chunking (C18), that reads return the same pieces whenever a file is read, and for compare that equal cache keys always meant equal contents (see C78)."
  },
  {
   "property": "C89",
   "status": "proved",
   "theorems": [
    "C89_switch"
   ],
   "note": "Assumes that no two of the values hashed so far have the same hash, that the files survive chunking (C18), that reads return the same pieces whenever a file is read, and that equal cache keys always meant equal contents (see C78)."
  },
  {
   "property": "C90",
   "status": "proved",
   "theorems": [
    "C90_killed",
    "C90_status",
    "C90_log"
   ],
   "note": "Assumes that no two of the values hashed so far have the same hash, and a stack and loop bound greater than the number of objects. How show ends is in C92."
  },
  {
   "property": "C91",
   "status": "proved",
   "theorems": [
    "C91_letters",
    "C91_named",
    "C91_parents",
    "C91_left_out"
   ],
   "note": "left_out assumes that reads return the same pieces whenever a file is read (otherwise the keys of large files depend on the pieces, C21), and that HEAD is UTF-8."
  },
  {
   "property": "C92",
   "status": "proved",
   "theorems": [
    "C92_show"
   ],
   "note": "Assumes that no two of the values hashed so far have the same hash, and a stack greater than the number of objects plus one."
  },
  {
   "property": "C93",
   "status": "proved",
   "theorems": [
    "C93_storing"
   ],
   "note": "Assumes sizes below 2^62, and that nothing is nested deeper than the stack allows."
  },
  {
   "property": "C94",
   "status": "proved",
   "theorems": [
    "C94_looking"
   ],
   "note": "Assumes that no two of the values hashed so far have the same hash, a stack as in C71, sizes below 2^62, and that nothing is nested deeper than the stack allows."
  },
  {
   "property": "C95",
   "status": "proved",
   "theorems": [
    "C95_counting"
   ],
   "note": "Assumes what C73 assumes (no two values hashed have the same hash, a cache with files of this database only, sizes below 2^62) and that nothing is nested deeper than the stack allows."
  },
  {
   "property": "C96",
   "status": "proved",
   "theorems": [
    "C96_checkout_ends"
   ],
   "note": "Assumes what C72 assumes (no two values hashed have the same hash, nothing nested deeper than the stack allows). Outside of the hard-coded directory see C53."
  },
  {
   "property": "C97",
   "status": "proved",
   "theorems": [
    "C97_walk_ends"
   ],
   "note": "A stack overflow is an exit status of None (killed); see C90."
  },
  {
   "property": "C98",
   "status": "proved",
   "theorems": [
    "C98_returns",
    "C98_process"
   ],
   "note": "The other commands walk through directories: C93, C94, C95 and C97 say when they end."
  }
 ]
}