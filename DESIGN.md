# snapcd: formal model and proofs — design

Subject: `/repo` (5225225/snapcd, Rust, read as text; never built or run here).
Prover: Coq 8.16.1, standard library only. 98 properties, 297 theorems named in `MANIFEST.json`.

## 1. Shape of the model

Model files (definitions only, every definition cites file and lines):

| file (`rocq/theories`) | models |
|---|---|
| `Base.v` | bytes (= `ascii`), byte and bit strings, UTF-8 validity, helpers |
| `Base32.v`, `Key.v`, `Keyish.v` | `src/base32.rs`, `src/key.rs`, `src/keyish.rs`, bit-vector addition of `bitvec` |
| `Cbor.v`, `Object.v` | the `serde_cbor` encoding of the types in `src/object.rs`, `src/dir.rs`, `src/commit.rs` |
| `Path.v` | `std::path` on Unix as component lists |
| `World.v` | the machine: file system, database files, open transaction, cache, fault schedule, output; the oracles (`Env`); the state monad `M` |
| `Store.v` | `src/ds/mod.rs`, `src/ds/sqlite.rs`, `src/ds/null.rs`, `src/cache.rs` |
| `File.v` | `src/file.rs` (chunker, reader) and the gear rolling hash |
| `Filter.v`, `Dir.v` | `src/filter.rs`, `src/dir.rs` |
| `Diff.v` | `src/diff.rs` |
| `Commit.v` | `src/commit.rs`, `src/display.rs` |
| `Pretty.v` | the text of `debug pretty-print` (`src/object.rs`) |
| `Screen.v` | the text that the commands write on the screen |
| `Main.v` | `src/main.rs`: all commands, `main`, the process with its exit status |
| `Lock.v` | several processes on one database under SQLite's rollback-journal locks |

Specification files, independent of the model's helper functions, used by the theorem
statements: `Spec*.v` (`SpecKey`, `SpecStore`, `SpecRun`, `SpecProc`, `SpecCmd`,
`SpecFile`, `SpecDir`, `SpecDiff`, `SpecOut`, `SpecPatch`, `SpecShow`, `SpecCheckout`,
`SpecCache`, `SpecResolve`, `SpecClosure`, `SpecTrace`, `SpecLock`, `SpecText`,
`SpecShape`, `SpecLive`, `SpecPretty`, `SpecFetch`, `SpecScreen`, `SpecHonest`,
`SpecRestore`, `SpecFatal`, `SpecBranch`, `SpecHead`, `SpecAgain`, `SpecHistory`, `SpecChronicle`, `SpecInsert`, `SpecPanic`, `SpecNaming`, `SpecReport`,
`SpecStoring`, `SpecLooking`, `SpecReturn`) and `StoreCalls.v`
(sequences of store calls).  Proofs: `*Facts.v`, `Frame.v`, `DbRel.v`, `Integrity.v`,
`Closure.v`, `FilePlan.v`, `FileRun.v`, `DirPlan.v`, `DirTree.v`, `DirTrip.v`,
`DirWalk.v`, `DirLive.v`, `Ends.v`, `Returns.v`, `CheckoutEnds.v`, `WalkEnds.v`, `FetchSafe.v`, `Reader.v`, `LockRun.v`,
`Live*.v` (when commands succeed) and the like.  `Props*.v` hold
only the property theorems, their `Print Assumptions`, and examples.  `Toy*.v` and
`Checks.v` are concrete environments, repositories and decision procedures for the
examples and witnesses.

Rust functions become Gallina functions in a state monad
`M A := world -> outcome A * world`.  `Result` errors are `Error`, panics (`unwrap`,
`assert!`, index out of range, `unimplemented!`) are `Panicked`, a killed process is
`Crashed`.  Unbounded recursion over stored data takes explicit fuel and answers
`Diverged` when it runs out, which no theorem counts as success (C32, C47 prove when it
does not happen).

*Faults and crashes.* The world carries a schedule: each database, file-system or output
operation consumes one event — succeed, fail (having done part of its work), fail with
SQLite's automatic rollback, or die (having done part of its work).  Theorems quantify
over all schedules unless they say otherwise.

*Oracles.* External algorithms and inputs are fields of the class `Env`, universally
quantified: the hash `blake3` (any function from bytes to 32 bytes), the gear table, how the
operating system portions reads, inode numbers and clock, glob matching, line diffs,
lossy UTF-8 conversion, the text of a patch and of a CBOR value, the cache directory, the stack depth.
Nothing is assumed about them beyond their types unless a theorem says so.  The hash is
*not* assumed injective (it cannot be): theorems that need it assume `no_coll (w_hashed
w)`, that no two different byte strings *hashed so far* collide, a statement about a
finite ghost log.

*Reachability.* `reachable w`: reached from an empty machine by running any commands
under any faults, with any change of files, current directory and cache directory in
between.  `working w`, `session w`: inside one process.

## 2. Simplifications

- Symbolic links other than dangling ones are not in the file system; hard links are not
  either (no two locations share an inode by construction, but nothing assumes inodes to
  be distinct unless stated: `triples_ok`).
- The bytes of the database files are not modelled, only their tables; a database file is
  an empty file for the file-system calls.  `VACUUM`, journal files and corruption are not
  modelled.
- `HashMap` iteration order is fixed to insertion order; no theorem claims an order that
  depends on it.
- Single processes (`run_process`) run alone.  Interleaving is in `Lock.v` for the
  repository database only: each process has its own files and cache; processes start with the
  repository open; `init` is left out, and so are statements outside a transaction.
- Directory enumeration follows the order of the file-system list, which is arbitrary.
- The contents of files do not change during one operation of the program.
- `gearhash` is its scalar algorithm.  64-bit arithmetic wraps as in the code; debug
  assertions and overflow checks are on (debug build).
- What the program prints is a list of events (a tag and byte-string arguments);
  `Screen.v` gives their text without colours.  The text of errors is modelled where
  it is fixed by the program itself (`error_message`); Rust's quoted form of strings and paths is an arbitrary function.  Logging is not modelled.
- Command-line parsing (structopt) is not modelled except key arguments (`keyish.rs`);
  commands start with parsed arguments.
- Permissions, disk quotas, time zones, signals other than being killed are only present
  as "the operation fails".
- Decoding of CBOR laid out differently from what the program writes is an oracle.

## 3. Properties

### C01 — base32 round trip (proved)

*Modelled:* `base32.rs` on bit lists. *Proof:* induction on groups of five bits.

Theorems: `C01_base32_roundtrip`, `C01_bits_are_bits`, `C01_bits_length`.

### C02 — base32 text format (proved)

*Modelled:* `base32.rs`. *Proof:* induction on the text; the alphabet as a decision table in `SpecKey.v`.

Theorems: `C02_text_length`, `C02_text_content`, `C02_accepts_exactly`, `C02_decoded_length`, `C02_case_insensitive`.

### C03 — database key codec (proved)

*Modelled:* `key.rs` codec. *Proof:* case analysis on the byte string.

Theorems: `C03_roundtrip`, `C03_accepts_exactly`, `C03_inverse`, `C03_errors`.

### C04 — printed key parses back to the same key (proved)

*Modelled:* `key.rs` printing, `keyish.rs`. *Proof:* from C01, C02.

Theorems: `C04_printed_key_parses`, `C04_printed_key_shape`, `C04_printed_key_injective`.

### C05 — key prefix search is exact (proved)

*Modelled:* `keyish.rs` ranges, bitvec addition. *Proof:* byte order = bit order = numeric order at equal lengths; ripple carry = +1.

Theorems: `C05_prefix_range_exact`, `C05_ranges_come_from_prefixes`.

### C06 — key argument parser decision table (proved)

*Modelled:* `keyish.rs`. *Proof:* case analysis; statement is a decision table.

Theorems: `C06_never_panics`, `C06_ref`, `C06_non_ascii`, `C06_empty`, `C06_unknown_prefix`, `C06_bad_character`, `C06_full_key`.

### C07 — prefix resolution (proved)

*Modelled:* `canonicalize`, range scan. *Proof:* from C05 and the table lemmas.

Theorems: `C07_prefix_resolution`, `C07_reference_resolution`.

### C08 — a full key resolves to itself (proved)

*Modelled:* `canonicalize`. *Proof:* an encoded object starts with 0xa3, which is no hash id.

The property is false of the code: refuted with a witness, and the exact behaviour (always refused with UnknownHashId 0xa3, or a panic when absent) is proved for all states.

Theorems: `C08_full_key_resolves_refuted`, `C08_full_key_of_stored_object`, `C08_full_key_of_absent_object`.

### C09 — object codec round trip (proved)

*Modelled:* `object.rs`, CBOR encoder/decoder. *Proof:* induction on values, decoder in continuation form.

Theorems: `C09_object_roundtrip`, `C09_key_is_hash_of_encoding`.

### C10 — equal keys mean equal objects (proved)

*Modelled:* same. *Proof:* injectivity of the encoding + no collision in the log.

Theorems: `C10_equal_keys_equal_objects`.

### C11 — file-item and commit codec round trip (proved)

*Modelled:* item and commit codecs. *Proof:* from the CBOR round trip.

Theorems: `C11_item_converts_exactly`, `C11_item_roundtrip`, `C11_commit_roundtrip`.

### C12 — stored objects are immutable and retrievable (proved)

*Modelled:* tables, transactions, all store calls and commands. *Proof:* relational frame (`rel R m`) over every function.

Theorems: `C12_stored_objects_stay`, `C12_commands_never_change_stored_bytes`.

### C13 — put is idempotent (proved)

*Modelled:* `put`. *Proof:* table lemmas.

Theorems: `C13_put_twice`, `C13_put_of_stored_object`.

### C14 — store integrity (proved)

*Modelled:* store calls. *Proof:* invariant: every row is keyed by the hash of its value.

Theorems: `C14_store_integrity`, `C14_session_integrity`.

### C15 — HEAD is a last-write-wins register (proved)

*Modelled:* store calls. *Proof:* refinement to a functional repository (`SpecStore.v`).

Theorems: `C15_C16_C17_store_refines_spec`, `C15_C16_C17_store_answers`, `C15_head_is_last_put`.

### C16 — reflog is an append-only history per (name, remote) (proved)

*Modelled:* store calls, reflog table. *Proof:* same refinement; ids increase.

Theorems: `C15_C16_C17_store_refines_spec`, `C15_C16_C17_store_answers`, `C16_history_is_what_was_pushed`, `C16_reflog_append_only`.

### C17 — range and existence queries (proved)

*Modelled:* store calls, range scan. *Proof:* same refinement.

Theorems: `C15_C16_C17_store_refines_spec`, `C15_C16_C17_store_answers`, `C17_between_exact`, `C17_exists_iff_get`, `C17_exists_never_asserts`.

### C18 — file data round trip (proved)

*Modelled:* `put_data`, `read_data`, gear hash with any table. *Proof:* loop invariant: denotation of buffers = bytes read; exact exceptional condition.

The unconditional round trip is false of the code: proved with the exact exceptional condition (top key buffer non-empty, the one below empty at end of input), the loss in that case is characterised, and a witness refutes the unconditional statement. Hash collisions are excluded only among the hashed inputs of the run (no_coll).

Theorems: `C18_round_trip`, `C18_halves`, `C18_lost_part`, `C18_round_trip_refuted`, `C18_reading_is_deterministic`.

### C19 — data keys do not depend on the store (proved)

*Modelled:* `put_data` on both stores. *Proof:* simulation between stores.

Theorems: `C19_key_independent_of_store`, `C19_null_store`, `C19_twice`.

### C20 — chunk size bounds (proved)

*Modelled:* chunk loop. *Proof:* invariant on sizes; witness family for short reads.

Lower bound and full-read upper bound proved; an upper bound for short reads is refuted with arbitrarily large blobs.

Theorems: `C20_blobs`, `C20_upper_bound_refuted`.

### C21 — data key is a function of the content (proved)

*Modelled:* chunk loop. *Proof:* explicit tables and reads.

The property is false of the code: refuted, with a universal statement of the dependence on read sizes for every table; what holds (small files, equal reads) is proved.

Theorems: `C21_key_depends_on_read_sizes_refuted`, `C21_blobs_depend_on_read_sizes`, `C21_small_files`.

### C22 — put_data terminates and never panics (proved)

*Modelled:* chunk loop. *Proof:* case analysis of outcomes, fuel sufficiency.

Theorems: `C22_outcomes`, `C22_succeeds`.

### C23 — interrupted reads are invisible, failed reads are reported (proved)

*Modelled:* chunk loop. *Proof:* simulation erasing interrupts.

Theorems: `C23_interrupts_invisible`, `C23_read_errors_reported`.

### C24 — insert then fetch reproduces the files (proved)

*Modelled:* `put_fs_item`, `get_fs_item` on a flat file system. *Proof:* tree denotation `DirTree.v`, induction on fuel, liveness separately.

For trees whose files survive chunking (C18; all files below 64 KiB do). Hash collisions are excluded only among the inputs hashed in the run. Also: both operations succeed when nothing fails.

Theorems: `C24_insert_fetch`, `C24_insert_succeeds`, `C24_fetch_succeeds`.

### C25 — empty directories survive insert and fetch (proved)

*Modelled:* same. *Proof:* same.

The property is false of the code: refuted with a witness; the exact set of directories recreated is proved.

Theorems: `C25_directories`, `C25_empty_directories_refuted`.

### C26 — fetch never overwrites (proved)

*Modelled:* `get_fs_item`. *Proof:* frame: files existing before stay.

Theorems: `C26_never_overwrites`.

### C27 — fetch stays inside the destination (proved)

*Modelled:* `get_fs_item`, `std::path`. *Proof:* paths with proper names stay below; crafted object as witness.

Proved for keys whose directories have proper names, which every inserted key has; refuted for crafted objects.

Theorems: `C27_stays_inside`, `C27_inserted_proper`, `C27_stays_inside_refuted`.

### C28 — excluded paths and the database folder are never stored (proved)

*Modelled:* `put_fs_item`, `filter.rs`. *Proof:* tree denotation.

Stated for put_fs_item with the filter built from any exclusions, which insert and commit call.

Theorems: `C28_stored_exactly`.

### C29 — directory key is a function of the directory's content (proved)

*Modelled:* same. *Proof:* same; witness with two orders.

Proved for equal enumeration orders; refuted with a witness otherwise.

Theorems: `C29_key_of_content`, `C29_key_of_content_refuted`.

### C30 — snapshot walk agrees with file-system walk (proved)

*Modelled:* three walks. *Proof:* all are enumerations of the same tree.

Theorems: `C30_walks_agree`, `C30_walk_lists`.

### C31 — referential integrity (proved)

*Modelled:* every command. *Proof:* closure invariant by `rel`.

Theorems: `C31_no_dangling`, `C31_reads_find`.

### C32 — no cycles: reads terminate (proved)

*Modelled:* every command. *Proof:* rank = time of hashing; reads strictly descend.

Theorems: `C32_acyclic`, `C32_reads_end`, `C32_show_and_log_end`.

### C33 — hash cache semantics (proved)

*Modelled:* `cache.rs`. *Proof:* injectivity of fixed-width encodings.

Distinct triples have distinct encodings; for any history of successful puts the lookup of every triple is the first key ever stored for it; a failing put stores nothing.

Theorems: `C33_triples_independent`, `C33_first_put_wins`, `C33_failed_put`.

### C34 — cached hash equals fresh hash (proved)

*Modelled:* `hash_fs_item`. *Proof:* right-cache invariant.

With the cache right and equal contents delivered in equal portions (steady_reads), hash_fs_item returns the key any insertion of a file with that content returns; the cache stays right for every outcome of hash_fs_item and of compare; an empty cache is right.

Theorems: `C34_hash_is_insert_key`, `C34_cache_stays_right`, `C34_compare_keeps_cache_right`, `C34_empty_cache_right`.

### C35 — modified files are detected (proved)

*Modelled:* `compare`. *Proof:* from C34; witness.

Proved under a right cache: a common file is listed as modified iff contents differ. Without it refuted by a witness: rewrite with same size, inode and second after a comparison.

Theorems: `C35_modified_iff_content_differs`, `C35_stale_cache_refuted`.

### C36 — compare lists exactly the additions and modifications (proved)

*Modelled:* `compare` on stored trees. *Proof:* characterisation of the path maps, insertion sort.

Added and modified lists are exact, sorted and free of duplicates for every successful comparison of stored trees; every inserted tree satisfies the hypothesis (tidy).

Theorems: `C36_stored_trees_exact`, `C36_inserted_trees_tidy`.

### C37 — compare reports deletions (proved)

*Modelled:* `compare`. *Proof:* case analysis of the index panics.

False of the code: refuted with witnesses. Proved instead: no success ever reports a deletion, success implies nothing is missing, and comparing readable stored trees panics exactly when something is missing.

Theorems: `C37_no_deletion_reported`, `C37_success_means_none_missing`, `C37_panics_iff_missing`, `C37_deletion_refuted`, `C37_deleted_file_refuted`.

### C38 — compare hashes the files it compares (proved)

*Modelled:* `compare`. *Proof:* same.

False of the code unless the compared directory is the current one: exact behaviour proved, correctness in the current directory proved, two refutations (wrong key; panic).

Theorems: `C38_added_key_from_cwd`, `C38_added_key_right_in_cwd`, `C38_added_key_refuted`, `C38_added_file_panic_refuted`.

### C39 — a clean status means an identical working tree (proved)

*Modelled:* `compare` with files. *Proof:* from C34, C36, C24.

Proved under a right cache up to one exception that is refuted by a witness: a file replaced by a directory is reported clean.

Theorems: `C39_clean_means_same`, `C39_same_means_clean`, `C39_file_to_directory_refuted`.

### C40 — show and log work on every commit (proved)

*Modelled:* `display.rs`, `diff.rs` patches. *Proof:* exact success condition of `display_obj`; whole-process witnesses.

False as stated: refuted at the level of whole processes (a changed subdirectory, a deleted file, a non-UTF-8 file). Proved: the exact condition under which a commit can be shown.

Theorems: `C40_show_exactly`, `C40_show_snapshots`, `C40_deleted_path_panics`, `C40_changed_subdirectory_refuted`, `C40_deleted_file_refuted`, `C40_binary_file_refuted`.

### C41 — simplified diff is the set of topmost paths (proved)

*Modelled:* `simplify`. *Proof:* induction on a list in path order.

For every comparison result in path order (C36/C37 prove comparisons produce such results).

Theorems: `C41_topmost_added`, `C41_topmost_deleted`, `C41_modified_untouched`.

### C42 — patch hunks contain every changed line once, in order (proved)

*Modelled:* hunk builder over any line diff. *Proof:* induction on the numbered lines.

Header counts refuted; proved that every count leaves out exactly the last line of its hunk. Context is up to 3 lines after and 5 lines before a change. The line diff itself (difference crate) is an oracle.

Theorems: `C42_hunks`, `C42_changed_lines`, `C42_counts_refuted`.

### C43 — line statistics (proved)

*Modelled:* statistics. *Proof:* direct.

The line diff and the lossy UTF-8 conversion are oracles.

Theorems: `C43_statistics`, `C43_printed`.

### C44 — commit object is independent of parent order (proved)

*Modelled:* `commit_tree`. *Proof:* sorting is independent of order.

Assumes no hash collision among hashed inputs; attributes must be encodable (shorter than 2^64).

Theorems: `C44_parent_order`, `C44_commit_stored`.

### C45 — the commit command extends the named branch (proved)

*Modelled:* commit command. *Proof:* composition.

For every reachable world, whatever the fault schedule: when the command returns successfully the stored commit, its tree (content equal to the snapshot of the path), message and parents are as stated, and the other branches and HEAD are unchanged. Hash collisions are excluded only among the inputs hashed so far.

Theorems: `C45_commit_command`, `C45_branches`.

### C46 — status right after commit is clean (proved)

*Modelled:* commit then status, also across processes. *Proof:* from C39, C45.

Inside one process and for the next process; for trees whose files survive chunking and with no faults in the second command.

Theorems: `C46_status_after_commit`, `C46_next_process`.

### C47 — log follows first parents to the root (proved)

*Modelled:* `log_obj`. *Proof:* induction on the line of first parents; termination from C32.

Headers are counted when all objects in the line of first parents have the type commit. Termination for every reachable repository (with fuel above the number of objects).

Theorems: `C47_log_first_parents`, `C47_log_succeeds`, `C47_log_ends`.

### C48 — commands are atomic (proved)

*Modelled:* `main` under every fault schedule. *Proof:* case analysis of BEGIN/COMMIT/ROLLBACK.

Proved for every schedule in which BEGIN succeeds and no read triggers SQLite's automatic rollback; the two exceptional cases are refuted with witnesses (the program ignores a failing BEGIN and does not notice an automatic rollback).

Theorems: `C48_all_or_nothing`, `C48_failure_changes_nothing`, `C48_when_killed`, `C48_begin_fails_refuted`, `C48_auto_rollback_refuted`.

### C49 — success is durable (proved)

*Modelled:* `main`. *Proof:* same.

The unconditional statement is false of the code (a refused COMMIT is ignored): refuted with a witness; proved when COMMIT is not refused.

Theorems: `C49_success_durable`, `C49_commit_refused_refuted`.

### C50 — failure is visible in the exit status (proved)

*Modelled:* `main`, exit status. *Proof:* same.

The property is false of the code: refuted with a witness, and the exact behaviour (errors exit 0, panics exit 101) is proved.

Theorems: `C50_failure_exits_zero`, `C50_visible_refuted`, `C50_panic_visible`.

### C51 — checkout-head moves HEAD only from a clean tree (proved)

*Modelled:* checkout-head. *Proof:* composition; the comparison is stated by its lists.

HEAD moves only when the comparison printed nothing; refs and files otherwise unchanged. An unexpected way of moving HEAD (comparison error swallowed) is recorded as refuted.

Theorems: `C51_only_if_clean`, `C51_nothing_else`, `C51_error_refuted`.

### C52 — checkout refuses safely outside the blessed directory (proved)

*Modelled:* checkout. *Proof:* frame with at most one touched file.

False of the code: refuted with a witness (a file is emptied, then the process panics). Proved instead, for all faults: outside the blessed directory at most one file is created empty or emptied, and nothing changes on success.

Theorems: `C52_outside`, `C52_truncated_refuted`.

### C53 — successful checkout reproduces the snapshot (proved)

*Modelled:* checkout, commit. *Proof:* exact outcome at every location, induction on fuel.

Exact outcome of a successful checkout for every location, restoring of snapshots, and the commit/checkout commands end to end. That excluded files are untouched is refuted twice (inside an extra directory; in the snapshot). Liveness only by example.

Theorems: `C53_checkout`, `C53_regular`, `C53_restores`, `C53_commit_checkout`, `C53_excluded_refuted`, `C53_excluded_overwritten_refuted`.

### C54 — checkout recreates missing directories (proved)

*Modelled:* checkout. *Proof:* same.

False of the code: refuted with a witness; proved instead: success implies that every directory of the tree was there before.

Theorems: `C54_directories_needed`, `C54_missing_directory_refuted`.

### C55 — re-running init is harmless (proved)

*Modelled:* init. *Proof:* frame; witness.

Objects and log kept; HEAD preservation refuted with a witness.

Theorems: `C55_init_keeps`, `C55_head_kept_refuted`.

### C56 — repository discovery finds the nearest enclosing repository (proved)

*Modelled:* discovery. *Proof:* induction on ancestors.

Theorems: `C56_nearest`, `C56_absolute`, `C56_always_answers`, `C56_place`.

### C57 — query commands do not change history (proved)

*Modelled:* all queries. *Proof:* frame.

Queries keep the whole database; status, compare, insert keep refs and only add objects; checkout-head and set-head only change HEAD.

Theorems: `C57_queries`, `C57_only_adds`, `C57_only_head`.

### C58 — concurrent commands are serialisable (proved)

*Modelled:* `Lock.v`: any number of processes cut into statements, SQLite rollback-journal locks. *Proof:* every command is a script of statements (`ScriptFacts.v`); invariant `sys_ok`: each process replays alone from the database at its serialisation point.

Any number of processes, any interleaving the locks permit, any failures: the database is the serial result of the committed ones, and every ended process behaved as if alone at one place of that order. At no time do two processes hold the write lock, and its holder also holds the read lock (C58_one_writer). Processes start with the repository open; they share the repository database only (own files and cache); init and statements outside a transaction (BEGIN refused, automatic rollback) are not scheduled. Durability refuted: COMMIT refused because of a reader ends with status 0.

Theorems: `C58_serialisable`, `C58_one_after_another`, `C58_one_writer`, `C58_commit_lost_refuted`.

### C59 — ref update and reflog-push add exactly one entry (proved)

*Modelled:* ref update, reflog-push. *Proof:* composition.

Effect and success of both commands at command level.

Theorems: `C59_ref_update`, `C59_ref_update_succeeds`, `C59_reflog_push`, `C59_reflog_push_succeeds`.

### C60 — ref log prints the whole branch in order (proved)

*Modelled:* ref log, reflog-get. *Proof:* composition.

Printed lines in order; success when nothing fails.

Theorems: `C60_ref_log`, `C60_ref_log_succeeds`, `C60_reflog_get`, `C60_reflog_get_succeeds`.

### C61 — HEAD set by one process is seen by the next (proved)

*Modelled:* set-head, get-head. *Proof:* composition, across processes.

Command level, and from one process to the next.

Theorems: `C61_set_head`, `C61_get_head`, `C61_succeed`, `C61_head_kept`.

### C62 — insert prints the key of the snapshot (proved)

*Modelled:* insert. *Proof:* composition.

The printed key is that of the snapshot (in terms of put_fs_item); what a snapshot contains is C24-C30.

Theorems: `C62_insert`.

### C63 — status and compare print exactly the differences (proved)

*Modelled:* status, compare. *Proof:* from C36–C39, C41.

Exact output of status, compare and compare --stat for tidy trees; every tree made by a commit is tidy (C63_head_tidy). A comparison with deleted files panics (C37). The "no commits" line is refuted.

Theorems: `C63_status`, `C63_compare`, `C63_compare_stat`, `C63_head_tidy`, `C63_no_commits_refuted`.

### C64 — repositories do not influence each other (proved)

*Modelled:* two repositories, shared cache. *Proof:* whole-process witness.

Refuted with two nested repositories.

Theorems: `C64_shared_cache_refuted`.

### C65 — what insert printed can be fetched (proved)

*Modelled:* insert then fetch. *Proof:* from C24, C12.

Any commands in between; the argument must stand for the key. With the printed key itself: refuted.

Theorems: `C65_insert_then_fetch`, `C65_fetch_succeeds`, `C65_printed_key_refuted`.

### C66 — commits made by commit-tree can be shown and logged (proved)

*Modelled:* commit-tree, log, show. *Proof:* whole-process witness.

Refuted.

Theorems: `C66_parent_not_a_commit_refuted`.

### C67 — walk-tree prints every path of the tree once (proved)

*Modelled:* walk-tree. *Proof:* from C36.

For tidy trees; the order of the lines is that of a hash map and not claimed.

Theorems: `C67_walk_tree`.

### C68 — odd directory entries do not make commands panic (proved)

*Modelled:* insert, filter. *Proof:* witnesses.

Refuted; an invalid pattern always panics.

Theorems: `C68_dangling_link_refuted`, `C68_bad_pattern`.

### C69 — show and log print exactly the commits, files and lines they should (proved)

*Modelled:* `display.rs`, printing in `diff.rs`, `show` and `log`. *Proof:* output of each function as a list of lines determined by the store (`reader`), composed from C36, C42, C43 and C70.

The text of one patch is a parameter of the model (`show_patch`), as is the line diff.

Theorems: `C69_lines`, `C69_show`, `C69_log`, `C69_show_commit`, `C69_final_newline_refuted`.

### C70 — a repository only contains well-formed objects of the right kinds, and all of it can be read (proved)

*Modelled:* every command under every fault schedule. *Proof:* typed-store invariant by Hoare triples with framing (`ShapeFacts.v`), then induction on the depth of objects (`ShapeTop.v`).

The hash log of the machine is assumed free of collisions. File systems met by the processes have unique proper names (`fs_ok`).

Theorems: `C70_well_shaped`, `C70_started`, `C70_readable`, `C70_show`, `C70_log`, `C70_commit_tree_refuted`, `C70_reference_refuted`.

### C71 — Commands succeed exactly when they should (proved)

*Modelled:* Main.run_process, Main.cmd_insert, cmd_commit, cmd_status, cmd_compare, cmd_checkout_head, cmd_init, setup; the conditions are in SpecLive.v (can_store, comparable, repository_at, no_repository, quiet_disk).. *Proof:* LiveFacts.v: storing and listing a directory succeed exactly under `listable` and `text_names` (induction on the depth). LiveDiff.v: comparison. LiveCmd.v: the commands, by running them without faults. LiveStart.v: starting, ending, init..

status, compare and checkout-head are for machines used sensibly (C70), with no hash collision, a stack deep enough for the objects and a readable cache; init is a sufficient condition only.

Theorems: `C71_insert`, `C71_commit`, `C71_status`, `C71_compare`, `C71_checkout_head`, `C71_process`, `C71_starts`, `C71_init`.

### C72 — A commit can be checked out again (proved)

*Modelled:* Main.run_process with CCommit and CCheckout; the conditions are in SpecLive.v (can_store, repository_at, room_for, left_alone) and SpecCheckout.v (can_checkout, in_home).. *Proof:* LiveCheckout.v: checking a tree out succeeds exactly when it is `ready` (induction on the depth). LiveStory.v: the command, and commit followed by checkout, with C53 (what checkout leaves), C24 (what is stored) and C71 (commit succeeds)..

For machines used sensibly (C70), no hash collision, a stack deep enough for the objects; between the two processes only files change, not the database.

Theorems: `C72_checkout`, `C72_story`.

### C73 — compare --stat succeeds exactly when it should (proved)

*Modelled:* Main.run_command with CCompare; the conditions are in SpecLive.v (comparable, no_file_for_dir, cache_kept, one_store).. *Proof:* LiveStat.v: every key in the report is that of a stored file, so counting its lines works; only a directory in the tree under the path of a file does not. LiveCache.v: the cache invariant through setup, each command and COMMIT of both databases, by induction over the processes..

For machines used sensibly (C70), no hash collision, a stack deep enough for the objects.

Theorems: `C73_compare_stat`, `C73_cache_kept`, `C73_one_store`, `C73_file_for_directory_refuted`, `C73_refused_commit_refuted`.

### C74 — pretty-print shows the whole object (proved)

*Modelled:* Pretty.pretty_print line by line, called from Main.cmd_pretty_print; [Debug] of a serde_cbor value or error is the oracle debug_cbor. The text is specified in SpecPretty.v (spelled, dumped, listed, keys_shown, pictured).. *Proof:* PrettyFacts.v: the lines written satisfy the specification (division with remainder for the digits, induction over the chunks); reading back cuts the text at line feeds, which no line before the last section contains, and at the closing lines, which no key or data line equals..

[writeln!] of one line is one operation; colours do not occur in this command.

Theorems: `C74_pretty_print`, `C74_succeeds`, `C74_text_determines`.

### C75 — exactly when fetch, show and the other read commands succeed (proved)

*Modelled:* Dir.get_fs_item, Commit.display_obj, Dir.walk_real_fs_items and the commands of Main.v. SpecFetch.v states what room is (room, can_fetch), what fetching makes (fetched), what can be shown (viewable) and listed (walkable_at).. *Proof:* LiveFetch.v: induction over the depth of the tree for both directions; the rooms of the entries of one directory do not disturb each other because their names differ (kid_room). LiveRead.v adds the arguments, show, the reference commands and walk-fs-tree..

fetch: the destination is a path of plain names, as typed without . or ..; for other destinations see C24, C26 and C65. Success of show needs one more level of stack than the number of objects.

Theorems: `C75_fetch`, `C75_fetched`, `C75_walk_tree`, `C75_show`, `C75_commit_tree`, `C75_ref_update`, `C75_reflog_push`, `C75_ref_log`, `C75_reflog_get`, `C75_get_head`, `C75_walk_fs_tree`, `C75_walk_fs_listed`.

### C76 — the text on the screen (proved)

*Modelled:* Screen.v: the format strings (render) and all text printed so far (screen); World.v/Main.v/Diff.v/Commit.v give the events. SpecScreen.v states the texts with its own number notation (number_text), paths (slashed) and lines (text_of_lines).. *Proof:* ScreenFacts.v: the event theorems C60-C64, C67, C69 and C74 composed with render; digits against number_text by induction; the texts determine their contents because no line contains a line break and titles are not indented..

Colours and the text of errors are not modelled; the quoted form of a string or path (Debug) is an arbitrary function. The order of the lines of walk-tree is that of a hash table.

Theorems: `C76_insert`, `C76_reflog_get`, `C76_ref_log`, `C76_ref_log_determines`, `C76_get_head`, `C76_pretty_print`, `C76_status`, `C76_compare`, `C76_compare_stat`, `C76_report_determines`, `C76_report_refuted`, `C76_log`, `C76_show_file`, `C76_show_stored`, `C76_walk_tree`.

### C77 — debug commit-tree makes the commit it was asked for (proved)

*Modelled:* Main.cmd_commit_tree, Commit.commit_tree; SpecOut.denotes for arguments, is_commit for what is stored.. *Proof:* ScreenFacts.v, commit_tree_makes: reading the arguments only reads; sort gives a sorted permutation; the object stored decodes to the commit (no collision among the hashed data)..

Theorems: `C77_commit_tree`, `C77_first_parent_refuted`.

### C78 — on an honest file system the cache is always right and status says exactly what was edited (proved)

*Modelled:* SpecHonest.v: honest (histories of processes and edits on which triples determine contents), edits (in terms of the two file systems only). The model is that of C34, C71 and C76.. *Proof:* HonestFacts.v: invariant over processes that every line of the cache is a triple with the hash of its content, kept by every command and every failure; then C63/C76 for what is printed, C71 for success, and injectivity of hashes on the log to turn keys into contents..

A directory in the place of a file is not reported (C39), and removed files make status panic (C37), so both are excluded or left open in the statement.

Theorems: `C78_cache_right`, `C78_status`, `C78_compare`, `C78_compare_stat`, `C78_story`, `C78_clean`, `C78_found`.

### C79 — an old commit can be restored, whatever happened since (proved)

*Modelled:* SpecRestore.v: restored (the files afterwards in terms of the two file systems only), taken_for, stands_in; the model is that of C44, C71 and C72.. *Proof:* RestoreFacts.v: objects are never removed or changed (C44) and the hash log only grows, so the snapshot of the commit can be read ever after; C72's condition for checkout is met because there is room; ref update pushes the key (C53); then the contents come from injectivity of hashes on the log..

For machines used sensibly (C70), no hash collision on the machine, a stack deep enough for the objects, HEAD's name text, the repository below the hard-coded path. A full key does not stand for its commit (C08), a prefix does.

Theorems: `C79_restore`.

### C80 — a command that finds nothing says so, and only then (proved)

*Modelled:* Main.v: error_message; Screen.v. SpecFatal.v: trouble (the reasons, in terms of HEAD, histories and stored keys), needs_repository, the texts.. *Proof:* FatalFacts.v: every function but the few that look up keys and references raises only errors whose text is left open; FatalCmd.v: the others raise theirs exactly in the situations of the specification, then the end of the process as in C49 and C50..

C80_why is about all failures, C80_says and C80_outside about runs without failures. The exit status 0 is that of C50.

Theorems: `C80_typed`, `C80_why`, `C80_says`, `C80_outside`.

### C81 — a branch is the ancestry of its newest commit (proved)

*Modelled:* SpecBranch.v: grown (machines on which nobody set the branch by hand), linked (each entry a commit with the next one as its only parent).. *Proof:* BranchFacts.v: linked holds of every database and of the open transaction, and is preserved by every store primitive; commit reads the newest entry and pushes a commit with that parent while nothing else pushes. C81_log combines it with C76..

C81_by_hand_refuted shows that the condition is needed: after ref update to an older commit that one is an entry twice.

Theorems: `C81_linked`, `C81_ancestry`, `C81_never_lost`, `C81_log`, `C81_by_hand_refuted`.

### C82 — commits made at the same time are all kept (proved)

*Modelled:* SpecBranch.v: hands_off, made_by, complained, next to linked and grown of C81; processes and interleavings as in C58.. *Proof:* TogetherFacts.v: by C58 the processes that committed can be put in an order in which each ran alone; one process alone keeps the branch or puts one commit of its own on top of it (relation tg, over one log of hashed contents for all processes); one for which nothing failed does the latter..

That nothing failed is needed: a process whose COMMIT is refused says nothing (C58_commit_lost_refuted).

Theorems: `C82_all_kept`.

### C83 — checkout-head moves HEAD exactly when nothing was edited (proved)

*Modelled:* The command in Main.v and its text in Screen.v; SpecHead.v: moves_head; machines, edits and unedited files as in C78.. *Proof:* HeadFacts.v: the comparison reports nothing exactly when it is empty (kept_some: simplification drops no whole list), the two branches of the command with what they write and print (head_run, head_says), the text (head_shows); then the story of C78 with the liveness of checkout-head (checkout_head_exactly)..

The hypotheses on the edits are those of C78; without them the program panics or fails (C37, C38).

Theorems: `C83_command`, `C83_story`.

### C84 — status tells the edits since the newest commit, and after a checkout none (proved)

*Modelled:* The commands in Main.v and their text in Screen.v; edits and unedited files as in C78 (SpecHonest.v), restored files and directories as in C79 (SpecRestore.v), runs as in C32 (later).. *Proof:* CleanFacts.v: status on a machine where HEAD's newest commit is a snapshot (snapshot_status, from status_exactly, honest_status and diff_edits); the commit stays whatever happens later (commit_stays); what was restored is unedited (restored_unedited: files from their contents, directories from the directories of the outcome)..

The hypotheses on the edits are those of C78. After the checkout the files have new times and inodes; that these conform to T, that the new files survive chunking (C18) and that the disk is quiet are hypotheses on the machine.

Theorems: `C84_status_since`.

### C85 — committing the same files again stores nothing but the commit (proved)

*Modelled:* The commit command in Main.v with the store of Store.v; what there is to commit, its order and the rows added in SpecAgain.v.. *Proof:* AgainFacts.v: what a file system shows depends only on what is included (shows_same, by induction on the tree); so the same objects are put in the same order (put_fs_item_done); every put leaves a row (puts_rows), rows stay (later_grows), and a put whose row is there changes nothing (puts_again); the commit object itself is one more row (commit_rows). Success is commit_exactly (C71)..

That no row but the commit's is added needs no assumption on hashes; that both commits are of the same tree assumes that no two of the values hashed so far have the same hash. The order of enumeration matters: C29 has two orders of the same files with different keys.

Theorems: `C85_commit_again`.

### C86 — show tells what a commit changed, however long ago it was made (proved)

*Modelled:* The commands in Main.v, display_obj in Commit.v, the patch in Diff.v; new and changed files and the patch about them, in terms of the file systems of the two moments only, in SpecHistory.v.. *Proof:* HistoryFacts.v: both trees are snapshots that stay stored (commit_stays, later_grows); what is in them are the committed files (snapshot_tree) with their bytes (snap_bytes); directories with the same contents have the same keys (same_keys, by shows_below and stored_fun), so the changes are presentable and show succeeds (show_exactly_all, C75); the text of show about keys (C69) is translated to files (files_text), with equal contents and equal keys going together (hashed_fun, hashed_inj)..

Assumes that no two of the values hashed so far have the same hash, that the files survive chunking (C18), that reads return the same pieces whenever a file is read (else the same content may get another key, C21), and a stack as deep as there are objects.

Theorems: `C86_show_history`.

### C87 — log tells the story of a branch (proved)

*Modelled:* The commands in Main.v, log_obj and display_obj in Commit.v, the statistics in Diff.v; the commits with the files they were made of (chronicle) and the text about them, in terms of those file systems only, in SpecChronicle.v and SpecHistory.v.. *Proof:* ChronicleFacts.v: by induction over the commits, each of them and its tree stay stored and its parent is the one before (chronicle_kept, by commit_stays); so they are the lineage of the last (kept_lineage), all can be presented (kept_presents) and log succeeds (log_command, C70); its text about keys (log_prints_all, C69) is translated to files commit by commit (kept_text, files_counted)..

Assumes that no two of the values hashed so far have the same hash, that the files survive chunking (C18), that reads return the same pieces whenever a file is read (else the same content may get another key, C21), and a stack and a loop bound that cover the number of objects.

Theorems: `C87_log_history`.

### C88 — what was inserted can be compared with and fetched, whatever happened since (proved)

*Modelled:* The commands in Main.v, put_fs_item and get_fs_item in Dir.v, the comparison in Diff.v; the edits in terms of the two file systems only in SpecHonest.v, the files that fetch makes in SpecInsert.v.. *Proof:* InsertFacts.v: the insert succeeds and its snapshot stays readable at every later time (insert_stays, by C74, C65 and the growth of the store); an argument that stands for it names an item (taken_item); compare then succeeds (C74) and what it prints (C78, honest_compare) is translated to files (diff_edits); fetch succeeds when nothing is in the way (C75), and what it makes are the leaves of the tree (made_tree), which are the inserted files (snapshot_files)..

Assumes that no two of the values hashed so far have the same hash, that the files survive chunking (C18), that reads return the same pieces whenever a file is read, and for compare that equal cache keys always meant equal contents (see C78).

Theorems: `C88_inserted`.

### C89 — switching branches brings the files of the other branch, and only from a clean tree (proved)

*Modelled:* The commands in Main.v, checkout_fs_item in Dir.v, the comparison in Diff.v; a commit made of files (commits_here) in SpecChronicle.v, the edits in SpecHonest.v, the restored files in SpecRestore.v, what happens to the references in SpecHead.v.. *Proof:* SwitchFacts.v: both trees stay stored (commit_made, C87); checkout-head succeeds (C71) and compares the files with the first (snapshot_head, by C83); the reflog is unchanged, so the other commit is the newest of the new HEAD's branch, and checkout restores it (snapshot_back, C79); what is restored is unedited, so status says nothing (snapshot_status, restored_unedited, C84)..

Assumes that no two of the values hashed so far have the same hash, that the files survive chunking (C18), that reads return the same pieces whenever a file is read, and that equal cache keys always meant equal contents (see C78).

Theorems: `C89_switch`.

### C90 — which commands never panic, and exactly when log does (proved)

*Modelled:* All commands in Main.v, run_process with its exit statuses; the commands (undemanding) and the histories (loggable) in SpecPanic.v.. *Proof:* SparedFacts.v: a logic of actions that never crash without a fault, for every function. PanicFacts.v: a logic of actions that do not panic (fine) or, from a started process, end with Done or Error; the reads succeed because a well-used store is typed (C70) and closed (C36); log by C70_log; log that does not show everything can only panic, because it always ends (Ends.v) and after its key has been resolved it reports no error..

Assumes that no two of the values hashed so far have the same hash, and a stack and loop bound greater than the number of objects. How show ends is in C92.

Theorems: `C90_killed`, `C90_status`, `C90_log`.

### C91 — it makes no difference how a thing is named or that it is left out (proved)

*Modelled:* parse_keyish in Keyish.v, canonicalize in Store.v, the commands in Main.v; copied letters, commands with another key and requests that differ in what is left out (same_request) in SpecNaming.v.. *Proof:* NameFacts.v: letters from C05; resolving any key argument is one query that changes nothing but the operation counter, so the rest of the run starts in the same state (canon_same). Leaving something out changes the number of operations: PaceFacts.v shows function by function that the commands concerned behave the same at any operation count (paced), given steady reads..

left_out assumes that reads return the same pieces whenever a file is read (otherwise the keys of large files depend on the pieces, C21), and that HEAD is UTF-8.

Theorems: `C91_letters`, `C91_named`, `C91_parents`, `C91_left_out`.

### C92 — how show ends (proved)

*Modelled:* display_obj in Commit.v, compare and create_diff_patch_result in Diff.v, run_process in Main.v; viewable in SpecFetch.v, brings_binary in SpecReport.v.. *Proof:* ReportFacts.v: outcomes of read-only calls depend on the database only (Reader.v), so each call has one outcome; compare panics or gives the differences (C34); the new files are read first and each is read, or is not text; whatever comes after that can only panic (PanicFacts.v); showing always ends (Ends.v)..

Assumes that no two of the values hashed so far have the same hash, and a stack greater than the number of objects plus one.

Theorems: `C92_show`.

### C93 — how storing files ends (proved)

*Modelled:* put_fs_item in Dir.v, filter_fn in Filter.v, run_process in Main.v; oddity, odd_name, says_fatal and does_it in SpecStoring.v.. *Proof:* StoringFacts.v: by induction on the recursion of put_fs_item, each outcome says something about the files below (tells); success says that nothing was in the way (put_needs in LiveFacts.v); an error reaches the main function, which prints it (FatalFacts.v), and a panic does not (PanicFacts.v)..

Assumes sizes below 2^62, and that nothing is nested deeper than the stack allows.

Theorems: `C93_storing`.

### C94 — how comparing files with a tree ends (proved)

*Modelled:* compare in Diff.v, walk_real_fs_items and hash_fs_item in Dir.v, run_process in Main.v; looks_at, strange, nowhere, lost and astray in SpecLooking.v.. *Proof:* LookingFacts.v: by induction on the recursion of internal_walk_real_fs_items each outcome says something about the files below (warns); then hashing a new file either succeeds or the file is not found from here, a deleted entry panics, and hashing a file of both always succeeds (tail_ends)..

Assumes that no two of the values hashed so far have the same hash, a stack as in C71, sizes below 2^62, and that nothing is nested deeper than the stack allows.

Theorems: `C94_looking`.

### C95 — how compare --stat ends (proved)

*Modelled:* compare and print_stat_diff_result in Diff.v, run_process in Main.v; looks_at, strange, nowhere, lost and astray in SpecLooking.v, no_file_for_dir in SpecLive.v.. *Proof:* StatFacts.v: up to the printing it is the proof of C94; the printing neither diverges (Ends.v) nor returns an error (PanicFacts.v), and it succeeds exactly if no file stands for a directory (C73)..

Assumes what C73 assumes (no two values hashed have the same hash, a cache with files of this database only, sizes below 2^62) and that nothing is nested deeper than the stack allows.

Theorems: `C95_counting`.

### C96 — how checkout ends (proved)

*Modelled:* checkout_fs_item in Dir.v, cmd_checkout and run_process in Main.v; can_checkout in SpecCheckout.v, does_it and says_fatal in SpecStoring.v.. *Proof:* CheckoutEnds.v: the database folder stays where it is and no link that leads nowhere appears through every removal, creation and write (safe_*), so the filter always finds what it asks for; the assertion holds because the path stays below the directory; checkout_safe is by induction on the depth. Which of the two it is comes from C72..

Assumes what C72 assumes (no two values hashed have the same hash, nothing nested deeper than the stack allows). Outside of the hard-coded directory see C53.

Theorems: `C96_checkout_ends`.

### C97 — how walk-fs-tree ends (proved)

*Modelled:* walk_real_fs_items in Dir.v, cmd_walk_fs_tree and run_process in Main.v; walkable_at in SpecFetch.v, does_it and says_fatal in SpecStoring.v.. *Proof:* WalkEnds.v: all_tells, by induction on the depth: each way in which the walk can end tells something about the files below. Success is as in C75..

A stack overflow is an exit status of None (killed); see C90.

Theorems: `C97_walk_ends`.

### C98 — commands that do not walk files always come to an end (proved)

*Modelled:* run_command and main in Main.v; recursion has fuel (stack, loop_bound), and running out of it is the outcome Diverged; walks_files in SpecReturn.v.. *Proof:* Returns.v: calls that read or write once return; the recursions go along references between stored objects, and these are complete and without cycles (C32), so that they are no longer than the number of objects (Ends.v); checkout changes files only, never the objects it goes along..

The other commands walk through directories: C93, C94, C95 and C97 say when they end.

Theorems: `C98_returns`, `C98_process`.


## 4. Testing the theorems against wrong programs

`seeded/LOG.jsonl` has one line per attempt: in a scratch copy one definition of the model
is edited as a realistic bug would, everything depending on it is rebuilt, lemmas whose
proofs no longer go through are admitted there, and the property theorems that thereby
lose their proof are listed.  A theorem whose English claim the edit breaks and that kept
its proof was tightened (noted in the line).

## 5. Trusted base

- The Coq 8.16.1 kernel (`coqc`, `coqchk`), including its virtual machine for
  `vm_compute` in examples and witnesses.
- Axioms: none.  `Print Assumptions` says "Closed under the global context" for every
  theorem in the `Props*.v` files.  (`coqchk` lists the declarations of
  `Coq.ssr.ssrunder.Under_rel` as axioms of a loaded standard library file; no theorem
  depends on them.)
- That the model follows the code: `Base32.v`, `Key.v`, `Keyish.v`, `Cbor.v`,
  `Object.v`, `Path.v`, `World.v`, `Store.v`, `File.v`, `Filter.v`, `Dir.v`, `Diff.v`,
  `Commit.v`, `Pretty.v`, `Screen.v`, `Main.v`, `Lock.v` were written by reading the sources and the
  documentation of the libraries from memory; nothing was extracted or run.
- Modelled: every function of `base32.rs`, `cache.rs`, `commit.rs`, `diff.rs`,
  `dir.rs`, `display.rs`, `file.rs`, `filter.rs`, `key.rs`, `keyish.rs`, `object.rs`,
  `ds/mod.rs`, `ds/null.rs`, `ds/sqlite.rs`,
  and of `main.rs` all but argument parsing and log setup.
- Not modelled: `lib.rs` (re-exports), `structopt`, `simplelog`/`log`, the internals of
  SQLite, blake3, globset, difference, diff, patch, bitvec except addition, and the
  simplifications of section 2.
