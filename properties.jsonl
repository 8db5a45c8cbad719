{"id": "C01", "title": "base32 round trip", "statement": "Decoding the base32 text of any byte string with max_len = 8 * its length yields exactly the bits of that byte string.", "quantifier": "every byte string of every length", "why_tests_cant": "the space of byte strings is infinite; proptest samples short ones", "anchors": [{"file": "src/base32.rs", "symbols": ["to_base32", "from_base32", "pop_u5_from_bitvec"]}]}
{"id": "C02", "title": "base32 text format", "statement": "to_base32 of n bytes has exactly ceil(8n/5) characters, all from a-z2-7; from_base32 ignores ASCII letter case, accepts exactly the strings whose characters (case-folded) are in that alphabet, and returns min(5*len, max_len) bits.", "quantifier": "every byte string / every input string and every max_len", "why_tests_cant": "infinitely many strings, including every byte value at every position", "anchors": [{"file": "src/base32.rs", "symbols": ["to_base32", "from_base32", "TABLE"]}]}
{"id": "C03", "title": "database key codec", "statement": "Key -> database bytes -> Key is the identity, and the parser accepts exactly the 33-byte strings whose first byte is 1, returning for every other string the documented error (empty, unknown hash id, wrong length).", "quantifier": "every key and every byte string", "why_tests_cant": "256^33 keys and arbitrarily long inputs", "anchors": [{"file": "src/key.rs", "symbols": ["Key::as_db_key", "Key::from_db_key"]}]}
{"id": "C04", "title": "printed key parses back to the same key", "statement": "Parsing the printed form of any key as a user-supplied key yields exactly that key's database bytes, printed forms have 53 ASCII characters, and different keys print differently.", "quantifier": "every key", "why_tests_cant": "256^32 keys", "anchors": [{"file": "src/key.rs", "symbols": ["Key::as_user_key"]}, {"file": "src/keyish.rs", "symbols": ["Keyish::from_str"]}]}
{"id": "C05", "title": "key prefix search is exact", "statement": "For every proper prefix text accepted by the key parser, a stored key lies in the byte range the parser computes iff the key's printed form starts with that text (letter case ignored after the first character); this includes the all-ones prefix, whose range has no upper end, and the empty prefix.", "quantifier": "every accepted prefix text and every 32-byte hash", "why_tests_cant": "boundary and carry behaviour of a 255-bit increment cannot be enumerated", "anchors": [{"file": "src/keyish.rs", "symbols": ["parse_from_base32"]}, {"file": "src/ds/sqlite.rs", "symbols": ["raw_between"]}]}
{"id": "C06", "title": "key argument parser decision table", "statement": "Parsing a key argument never panics and classifies every string: texts containing '/' are refs split at the first '/', non-ASCII texts and texts with a character outside the alphabet are invalid, the empty text is rejected as empty, a first character other than 'b' is an unknown prefix, fewer than 52 characters after 'b' give a prefix search, 52 or more give an exact key determined by the first 52.", "quantifier": "every string", "why_tests_cant": "every string", "anchors": [{"file": "src/keyish.rs", "symbols": ["Keyish::from_str", "parse_from_ref", "parse_from_base32"]}]}
{"id": "C07", "title": "prefix resolution", "statement": "Resolving a prefix against the object store returns the unique stored key with that prefix, NotFound when there is none, and Ambiguous listing exactly the stored keys with the prefix when there are several.", "quantifier": "every store content and every prefix", "why_tests_cant": "depends on every possible set of stored keys", "anchors": [{"file": "src/ds/mod.rs", "symbols": ["DataStore::canonicalize"]}, {"file": "src/ds/sqlite.rs", "symbols": ["raw_between"]}]}
{"id": "C08", "title": "a full key resolves to itself", "statement": "Resolving the complete printed key of a stored object returns that key; resolving one that is not stored reports NotFound. (The pinned code violates both halves: it looks up the object's bytes and parses those as a key.)", "quantifier": "every store content and every stored object", "why_tests_cant": "quantifies over all stored objects; the violation is for all of them, not a corner case", "anchors": [{"file": "src/ds/mod.rs", "symbols": ["DataStore::canonicalize"]}]}
{"id": "C09", "title": "object codec round trip", "statement": "Decoding the stored encoding of any object gives back the same data bytes, the same keys in the same order and the same type.", "quantifier": "every object (any data, any number of keys, any type)", "why_tests_cant": "unbounded data and key lists; length-header boundaries at 24, 2^8, 2^16, 2^32", "anchors": [{"file": "src/object.rs", "symbols": ["Object"]}, {"file": "src/ds/mod.rs", "symbols": ["DataStore::get_obj", "DataStore::put_obj"]}]}
{"id": "C10", "title": "equal keys mean equal objects", "statement": "If two objects put by the same program get the same key then they are the same object, or the hash function has collided on the two encodings themselves.", "quantifier": "every pair of objects and every hash function", "why_tests_cant": "needs injectivity of the encoding over all objects", "anchors": [{"file": "src/ds/mod.rs", "symbols": ["DataStore::put_obj", "DataStore::hash"]}]}
{"id": "C11", "title": "file-item and commit codec round trip", "statement": "Converting a file or directory item, or a commit, into an object and back yields the same size, type, child names, child keys / tree, parents and message.", "quantifier": "every item and every commit with valid UTF-8 text", "why_tests_cant": "unbounded lists of names and keys", "anchors": [{"file": "src/dir.rs", "symbols": ["FSItem", "TryInto<Object> for FSItem", "TryInto<FSItem> for Object"]}, {"file": "src/commit.rs", "symbols": ["Commit", "CommitAttrs"]}]}
{"id": "C12", "title": "stored objects are immutable and retrievable", "statement": "After put_obj returns key k, get_obj k returns that same object in every later state, whatever sequence of store operations, faults, commits and crashes after the commit follows; no operation ever changes or removes the bytes stored under a key.", "quantifier": "every object, every later sequence of operations", "why_tests_cant": "every history of operations", "anchors": [{"file": "src/ds/mod.rs", "symbols": ["DataStore::put_obj", "DataStore::get_obj"]}, {"file": "src/ds/sqlite.rs", "symbols": ["raw_put", "raw_get"]}]}
{"id": "C13", "title": "put is idempotent", "statement": "Putting an object whose encoding is already stored changes nothing in the store and returns the same key.", "quantifier": "every store and object", "why_tests_cant": "every store content", "anchors": [{"file": "src/ds/sqlite.rs", "symbols": ["raw_put"]}, {"file": "src/ds/mod.rs", "symbols": ["DataStore::put"]}]}
{"id": "C14", "title": "store integrity", "statement": "In every state reachable through the command line, under any storage faults and crashes, every stored value is stored under the hash of its own bytes, and keys are unique.", "quantifier": "every command sequence, fault schedule and crash point", "why_tests_cant": "all histories and crash points", "anchors": [{"file": "src/ds/mod.rs", "symbols": ["DataStore::put"]}, {"file": "src/main.rs", "symbols": ["main"]}]}
{"id": "C15", "title": "HEAD is a last-write-wins register", "statement": "get_head returns the name given to the latest put_head, unset if there was none, and no other store operation changes it.", "quantifier": "every sequence of store operations", "why_tests_cant": "every history", "anchors": [{"file": "src/ds/mod.rs", "symbols": ["get_head", "put_head"]}, {"file": "src/ds/sqlite.rs", "symbols": ["raw_get_state", "raw_put_state"]}]}
{"id": "C16", "title": "reflog is an append-only history per (name, remote)", "statement": "reflog_walk returns exactly the keys pushed under that name and remote, newest first; reflog_get returns the newest or NotFound; pushes to other names or remotes, and a missing remote versus any named one, do not interfere.", "quantifier": "every sequence of pushes and every name and remote", "why_tests_cant": "every history", "anchors": [{"file": "src/ds/sqlite.rs", "symbols": ["reflog_push", "reflog_get", "reflog_walk"]}]}
{"id": "C17", "title": "range and existence queries", "statement": "raw_between returns exactly the stored keys k with start <= k (and k < end when given) in byte order; raw_exists k is true iff raw_get k succeeds; raw_exists never hits its internal assertion.", "quantifier": "every store content and every pair of bounds", "why_tests_cant": "every content", "anchors": [{"file": "src/ds/sqlite.rs", "symbols": ["raw_between", "raw_exists"]}]}
{"id": "C18", "title": "file data round trip", "statement": "Whenever put_data of a byte stream returns a key, read_data of that key writes exactly that stream. The exact truth about the pinned code: this holds for every stream, segmentation and gear table unless, at end of input, the top-level key buffer is non-empty while the one below it is empty; in that case the data held in the top-level buffer is lost.", "quantifier": "every byte stream, every segmentation into reads, every rolling-hash table, every store", "why_tests_cant": "depends on 42-leading-zero rolling hash values (probability 2^-42 per chunk) that no random test reaches", "anchors": [{"file": "src/file.rs", "symbols": ["put_data", "read_data"]}]}
{"id": "C19", "title": "data keys do not depend on the store", "statement": "put_data computes the same key on every store content and on the null store, and running it twice on the same reads gives the same key and leaves the store as after the first run.", "quantifier": "every stream of reads and every pair of stores", "why_tests_cant": "all stores", "anchors": [{"file": "src/file.rs", "symbols": ["put_data"]}, {"file": "src/ds/null.rs", "symbols": ["NullDS"]}]}
{"id": "C20", "title": "chunk size bounds", "statement": "Every blob written by put_data except the last is at least 32768 bytes, and when each read but the last returns the full 65536 bytes no blob exceeds 65536 bytes. (With short reads the pinned code has no upper bound: refuted.)", "quantifier": "every stream and segmentation", "why_tests_cant": "unbounded streams", "anchors": [{"file": "src/file.rs", "symbols": ["put_data", "BLOB_ZERO_COUNT_MAX"]}]}
{"id": "C21", "title": "data key is a function of the content", "statement": "The key of a file depends only on its bytes, not on how the reads happen to be segmented. (Violated by the pinned code; true when the segmentation is the same, and for streams that fit in one sub-32768-byte chunk.)", "quantifier": "every content and every pair of segmentations", "why_tests_cant": "needs adversarial short reads", "anchors": [{"file": "src/file.rs", "symbols": ["put_data"]}]}
{"id": "C22", "title": "put_data terminates and never panics", "statement": "On every finite script of read results put_data finishes with a key or an error and never hits a slice bound, its debug assertion or an unwrap.", "quantifier": "every script of reads incl. errors and interrupts, every table", "why_tests_cant": "all scripts", "anchors": [{"file": "src/file.rs", "symbols": ["put_data"]}]}
{"id": "C23", "title": "interrupted reads are invisible, failed reads are reported", "statement": "Interrupted read results may be inserted anywhere without changing the outcome or the store; any other read error makes put_data return that error and no key.", "quantifier": "every script and every set of insertion points", "why_tests_cant": "every interleaving of interrupts", "anchors": [{"file": "src/file.rs", "symbols": ["put_data"]}]}
{"id": "C24", "title": "insert then fetch reproduces the files", "statement": "If inserting a path returns a key, fetching that key into a fresh destination creates, for every non-excluded file, a file at the same relative path with the same bytes, creates no other file, and changes no file outside the destination.", "quantifier": "every directory tree, exclusion predicate and store", "why_tests_cant": "unbounded trees and file sizes", "anchors": [{"file": "src/dir.rs", "symbols": ["put_fs_item", "get_fs_item"]}]}
{"id": "C25", "title": "empty directories survive insert and fetch", "statement": "Fetching recreates directories that contain no file. (Violated: they are silently dropped.)", "quantifier": "every directory tree", "why_tests_cant": "quantifies over all trees", "anchors": [{"file": "src/dir.rs", "symbols": ["get_fs_item"]}]}
{"id": "C26", "title": "fetch never overwrites", "statement": "Fetching any key, with any faults or crash point, leaves the bytes of every file that existed before unchanged.", "quantifier": "every store (even corrupt), key, file system, fault schedule and crash point", "why_tests_cant": "all crash points and corrupt stores", "anchors": [{"file": "src/dir.rs", "symbols": ["get_fs_item"]}]}
{"id": "C27", "title": "fetch stays inside the destination", "statement": "Fetching a key creates files only below the destination path. True for every key produced by insert; violated for crafted directory objects whose child names contain '..' or '/'.", "quantifier": "every store and key", "why_tests_cant": "adversarial objects", "anchors": [{"file": "src/dir.rs", "symbols": ["get_fs_item"]}]}
{"id": "C28", "title": "excluded paths and the database folder are never stored", "statement": "No snapshot produced by insert or commit contains an entry at or below the database folder or matching an exclusion, and every other file is included.", "quantifier": "every tree, every exclusion set and database location", "why_tests_cant": "all trees", "anchors": [{"file": "src/filter.rs", "symbols": ["make_filter_fn"]}, {"file": "src/dir.rs", "symbols": ["put_fs_item"]}]}
{"id": "C29", "title": "directory key is a function of the directory's content", "statement": "Two directories with the same names and contents get the same key. (Violated: the key depends on the order in which the OS enumerates entries; true for equal enumerations.)", "quantifier": "every pair of directories", "why_tests_cant": "enumeration order is up to the file system", "anchors": [{"file": "src/dir.rs", "symbols": ["put_fs_item"]}]}
{"id": "C30", "title": "snapshot walk agrees with file-system walk", "statement": "Walking the stored tree of a path lists exactly the paths, with the same file/directory flags, that walking the file system with the same exclusions lists.", "quantifier": "every tree and exclusion set", "why_tests_cant": "all trees", "anchors": [{"file": "src/dir.rs", "symbols": ["walk_fs_items", "walk_real_fs_items", "internal_walk_fs_items", "internal_walk_real_fs_items"]}]}
{"id": "C31", "title": "referential integrity", "statement": "In every store reachable through insert/commit/commit-tree/ref updates, every key mentioned by a stored object, and every key in the reflog, is itself stored; so reading back never fails for a missing object.", "quantifier": "every command history, fault schedule and crash point", "why_tests_cant": "all histories", "anchors": [{"file": "src/file.rs", "symbols": ["put_data"]}, {"file": "src/dir.rs", "symbols": ["put_fs_item"]}, {"file": "src/commit.rs", "symbols": ["commit_tree"]}, {"file": "src/main.rs", "symbols": ["commit_cmd"]}]}
{"id": "C32", "title": "no cycles: reads terminate", "statement": "In every reachable store without hash collision the reference graph is acyclic, so read_data, tree walks and log terminate with enough stack.", "quantifier": "every reachable store", "why_tests_cant": "all histories", "anchors": [{"file": "src/file.rs", "symbols": ["read_data"]}, {"file": "src/dir.rs", "symbols": ["internal_walk_fs_items"]}, {"file": "src/display.rs", "symbols": ["log_obj"]}]}
{"id": "C33", "title": "hash cache semantics", "statement": "The cache maps each (inode, mtime, size) triple independently (distinct triples never collide in their encoding), returns the first key ever stored for a triple, and later puts for the triple are ignored.", "quantifier": "every triple and every put history", "why_tests_cant": "2^192 triples and all histories", "anchors": [{"file": "src/cache.rs", "symbols": ["Cache::get", "Cache::put", "SqliteCache"]}]}
{"id": "C34", "title": "cached hash equals fresh hash", "statement": "If every cache entry is right for the files currently on disk, hash_fs_item returns the same key as inserting the file, and the cache stays right.", "quantifier": "every file system, cache and store", "why_tests_cant": "all states", "anchors": [{"file": "src/dir.rs", "symbols": ["hash_fs_item"]}]}
{"id": "C35", "title": "modified files are detected", "statement": "A file whose content differs from the snapshot is reported as modified. (Violated when size, inode and whole-second mtime are unchanged; proved under a sound cache.)", "quantifier": "every pair of contents and cache state", "why_tests_cant": "racy timing of writes within one second", "anchors": [{"file": "src/dir.rs", "symbols": ["hash_fs_item"]}, {"file": "src/cache.rs", "symbols": ["CacheKey"]}, {"file": "src/diff.rs", "symbols": ["compare"]}]}
{"id": "C36", "title": "compare lists exactly the additions and modifications", "statement": "When comparing two stored trees succeeds, added is exactly the set of paths only in the new one, modified exactly the set of paths in both with different keys, each sorted by path without duplicates.", "quantifier": "every pair of trees", "why_tests_cant": "all trees", "anchors": [{"file": "src/diff.rs", "symbols": ["compare"]}]}
{"id": "C37", "title": "compare reports deletions", "statement": "Comparing succeeds and lists deleted paths when the old tree has paths the new one lacks. (Violated: it panics in exactly that case.)", "quantifier": "every pair of trees", "why_tests_cant": "all trees; the exact panic condition is an iff", "anchors": [{"file": "src/diff.rs", "symbols": ["compare"]}]}
{"id": "C38", "title": "compare hashes the files it compares", "statement": "An added file's key is the key of the file under the compared directory. (Violated unless the process's working directory is that directory.)", "quantifier": "every working directory and file system", "why_tests_cant": "all working directories", "anchors": [{"file": "src/diff.rs", "symbols": ["compare"]}]}
{"id": "C39", "title": "a clean status means an identical working tree", "statement": "If compare against the file system reports no difference, then every file of the snapshot is on disk with the same content and vice versa. (Violated when a file was replaced by an empty directory; proved otherwise.)", "quantifier": "every tree and snapshot", "why_tests_cant": "all trees", "anchors": [{"file": "src/diff.rs", "symbols": ["compare", "diff_result_empty"]}]}
{"id": "C40", "title": "show and log work on every commit", "statement": "Showing a commit made by the tool succeeds. (Violated: any commit in which a subdirectory's content changed, or a path was deleted, panics.)", "quantifier": "every commit history", "why_tests_cant": "all histories", "anchors": [{"file": "src/display.rs", "symbols": ["display_obj"]}, {"file": "src/diff.rs", "symbols": ["create_diff_patch_result", "line_stat"]}]}
{"id": "C41", "title": "simplified diff is the set of topmost paths", "statement": "simplify keeps exactly the added (deleted) paths that have no added (deleted) proper ancestor, so each dropped path lies under exactly one kept path, and modified paths are untouched.", "quantifier": "every comparison result", "why_tests_cant": "all lists of paths", "anchors": [{"file": "src/diff.rs", "symbols": ["simplify"]}]}
{"id": "C42", "title": "patch hunks contain every changed line once, in order", "statement": "Every added or removed line of a modified file appears in exactly one hunk, in order, with only nearby unchanged lines as context, line numbers are right and no subtraction underflows. (The hunk header's line counts are wrong: refuted, with the exact off-by-one proved.)", "quantifier": "every pair of files and every line diff", "why_tests_cant": "all diffs", "anchors": [{"file": "src/diff.rs", "symbols": ["patch_from_file_string"]}]}
{"id": "C43", "title": "line statistics", "statement": "Statistics list each added, deleted and modified non-directory once, with the number of newline bytes (added/deleted) or of differing lines (modified).", "quantifier": "every diff result", "why_tests_cant": "all diffs", "anchors": [{"file": "src/diff.rs", "symbols": ["line_stat", "line_ct"]}]}
{"id": "C44", "title": "commit object is independent of parent order", "statement": "commit_tree yields the same key for every ordering of the same parents and stores them sorted with tree and message intact.", "quantifier": "every tree, list of parents and message", "why_tests_cant": "all permutations", "anchors": [{"file": "src/commit.rs", "symbols": ["commit_tree"]}]}
{"id": "C45", "title": "the commit command extends the named branch", "statement": "When the commit command succeeds the branch's newest entry is a stored commit whose tree is the snapshot of the path, whose message is the given one and whose parents are the branch's previous newest entry (or none); every other branch, HEAD and all existing objects are unchanged.", "quantifier": "every repository state, file system and argument", "why_tests_cant": "all histories", "anchors": [{"file": "src/main.rs", "symbols": ["commit_cmd"]}]}
{"id": "C46", "title": "status right after commit is clean", "statement": "Running status after a successful commit, with nothing changed in between, reports no difference.", "quantifier": "every tree, store and sound cache", "why_tests_cant": "all trees", "anchors": [{"file": "src/main.rs", "symbols": ["commit_cmd", "status"]}, {"file": "src/diff.rs", "symbols": ["compare"]}]}
{"id": "C47", "title": "log follows first parents to the root", "statement": "log visits the commit and then repeatedly the first stored parent until a commit without parents, and stops.", "quantifier": "every history", "why_tests_cant": "unbounded history length", "anchors": [{"file": "src/display.rs", "symbols": ["log_obj"]}]}
{"id": "C48", "title": "commands are atomic", "statement": "If a command fails, panics or is killed at any point before its database commit completes, the repository database is exactly as before the command; otherwise it holds all of the command's writes.", "quantifier": "every command (except init), fault schedule and crash point", "why_tests_cant": "every crash point", "anchors": [{"file": "src/main.rs", "symbols": ["main"]}, {"file": "src/ds/sqlite.rs", "symbols": ["begin_trans", "commit", "rollback"]}]}
{"id": "C49", "title": "success is durable", "statement": "If the process exits with status 0 without printing 'fatal', the command's writes are in the database. (Violated: a failing COMMIT is ignored; proved when COMMIT does not fail.)", "quantifier": "every command and fault schedule", "why_tests_cant": "faults at the commit point", "anchors": [{"file": "src/main.rs", "symbols": ["main"]}]}
{"id": "C50", "title": "failure is visible in the exit status", "statement": "A command that fails exits with non-zero status. (Violated: errors are printed but the process exits 0.)", "quantifier": "every command and fault schedule", "why_tests_cant": "all failures", "anchors": [{"file": "src/main.rs", "symbols": ["main"]}]}
{"id": "C51", "title": "checkout-head moves HEAD only from a clean tree", "statement": "checkout-head changes HEAD only when comparing the working tree with HEAD's tree shows no difference; it changes nothing else in refs and nothing in the file system.", "quantifier": "every state", "why_tests_cant": "all states", "anchors": [{"file": "src/main.rs", "symbols": ["checkout_head"]}]}
{"id": "C52", "title": "checkout refuses safely outside the blessed directory", "statement": "When checkout aborts because of its path assertion, no file has been changed. (Violated: the first file is truncated before the assertion.)", "quantifier": "every file system and tree outside the blessed path", "why_tests_cant": "all trees", "anchors": [{"file": "src/dir.rs", "symbols": ["checkout_fs_item"]}]}
{"id": "C53", "title": "successful checkout reproduces the snapshot", "statement": "When checkout of a tree succeeds, the files under the path that pass the exclusions are exactly the snapshot's files with their contents; excluded files and files elsewhere are untouched.", "quantifier": "every tree, file system and exclusion set", "why_tests_cant": "all trees", "anchors": [{"file": "src/dir.rs", "symbols": ["checkout_fs_item"]}]}
{"id": "C54", "title": "checkout recreates missing directories", "statement": "Checkout succeeds when the snapshot has a directory the working tree lacks. (Violated: it fails with an I/O error.)", "quantifier": "every tree", "why_tests_cant": "all trees", "anchors": [{"file": "src/dir.rs", "symbols": ["checkout_fs_item"]}]}
{"id": "C55", "title": "re-running init is harmless", "statement": "init on an existing repository keeps objects and reflog; it also resets HEAD to master (so HEAD is not preserved: refuted).", "quantifier": "every repository state", "why_tests_cant": "all states", "anchors": [{"file": "src/main.rs", "symbols": ["init"]}, {"file": "src/ds/sqlite.rs", "symbols": ["SqliteDS::new"]}]}
{"id": "C56", "title": "repository discovery finds the nearest enclosing repository", "statement": "find_db_folder returns the database folder of the closest ancestor (including the current directory) that has one, and nothing iff no ancestor has one.", "quantifier": "every working directory and file system", "why_tests_cant": "all directory depths", "anchors": [{"file": "src/main.rs", "symbols": ["find_db_folder"]}]}
{"id": "C57", "title": "query commands do not change history", "statement": "show, log, fetch, ref log, get-head and the other queries leave the repository database byte-for-byte unchanged; status, compare, insert and checkout-head never change the reflog and only add objects.", "quantifier": "every state, argument and fault schedule", "why_tests_cant": "all states", "anchors": [{"file": "src/main.rs", "symbols": ["main"]}]}
{"id": "C58", "title": "concurrent commands are serialisable", "statement": "For any interleaving of the database operations of two commands under SQLite's rollback-journal locking, the committed result equals running the successfully committed ones one after another; but a command whose COMMIT is refused because of the other still reports success (refuted durability).", "quantifier": "every interleaving", "why_tests_cant": "all schedules", "anchors": [{"file": "src/main.rs", "symbols": ["main"]}, {"file": "src/ds/sqlite.rs", "symbols": ["SqliteDS"]}]}
{"id": "C59", "title": "ref update and reflog-push add exactly one entry", "statement": "When `ref update` or `debug reflog-push` succeeds, the branch named (or HEAD's) has one more entry on top, the key the argument stands for; objects, HEAD, other branches, files and output are unchanged; and it succeeds whenever the argument stands for a key and nothing fails.", "quantifier": "every reachable repository, key argument and branch", "why_tests_cant": "all histories and arguments", "anchors": [{"file": "src/main.rs", "symbols": ["ref_update", "debug_reflog_push"]}]}
{"id": "C60", "title": "ref log prints the whole branch in order", "statement": "`ref log` prints every entry of the branch, newest first, numbered down to one, and changes nothing; `debug reflog-get` prints the newest entry, and succeeds iff there is one (nothing failing).", "quantifier": "every reachable repository and branch", "why_tests_cant": "all histories", "anchors": [{"file": "src/main.rs", "symbols": ["ref_log", "debug_reflog_get"]}]}
{"id": "C61", "title": "HEAD set by one process is seen by the next", "statement": "`debug set-head` changes HEAD only, `debug get-head` prints it, and the name set by one process is what the next one prints.", "quantifier": "every reachable repository and name", "why_tests_cant": "all states and processes", "anchors": [{"file": "src/main.rs", "symbols": ["debug_set_head", "debug_get_head"]}]}
{"id": "C62", "title": "insert prints the key of the snapshot", "statement": "When `insert` succeeds, the one line it prints is the key under which the snapshot of the path is stored; it only adds objects and leaves the files alone.", "quantifier": "every reachable repository, file system and path", "why_tests_cant": "all file systems", "anchors": [{"file": "src/main.rs", "symbols": ["insert"]}]}
{"id": "C63", "title": "status and compare print exactly the differences", "statement": "For a tree made by a commit and a cache with right answers, `status` and `compare` print exactly the topmost new files and directories and the files whose content has another key, in path order; `compare --stat` one line per new or changed file with its line counts. status says \"no commits\" only if there are none (refuted if reading the reflog fails).", "quantifier": "every reachable repository, file system and tree", "why_tests_cant": "all pairs of trees", "anchors": [{"file": "src/main.rs", "symbols": ["status", "compare"]}, {"file": "src/diff.rs", "symbols": ["print_diff_result", "compare"]}]}
{"id": "C64", "title": "repositories do not influence each other", "statement": "A command in one repository never makes a command in another repository fail (refuted: the hash cache is shared, the objects are not, so `compare --stat` panics).", "quantifier": "every pair of repositories of a user", "why_tests_cant": "needs two repositories and a shared cache in the right order", "anchors": [{"file": "src/main.rs", "symbols": ["main"]}, {"file": "src/cache.rs", "symbols": ["SqliteCache"]}, {"file": "src/dir.rs", "symbols": ["hash_fs_item"]}]}
{"id": "C65", "title": "what insert printed can be fetched", "statement": "After `insert` printed a key, a later `fetch` with an argument that stands for it recreates the files in a fresh destination and touches nothing else, and succeeds if nothing fails; the printed key itself should be such an argument (refuted, see C08).", "quantifier": "every reachable repository, any commands in between", "why_tests_cant": "all file systems and command sequences", "anchors": [{"file": "src/main.rs", "symbols": ["insert", "fetch"]}, {"file": "src/keyish.rs", "symbols": ["Keyish"]}]}
{"id": "C66", "title": "commits made by commit-tree can be shown and logged", "statement": "A commit made by `debug commit-tree` can be shown and logged (refuted: any object is accepted as a parent, and log and show panic).", "quantifier": "every reachable repository and arguments", "why_tests_cant": "odd arguments", "anchors": [{"file": "src/main.rs", "symbols": ["debug_commit_tree"]}, {"file": "src/commit.rs", "symbols": ["commit_tree"]}]}
{"id": "C67", "title": "walk-tree prints every path of the tree once", "statement": "`debug walk-tree` prints each path of a tidy tree exactly once with its key and kind and changes nothing.", "quantifier": "every reachable repository and key argument", "why_tests_cant": "all trees", "anchors": [{"file": "src/main.rs", "symbols": ["debug_walk_tree"]}, {"file": "src/dir.rs", "symbols": ["walk_fs_items"]}]}
{"id": "C68", "title": "odd directory entries do not make commands panic", "statement": "insert, commit, compare and status do not panic because of what is in the working tree or in the exclude patterns (refuted: a dangling symbolic link; a pattern that is no glob).", "quantifier": "every file system and pattern", "why_tests_cant": "needs unusual file systems", "anchors": [{"file": "src/filter.rs", "symbols": ["make_filter_fn"]}]}
{"id": "C69", "title": "show and log print exactly the commits, files and lines they should", "statement": "When `show` succeeds, it printed exactly: for a commit its key, its message and one patch per new file (all its lines added) and per changed file (the hunks of the line diff), ordered by path; for a file its bytes; for a directory its key. When `log` succeeds, it printed key, message and line counts of every new and changed file for each commit along first parents. Neither prints anything else or changes anything. (Refuted: a patch shows whether a new file ends with a line feed.)", "quantifier": "every well-used repository, every key argument, every failure schedule under which the command still succeeds", "why_tests_cant": "all repositories and contents; needs the whole output to be right, not samples of it", "anchors": [{"file": "src/display.rs", "symbols": ["display_obj", "log_obj"]}, {"file": "src/diff.rs", "symbols": ["print_patch_diff_result", "print_stat_diff_result", "patch_from_file_string"]}]}
{"id": "C70", "title": "a repository only contains well-formed objects of the right kinds, and all of it can be read", "statement": "After any sequence of commands in which references are set to commits and `debug commit-tree` is given a tree and commits, every stored value is a well-formed object referring only to objects of the right kinds, every reference names a commit, every file, tree and history can be read, `show` of a commit succeeds exactly when nothing was deleted, only files changed and new files are text, and `log` exactly when the first two hold along the history. (Refuted without these conditions.)", "quantifier": "every sequence of commands, failures and crashes, every file system in between", "why_tests_cant": "invariant over all histories, including killed processes", "anchors": [{"file": "src/object.rs", "symbols": ["Object"]}, {"file": "src/dir.rs", "symbols": ["put_fs_item"]}, {"file": "src/file.rs", "symbols": ["put_data"]}, {"file": "src/commit.rs", "symbols": ["commit_tree"]}, {"file": "src/display.rs", "symbols": ["display_obj", "log_obj"]}]}
{"id": "C71", "title": "Commands succeed exactly when they should", "statement": "When no operation of the file system or of SQLite fails: (1) debug insert and commit succeed exactly when the exclusion patterns are globs, the path exists, everything in it that is not excluded is a file or a directory with a text name, no link come across leads nowhere, and (commit) HEAD exists or a reference is given. (2) On a machine that was used sensibly, status, compare without --stat and checkout-head succeed exactly when HEAD exists and the working tree can be compared with the tree: it can be listed, has everything the tree has (see C37), and its new files are found from the current directory (see C38). (3) A process whose command succeeds exits with status 0, prints nothing more and has written the database. (4) A process finds the nearest database folder going up, and starts with the database in it. (5) init where there is none exits with 0, prints nothing, leaves every file as it was, and makes an empty repository with HEAD at master that the next process finds.", "quantifier": "all file systems, repositories, arguments and oracles, without faults", "why_tests_cant": "a test shows one success or one failure; the claim is an equivalence over all file systems, exclusion patterns, databases and working directories", "anchors": [{"file": "src/main.rs", "symbols": ["init", "insert", "commit_cmd", "status", "compare", "checkout_head", "find_db_folder", "main"]}, {"file": "src/dir.rs", "symbols": ["put_fs_item", "walk_real_fs_items"]}, {"file": "src/diff.rs", "symbols": ["compare"]}, {"file": "src/ds/sqlite.rs", "symbols": ["SqliteDS::new"]}]}
{"id": "C72", "title": "A commit can be checked out again", "statement": "On a machine that was used sensibly, when no operation fails: (1) checkout succeeds exactly when the exclusion patterns are globs, HEAD names a commit, the directories of its tree are there without links that lead nowhere, there is nothing or a file where its files go, and everything to be written or removed is below /home/jess/src/snapcd/repo. (2) When everything in the repository can be stored, commit exits with 0, prints nothing and changes no file; then, whatever is done to the files, as long as there is room for what was committed, checkout exits with 0, prints nothing, and afterwards the files in the repository are exactly the committed ones with the contents they had at the commit, and the excluded ones in committed directories; nothing outside of the repository changes.", "quantifier": "all file systems before the commit and before the checkout, exclusion patterns, earlier uses of the repository, messages and oracles, without faults", "why_tests_cant": "a test can show one directory coming back; the claim is for all directory trees, all edits in between, all file contents whose data survives chunking (see C18) and all earlier histories, and as an equivalence for the success of checkout", "anchors": [{"file": "src/main.rs", "symbols": ["checkout", "commit_cmd", "find_db_folder", "main"]}, {"file": "src/dir.rs", "symbols": ["put_fs_item", "checkout_fs_item"]}, {"file": "src/file.rs", "symbols": ["put_data", "read_data"]}]}
{"id": "C73", "title": "compare --stat succeeds exactly when it should", "statement": "On a machine that was used sensibly, when no operation fails, (1) compare --stat succeeds exactly when the exclusion patterns are globs, HEAD names a commit if no key is given, the directory can be compared with the tree (as for compare without --stat), and no file stands where the tree has a directory, provided that every key in the hash cache is that of a file stored in the database. (2) This condition on the cache holds whenever no operation ever failed, files were hashed for one database only, and the database was not deleted while there was anything in the cache. Both restrictions matter: a file in the place of a committed empty directory makes compare --stat panic although compare succeeds, and after one refused COMMIT of the objects (the process exits with 0 and commits the cache) compare --stat panics although nothing fails any more.", "quantifier": "all sequences of processes and outside changes, file systems, exclusion patterns, keys and oracles, without faults", "why_tests_cant": "the claim is an equivalence over all directories and trees, and an invariant of the cache over all sequences of processes; a test sees one sequence", "anchors": [{"file": "src/main.rs", "symbols": ["compare", "main"]}, {"file": "src/diff.rs", "symbols": ["compare", "print_stat_diff_result", "line_ct"]}, {"file": "src/dir.rs", "symbols": ["hash_fs_item"]}, {"file": "src/cache.rs", "symbols": ["get", "put"]}]}
{"id": "C74", "title": "pretty-print shows the whole object", "statement": "debug pretty-print shows the stored object its argument stands for: the type, each key as text and as numbers, and the data in hexadecimal, twenty bytes a line; it changes nothing. When nothing fails it succeeds exactly when the argument stands for the key of an object. The text determines the object: type, keys and data can be read off the bytes printed, whatever serde_cbor makes of the data and whatever follows.", "quantifier": "all reachable repositories, arguments, objects, oracles and faults; for the success condition all runs without faults", "why_tests_cant": "that no two objects have the same text is a claim about all pairs of objects", "anchors": [{"file": "src/object.rs", "symbols": ["pretty_print", "debug_pretty_print"]}, {"file": "src/main.rs", "symbols": ["debug_pretty_print"]}, {"file": "src/key.rs", "symbols": ["as_user_key"]}]}
{"id": "C75", "title": "exactly when fetch, show and the other read commands succeed", "statement": "In a repository used sensibly, fetch of a stored file or directory to a path made of names succeeds, when nothing fails, exactly when there is room for each of its files: nothing where the file goes, and only directories or nothing on the way. Whenever it succeeds, whatever failed and was tried, each file of the tree is there with its bytes, in directories, nothing that was there has changed and nothing else has come. show of any argument succeeds exactly when it stands for data, for a file or directory, or for a commit whose changes can be presented; walk-tree, commit-tree, ref update, ref log, reflog-get, reflog-push and get-head succeed exactly when their arguments stand for something (and HEAD is text where it is used). walk-fs-tree succeeds exactly on a directory with only files and directories below, and lists everything below it exactly once.", "quantifier": "all well-used machines, arguments, file systems and trees; what fetch makes for all faults, the success conditions for runs without faults", "why_tests_cant": "an exact success condition quantifies over every tree and every state of the file system at the destination", "anchors": [{"file": "src/dir.rs", "symbols": ["get_fs_item", "walk_fs_items", "walk_real_fs_items"]}, {"file": "src/main.rs", "symbols": ["fetch", "show", "debug_walk_tree", "debug_walk_fs_tree", "debug_commit_tree", "ref_update", "ref_log", "debug_reflog_get", "debug_reflog_push", "debug_get_head"]}, {"file": "src/display.rs", "symbols": ["display_obj"]}]}
{"id": "C76", "title": "the text on the screen", "statement": "What insert, reflog-get, ref log, get-head, pretty-print, status, compare, compare --stat, log, show of a file and walk-tree add to the screen is, byte by byte (without colours), the text it should be: titles, indentation, a slash after directories, numbers in decimal without leading zeros, keys as the user sees them, one line each. The history can be read off the text of ref log, and the lists of new and modified files off the text of status and compare when no name contains a line break and names are shown unchanged; a file whose name contains a line break can look like two files (refuted otherwise). show of an inserted file gives exactly its bytes.", "quantifier": "all reachable (for log and show: well-used) states, arguments, faults; every rendering of quoted strings", "why_tests_cant": "text for every history length, every number and every set of names; that different reports never look alike quantifies over pairs of reports", "anchors": [{"file": "src/main.rs", "symbols": ["insert", "ref_log", "status", "compare", "debug_walk_tree", "debug_get_head", "debug_reflog_get"]}, {"file": "src/diff.rs", "symbols": ["print_diff_result", "print_line_stat"]}, {"file": "src/display.rs", "symbols": ["display_obj", "log_obj"]}]}
{"id": "C77", "title": "debug commit-tree makes the commit it was asked for", "statement": "debug commit-tree stores a commit of the tree its first argument stands for, whose parents are those the other arguments stand for, in the order of their keys, with empty message and attributes; it prints the key of that commit and only adds objects. The order in which the parents were given is lost: the first parent given need not be the one log follows (refuted otherwise).", "quantifier": "all reachable states, arguments and faults", "why_tests_cant": "all trees and parent lists", "anchors": [{"file": "src/main.rs", "symbols": ["debug_commit_tree"]}, {"file": "src/commit.rs", "symbols": ["commit_tree"]}]}
{"id": "C78", "title": "on an honest file system the cache is always right and status says exactly what was edited", "statement": "If, whenever a process starts, inode, modification time and size of every file determine its content, and nobody but the program adds to the cache, then the cache answers rightly about every file, whatever the processes did before and whatever failed in them (so C34, C63 and C76 need no assumption about the cache). Then the whole story holds: after a commit (which exits with 0 and changes no file) and any edits outside, if what was committed is still there and what is there can be listed, status exits with 0, changes no file, and prints the newest commit and exactly the edits: the topmost new files and directories, and the files that have another content, nothing else. Only the line about HEAD is printed exactly when nothing is new and every file has the content it had.", "quantifier": "all machines, repositories, edits, contents and sequences of processes with any failures before", "why_tests_cant": "quantifies over all histories of processes, failures and edits that the cache has seen", "anchors": [{"file": "src/cache.rs", "symbols": ["get", "put"]}, {"file": "src/dir.rs", "symbols": ["hash_fs_item"]}, {"file": "src/diff.rs", "symbols": ["compare", "print_diff_result"]}, {"file": "src/main.rs", "symbols": ["main", "status", "commit_cmd", "compare"]}]}
{"id": "C79", "title": "an old commit can be restored, whatever happened since", "statement": "After a commit of files that can be stored, and then any processes (with any failures, other commits among them) and any edits of the files, as long as the database file is there: whenever that commit is the newest of HEAD's branch and there is room, checkout exits with 0 and the files and directories are exactly those committed and the excluded ones in directories that were committed. Whenever a prefix or a branch stands for the commit, ref update with it exits with 0, changes no file and prints nothing, and the checkout after it restores the files likewise.", "quantifier": "all machines, repositories, files, and sequences of processes, failures and edits after the commit", "why_tests_cant": "quantifies over everything that may happen between the commit and the checkout", "anchors": [{"file": "src/main.rs", "symbols": ["main", "ref_update", "commit_cmd", "checkout"]}, {"file": "src/dir.rs", "symbols": ["checkout_fs_item", "put_fs_item"]}, {"file": "src/ds/sqlite.rs", "symbols": ["reflog_push", "raw_get", "raw_put"]}, {"file": "src/commit.rs", "symbols": ["commit_tree"]}]}
{"id": "C80", "title": "a command that finds nothing says so, and only then", "statement": "Whatever operations fail: if a process ends with one of the messages of the program itself (no database, no HEAD, Ref not found, Object '..' not found, Object '..' is ambiguous), then that is how it was: no repository was found; or no HEAD was set; or the branch was empty; or the prefix that was typed is quoted and no stored key, or more than one, begins with it. Conversely, if nothing fails and the command is in one of these situations, the process prints exactly that one line, exits with 0, and changes neither databases nor files (outside of the directory for the cache). The message comes from the first argument that is at fault. Messages from the operating system or libraries are left open.", "quantifier": "all commands, arguments, reachable machines; all failures in the first part", "why_tests_cant": "quantifies over all commands, prefixes, repositories and failure patterns", "anchors": [{"file": "src/main.rs", "symbols": ["main", "get_head_key", "ref_update", "DatabaseNotFoundError", "NoHeadError"]}, {"file": "src/ds/mod.rs", "symbols": ["canonicalize", "get_head", "CanonicalizeError", "GetReflogError"]}, {"file": "src/ds/sqlite.rs", "symbols": ["reflog_get", "raw_between"]}, {"file": "src/keyish.rs", "symbols": ["from_str"]}]}
{"id": "C81", "title": "a branch is the ancestry of its newest commit", "statement": "As long as a branch is never set by hand (ref update, or debug reflog-push without a remote), its entries are commits, each has the next older entry as its only parent, and the oldest has none. This holds whatever else is done with the repository, however commands fail or are killed, and whatever happens to the files. Hence the entries are exactly the first-parent ancestry of the newest one, no commit occurs twice, every commit once made on the branch stays an ancestor of its newest commit, and log prints a summary of exactly the commits that ref log lists, in the same order.", "quantifier": "all machines, branches, sequences of commands, failures and crashes", "why_tests_cant": "an invariant over all histories of use, with failures at every point", "anchors": [{"file": "src/main.rs", "symbols": ["commit_cmd", "log", "ref_log", "ref_update"]}, {"file": "src/commit.rs", "symbols": ["commit_tree"]}, {"file": "src/ds/sqlite.rs", "symbols": ["reflog_push", "reflog_get", "reflog_walk"]}]}
{"id": "C82", "title": "commits made at the same time are all kept", "statement": "Any number of processes run any commands on one repository at the same time, in any interleaving that SQLite's locks permit and with any failures, and none of them sets the branch by hand. When those that changed something have ended, the branch is still linked (each entry a commit whose only parent is the next one) and consists of its old entries with one new commit on top for each of some of the processes, made by that process and carrying its message. A process that was to commit to the branch, for which no operation failed, and that ended normally without a message, is one of these: no commit silently replaces another.", "quantifier": "all numbers of processes, commands, interleavings and failures, all repositories whose branch was not set by hand", "why_tests_cant": "races between processes; every interleaving of their statements is covered", "anchors": [{"file": "src/main.rs", "symbols": ["main", "commit_cmd"]}, {"file": "src/commit.rs", "symbols": ["commit_tree"]}, {"file": "src/ds/sqlite.rs", "symbols": ["reflog_push", "reflog_get", "begin_trans", "commit"]}]}
{"id": "C83", "title": "checkout-head moves HEAD exactly when nothing was edited", "statement": "On a machine where inode, modification time and size tell contents apart: after a commit, and after any edits of the files that leave what was committed in place, checkout-head exits with 0 and changes no file. If nothing is new and every file has the content it had, HEAD names the branch given, nothing else in the reflog or the state table is different, and the text is `Ok, new head.`; otherwise no reference is different, and the text is the refusal followed by exactly the edits.", "quantifier": "all file trees, edits, excludes, branch names, histories and caches of such machines", "why_tests_cant": "depends on the whole contents of the directory, the cache and the history; tests have a few directories", "anchors": [{"file": "src/main.rs", "symbols": ["checkout_head", "commit_cmd", "main"]}, {"file": "src/diff.rs", "symbols": ["compare", "print_diff_result"]}, {"file": "src/ds/mod.rs", "symbols": ["put_head"]}]}
{"id": "C84", "title": "status tells the edits since the newest commit, and after a checkout none", "statement": "On a machine where inode, modification time and size tell contents apart: a commit is made, and then anything happens (processes with any failures, other commits on any branch, edits). Whenever that commit is the newest of HEAD's branch: if what was committed is still in place and what is there can be listed, status exits with 0, changes no file, and prints HEAD and exactly the edits since the commit was made, however old it is. If there is room for it, checkout exits with 0 and prints nothing, and status then prints HEAD and nothing else.", "quantifier": "all file trees, edits, excludes, branches, histories, caches and runs of processes in between", "why_tests_cant": "depends on the whole contents of the directory, the cache and everything that happened since the commit; tests have a few directories and one process after another", "anchors": [{"file": "src/main.rs", "symbols": ["status", "checkout", "commit_cmd", "main"]}, {"file": "src/diff.rs", "symbols": ["compare", "print_diff_result"]}, {"file": "src/dir.rs", "symbols": ["checkout_fs_item"]}]}
{"id": "C85", "title": "committing the same files again stores nothing but the commit", "statement": "A commit is made, and then anything happens (processes with any failures, other commits on any branch, edits, checkouts), as long as the database file is there. Whenever what there is to commit is the same again (the same directories, the same files with the same contents, enumerated in the same order; inodes, times and excluded files may differ), another commit with any message exits with 0, is added to HEAD's branch, and adds at most one object to the database, stored under the key of the new commit; both commits are of the same tree.", "quantifier": "all file trees, excludes, messages, branches, histories and runs of processes in between", "why_tests_cant": "depends on the whole contents of the directory and on everything that happened between the commits; a test compares two runs on one directory", "anchors": [{"file": "src/main.rs", "symbols": ["commit_cmd", "main"]}, {"file": "src/dir.rs", "symbols": ["put_fs_item"]}, {"file": "src/file.rs", "symbols": ["put_data"]}, {"file": "src/ds/mod.rs", "symbols": ["put_obj", "put"]}, {"file": "src/ds/sqlite.rs", "symbols": ["raw_put"]}, {"file": "src/commit.rs", "symbols": ["commit_tree"]}]}
{"id": "C86", "title": "show tells what a commit changed, however long ago it was made", "statement": "A commit k is made of the files as they are, then anything happens (processes with any failures, edits, checkouts), then, with k the newest commit of HEAD's branch, another commit k1 is made of the files as they are then, and again anything happens, as long as the database file is there. From then on, show of k1, from anywhere in the repository, exits with 0, changes no file and prints the key of k1, its message and one patch: first the files that are there at the second commit and were not there at the first, in order and with all their lines as new, then the files whose content is not the one of the first commit, in order, with the hunks between the two contents. Show of a first commit prints all its files as new. (Files that were in k are still files in k1, directories that were in k have the same contents, and new files are text: C40 has what happens otherwise.)", "quantifier": "all file trees, contents, excludes, messages, branches, and runs of processes between the commits and before show", "why_tests_cant": "what is printed depends on the files of two moments in the past and on everything that was stored since; a test shows a commit just made, in one small directory", "anchors": [{"file": "src/main.rs", "symbols": ["show", "commit_cmd", "main"]}, {"file": "src/display.rs", "symbols": ["display_obj"]}, {"file": "src/diff.rs", "symbols": ["compare", "print_patch_diff_result", "create_diff_patch_result", "patch_from_file_string"]}, {"file": "src/dir.rs", "symbols": ["put_fs_item", "walk_fs_items"]}, {"file": "src/commit.rs", "symbols": ["commit_tree"]}]}
{"id": "C87", "title": "log tells the story of a branch", "statement": "Commits are made one after another, the first on an empty branch and each later one on a branch whose newest entry is the one before, with anything in between (processes with any failures, edits, checkouts) as long as the database file is there. From then on, log of the last of them (named by its key, or because it is the newest entry of HEAD's branch), from anywhere in the repository, exits with 0, changes no file and prints every commit exactly once, newest first and down to the first: its key, its message, and one line for each file that was not in the commit before or had another content there, in the order of the paths, with the number of lines added and removed between the contents the file had when the two commits were made. (Files stay files and directories keep their contents from one commit to the next: C40 has what happens otherwise.)", "quantifier": "all numbers of commits, all file trees, contents, excludes, messages and branches, and all runs of processes between the commits and before log", "why_tests_cant": "what is printed depends on the files at every commit since the first and on everything that was stored since; a test logs two or three commits just made, in one small directory", "anchors": [{"file": "src/main.rs", "symbols": ["log", "commit_cmd", "main"]}, {"file": "src/display.rs", "symbols": ["log_obj", "display_obj"]}, {"file": "src/diff.rs", "symbols": ["compare", "print_stat_diff_result", "line_stat"]}, {"file": "src/dir.rs", "symbols": ["put_fs_item", "walk_fs_items"]}, {"file": "src/commit.rs", "symbols": ["commit_tree"]}]}
{"id": "C88", "title": "what was inserted can be compared with and fetched, whatever happened since", "statement": "If nothing fails and a file or directory can be stored, insert exits with 0, changes no file and prints its key. From then on, whatever happens (processes with any failures, commits, edits, checkouts) as long as the database file is there, fetch of an argument that stands for the key to a place where nothing is exits with 0, prints nothing and makes exactly the files that were inserted, with the contents they had then, in their directories, and changes nothing else (directories without files are not made). And for a directory, compare of it with that argument exits with 0, changes no file and prints exactly the edits since the insert: the topmost new entries and the files whose content is another, in order, whatever the cache contains. (Everything inserted must still be there, C37, and new files must be found from the current directory, C38.)", "quantifier": "all file trees, contents, excludes and places to insert from and to fetch to, all states of the store and the cache, and all runs of processes between the commands", "why_tests_cant": "the contents needed were stored before any number of later processes, some killed, and the cache remembers files of other times; a test inserts and compares in one go", "anchors": [{"file": "src/main.rs", "symbols": ["insert", "compare", "fetch", "main"]}, {"file": "src/dir.rs", "symbols": ["put_fs_item", "get_fs_item", "hash_fs_item", "walk_fs_items"]}, {"file": "src/diff.rs", "symbols": ["compare", "simplify", "print_diff_result"]}, {"file": "src/cache.rs", "symbols": ["get", "put"]}]}
{"id": "C89", "title": "switching branches brings the files of the other branch, and only from a clean tree", "statement": "Let two commits have been made, one of them now the newest of HEAD's branch and the other the newest of another branch, with anything in between (processes with any failures, edits, checkouts) as long as the database file is there. If nothing is new and every file has the content it had when the first of the two was made, checkout-head of the other branch exits with 0, changes no file, prints \"Ok, new head.\" and moves HEAD and no other reference; otherwise it prints exactly the edits and no reference changes. After it has moved HEAD, checkout exits with 0, prints nothing and makes the committed part of the working directory exactly the files the other commit was made of, with their contents; and status then prints HEAD with that branch and commit and no difference. (Everything committed must still be there, C37, and new files must be found from the current directory, C38; checkout needs room, C71.)", "quantifier": "all file trees, contents, excludes, branch names and messages, all pairs of commits, all states of the cache that conform to the files, and all runs of processes between the commits and the switch", "why_tests_cant": "three commands in a row depend on two trees stored at different times, the cache and the files; a test switches between two small trees just committed", "anchors": [{"file": "src/main.rs", "symbols": ["checkout_head", "checkout", "status", "commit_cmd", "main"]}, {"file": "src/dir.rs", "symbols": ["checkout_fs_item", "hash_fs_item", "put_fs_item"]}, {"file": "src/diff.rs", "symbols": ["compare", "diff_result_empty", "print_diff_result"]}, {"file": "src/ds/mod.rs", "symbols": ["put_head", "get_head", "reflog_get"]}]}
{"id": "C90", "title": "which commands never panic, and exactly when log does", "statement": "In a process in which nothing fails: (killed) it is never killed, except by a stack that is too small. (status) The commands that neither list files nor show differences (init, fetch, get-head, set-head, ref update, ref log, and the debug commands for trees, commits, objects and the reflog), in a repository whose folder is given as names, never panic: if the repository or the cache cannot be opened the exit status is 1 and otherwise it is 0, also if the command only prints a fatal message. (log) log, given a key or branch that names an object, exits with 0 if it is a commit and each commit of its history can be shown against its parent, and in all other cases panics (101). (Keys must not be written out in full, C08; fetch and walk-tree must name a file or directory, if anything.)", "quantifier": "all repositories that processes of this program (with any failures) made, all arguments, all files", "why_tests_cant": "the program is full of unwrap and panic; a test runs into one of them only in the state that triggers it, and cannot show that no state does", "anchors": [{"file": "src/main.rs", "symbols": ["main", "log", "fetch", "debug", "ref_cmd", "init", "debug_commit_tree", "debug_walk_tree"]}, {"file": "src/ds/mod.rs", "symbols": ["canonicalize", "get_obj"]}, {"file": "src/dir.rs", "symbols": ["walk_fs_items"]}]}
{"id": "C91", "title": "it makes no difference how a thing is named or that it is left out", "statement": "(letters) The first letters of a printed key, any number but not all of them and in upper or lower case after the b, parse, and stand for the object exactly if it is stored and no other stored key begins with them; they are ambiguous exactly if two stored keys begin with them, and never stand for another object while this one is stored. So the eight letters that status prints, or any printed key without its last letter, can be used. (named) If nothing fails and two key arguments (letters, branches) stand for the same key, a process does exactly the same with one as with the other: same exit status, output, files, cache and database. (parents) So for the parents of debug commit-tree. (left_out) If nothing fails, show, log, compare, commit, ref log and ref update do the same whether the key, the branch or the path is left out or HEAD's newest commit (its tree, for compare), HEAD's branch or the directory of the repository is given.", "quantifier": "all repositories that processes of this program made, all keys, all commands with keys, branches or paths, all files", "why_tests_cant": "equality of whole runs for all pairs of names; a test compares the output of two invocations in one repository", "anchors": [{"file": "src/keyish.rs", "symbols": ["from_str", "parse_from_base32", "parse_from_ref"]}, {"file": "src/ds/mod.rs", "symbols": ["canonicalize"]}, {"file": "src/main.rs", "symbols": ["get_head_key", "show", "log", "compare", "commit_cmd", "ref_update", "ref_log", "debug_commit_tree"]}]}
{"id": "C92", "title": "how show ends", "statement": "In a process in which nothing fails, show, given a key or branch that names an object (or HEAD if nothing is given), ends in exactly one of three ways. It shows the object, with exit status 0, if that is data, a file, a directory, or a commit that lacks nothing of its parent, in which whatever has another key is a file in both, and whose new files are text. It prints 'fatal:' as the last line, with exit status 0, if it is a commit that lacks nothing of its parent and brings a file that is not text (whatever else is wrong with it). In all other cases it panics (101).", "quantifier": "all repositories that processes of this program (with any failures) made, all arguments", "why_tests_cant": "which of the two failures is met first depends on the order in which added, deleted and modified entries are looked at; tests try one commit at a time and each has one fault", "anchors": [{"file": "src/main.rs", "symbols": ["show", "main"]}, {"file": "src/display.rs", "symbols": ["display_obj"]}, {"file": "src/diff.rs", "symbols": ["compare", "create_diff_patch_result", "print_patch_diff_result"]}]}
{"id": "C93", "title": "how storing files ends", "statement": "In a process in which nothing fails, insert and commit (with a HEAD or a branch given) end like this. If an exclude pattern is not a glob, they panic (101). If it is one and there is nothing at the path, they print 'fatal:' as the last line, with exit status 0. If there is something at the path, one of three cases holds. They run to the end, with exit status 0, and then everything not excluded below the path is a file or directory with a name that is text, and no link come across leads nowhere. They print 'fatal:' with exit status 0, and then the name of something not excluded is not text. Or they panic, and then a link come across leads nowhere or something not excluded is neither file nor directory.", "quantifier": "all databases that processes of this program (with any failures) made, all trees of files, all paths, patterns, messages and branches", "why_tests_cant": "directories with unusual entries are rarely in test suites, and that an exit status of 0 is compatible with nothing having been stored does not show in the tests of what is stored", "anchors": [{"file": "src/main.rs", "symbols": ["insert", "commit", "main"]}, {"file": "src/dir.rs", "symbols": ["put_fs_item"]}, {"file": "src/filter.rs", "symbols": ["make_filter_fn"]}]}
{"id": "C94", "title": "how comparing files with a tree ends", "statement": "In a process in which nothing fails, status (with a commit at HEAD), compare without --stat and checkout-head end like this. If an exclude pattern is not a glob, they panic (101). If it is one and there is no directory at the path, they print 'fatal:' as the last line, with exit status 0. If there is a directory, one of three cases holds. They run to the end, with exit status 0, and the directory has everything that is in the tree, and new files are found from the current directory. They print 'fatal:' with exit status 0, and then something not excluded is neither file nor directory (insert and commit panic in this case, see C93). Or they panic, and then a link come across leads nowhere, something of the tree is not in the directory, or a new file is not found from the current directory. Names that are not text are no obstacle.", "quantifier": "all repositories that processes of this program (with any failures) made, all trees of files, all paths, patterns, trees to compare with, and current directories", "why_tests_cant": "the cases depend on the combination of the directory, the tree and the current directory; the exit status is 0 in two of them", "anchors": [{"file": "src/main.rs", "symbols": ["compare", "status", "checkout_head", "main"]}, {"file": "src/diff.rs", "symbols": ["compare"]}, {"file": "src/dir.rs", "symbols": ["walk_real_fs_items", "hash_fs_item"]}]}
{"id": "C95", "title": "how compare --stat ends", "statement": "In a process in which nothing fails, compare --stat ends exactly in the ways in which compare does (C94), with one more way to panic. If an exclude pattern is not a glob, it panics (101). If there is no directory at the path, it prints 'fatal:' with exit status 0. If there is one: it runs to the end, and the directory has everything of the tree and no file where the tree has a directory; or it prints 'fatal:' with exit status 0, and something not excluded is neither file nor directory; or it panics, and a link come across leads nowhere, something of the tree is missing, a new file is not found from the current directory, or a file stands where the tree has a directory. It never hangs and never reports a difference as an error.", "quantifier": "all repositories that processes of this program (with any failures) made, all trees of files, all paths, patterns, keys and current directories, all caches whose entries are files of the database", "why_tests_cant": "the tests never run compare --stat; the last case needs an empty directory replaced by a file", "anchors": [{"file": "src/main.rs", "symbols": ["compare", "main"]}, {"file": "src/diff.rs", "symbols": ["compare", "print_stat_diff_result", "line_stat"]}, {"file": "src/file.rs", "symbols": ["read_data"]}]}
{"id": "C96", "title": "how checkout ends", "statement": "In a process in which nothing fails and whose HEAD names a commit: if an exclude pattern is not a glob, checkout panics (101). If all patterns are globs, the repository is in the hard-coded directory /home/jess/src/snapcd/repo, and no link below the repository leads nowhere, then checkout either runs to the end with exit status 0, and the tree can be checked out over what is there (C72), or prints 'fatal:' with exit status 0, and it cannot. It does not panic and does not hang.", "quantifier": "all repositories that processes of this program (with any failures) made, all trees of files, all trees committed, all patterns and current directories", "why_tests_cant": "the tests never check anything out; that no assertion fails anywhere between the removals and the writes, whatever is in the way, is a statement about all states of the working directory", "anchors": [{"file": "src/main.rs", "symbols": ["checkout", "main"]}, {"file": "src/dir.rs", "symbols": ["checkout_fs_item"]}, {"file": "src/filter.rs", "symbols": ["make_filter_fn"]}]}
{"id": "C97", "title": "how walk-fs-tree ends", "statement": "In a process in which nothing fails, with or without a repository: if there is no directory at the path, debug walk-fs-tree prints 'fatal:' with exit status 0. If there is one, it runs to the end with exit status 0, and everything below is a file or a directory (and nested no deeper than the stack allows); or it prints 'fatal:' with exit status 0, and something below is neither (a device, a link that leads nowhere); or the stack overflows, and something below is nested deeper than the stack allows. It never panics.", "quantifier": "all trees of files, all paths and current directories, with or without a repository; no bound on the depth", "why_tests_cant": "the tests never run walk-fs-tree; they cannot try all trees of files, and not all depths", "anchors": [{"file": "src/main.rs", "symbols": ["debug_walk_fs_tree", "main"]}, {"file": "src/dir.rs", "symbols": ["walk_real_fs_items", "internal_walk_real_fs_items"]}]}
{"id": "C98", "title": "commands that do not walk files always come to an end", "statement": "Whatever calls fail or are cut short, and whatever the files are like: init, fetch, show, log, checkout, pretty-print, commit-tree, walk-tree and all commands for references and HEAD come to an end (they never overflow the stack or loop for ever), provided that the stack and the loops allow for a chain as long as there are objects in the database. Their process has an exit status unless it is killed from outside.", "quantifier": "all repositories that processes of this program (with any failures) made, all sequences of failures and kills in this process, all trees of files, all arguments", "why_tests_cant": "absence of an endless recursion over all repositories and all failures cannot be tested; the tests only build small trees", "anchors": [{"file": "src/main.rs", "symbols": ["fetch", "show", "log", "checkout", "debug_walk_tree", "debug_commit_tree", "main"]}, {"file": "src/dir.rs", "symbols": ["checkout_fs_item", "get_fs_item", "internal_walk_fs_items"]}, {"file": "src/display.rs", "symbols": ["display_obj"]}]}
