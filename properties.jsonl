{"id": "C01", "title": "Every past backup is restorable", "statement": "After any sequence of completed backup sessions of a changing file, restoring it as of any earlier session gives the state the source had then: absent, directory, special, or regular file with exactly its content and the attributes compared - whatever mixture of increment types and compression was chosen and in whatever order the increments are listed; and a session in which the update of the file failed before anything was replaced restores as the session before. Conditions: librsync's patch undoes its delta and SHA-1 has no collision on the contents which occur; a change of content shows in size or compared attributes; no error was caught between writing the increment and replacing the mirror file. The last condition is needed: with a caught rename error, or a caught error while writing the diff, an earlier session is restored wrongly.", "quantifier": "all histories (any number of sessions, any sequence of file states), all session times, whatever mixture of snapshot/diff/missing/dir increments and of compression the backup chose", "why_tests_cant": "the history is unbounded and each increment is only meaningful relative to all later ones; tests try a few fixed sequences", "anchors": ["src/rdiffbackup/locations/_repo_shadow.py: _RepoIncrementITRB, _RestoreFile.get_restore_fp, _set_relevant_incs, get_diffs", "src/rdiffbackup/locations/increment.py: make_increment", "src/rdiff_backup/Rdiff.py: write_delta, write_patched_fp"]}
{"id": "C02", "title": "A crashed backup can always be rolled back", "statement": "If the backup of a file stops at any point between two file-system operations, with anything half-written, the following regress never raises an exception and brings mirror file and increments back to the state of the last complete session; over any history of sessions and interrupted sessions every completed session stays restorable. Conditions: those of C01; changes of content also show in size or loosely compared attributes (without owner); no special file was replaced by an empty file. The last two are needed: without them the regress loses data.", "quantifier": "all crash points of the per-file update sequence, all old/new file states", "why_tests_cant": "crash points are a schedule: every prefix of the operation sequence, for every combination of types", "anchors": ["src/rdiffbackup/locations/_repo_shadow.py: _RepoIncrementITRB.start_process/fast_process_file, _RepoRegressITRB, _RegressFile"]}
{"id": "C03", "title": "Regress is restartable", "statement": "A regress that is itself interrupted at any point and run again ends in the same state as an uninterrupted regress.", "quantifier": "all crash points inside regress, any number of interrupted attempts", "why_tests_cant": "needs every prefix of every attempt", "anchors": ["src/rdiffbackup/locations/_repo_shadow.py: _RepoRegressITRB, RepoShadow.regress, _regress_restore_orig_regfile"]}
{"id": "C04", "title": "Removing old increments preserves retained history", "statement": "After `remove increments --older-than T`, restoring at every session time >= the oldest retained session gives the same result as before; only increments older than T are deleted and the current mirror is never touched.", "quantifier": "all repositories, all histories, all cut-off times", "why_tests_cant": "depends on arbitrary histories combined with arbitrary cut-offs", "anchors": ["src/rdiffbackup/locations/_repo_shadow.py: RepoShadow.remove_increments_older_than, _get_removal_time/init_and_get_..."]}
{"id": "C05", "title": "More than one session is only deleted with --force", "statement": "Removing increments older than T happens only if T is understood and something is to be removed, removes exactly the counted increments older than T, and without --force happens only if exactly one counted increment is older than T. What is counted are the increments of the root directory; sessions in which the root directory did not change have none and are not counted, so that more than one session may be removed without --force.", "quantifier": "all lists of session times and cut-off times", "why_tests_cant": "list of arbitrary length", "anchors": ["src/rdiffbackup/actions/remove.py", "src/rdiffbackup/locations/repository.py", "src/rdiffbackup/locations/_repo_shadow.py: get_increment_times, init_owners_mapping"]}
{"id": "C06", "title": "Interrupted sessions are always detected", "statement": "After a completed backup, a successful regress or a removal the repository reports no need for a regress and its mirror time is the time of the last completed session; a session interrupted anywhere after its first and before its last operation is reported, and the regress completes however often it is itself interrupted, leaving exactly the files of the completed sessions; a first session which did not complete is removed. Condition: the increments directory has content; it is needed: while it is empty, an interrupted session is not reported and the repository stays blocked. While an interrupted session is present, the time a restore takes for the mirror's may be the interrupted session's.", "quantifier": "all interleavings of session start, session end, crash and regress", "why_tests_cant": "crash histories are unbounded", "anchors": ["src/rdiffbackup/locations/_repo_shadow.py: touch_current_mirror, remove_current_mirror, needs_regress, get_mirror_time, _is_failed_initial_backup"]}
{"id": "C07", "title": "Timestamps round-trip", "statement": "The timestamp put in a file name for a session denotes the very same second when read back, for every zone east of Greenwich and every zone west of it by whole hours; for a zone west of Greenwich by h hours and m minutes, it denotes a time exactly 2*m minutes earlier. It consists of digits and - : + T Z only.", "quantifier": "all times in the supported range and all time-zone offsets", "why_tests_cant": "range of 2^32 seconds times all zone offsets; the tests run in a few zones", "anchors": ["src/rdiff_backup/Time.py: timetostring, stringtotime, _get_tzd, _tzd_to_seconds"]}
{"id": "C08", "title": "Increment file names are unambiguous", "statement": "The (base name, time, type, compression) encoded in an increment file name is recovered exactly, whatever bytes the base name contains, dots included; two different increments never share a name; and a listing of a directory gives exactly the increments of the base name within the times asked for. (Zones as in C07.) The increments directory of a source directory whose own name looks like an increment is taken for an increment, too.", "quantifier": "all base names (any bytes incl. dots), all timestamps, types and compression flags", "why_tests_cant": "infinitely many names, including names which look like increments", "anchors": ["src/rdiffbackup/locations/increment.py: get_increment", "src/rdiff_backup/rpath.py: RPath.isincfile, get_incfile_info / increment parsing"]}
{"id": "C09", "title": "Paths in metadata and file statistics are newline safe", "statement": "Quoting a path for a line-based file and unquoting it returns the same path, and the quoted form never contains a newline; distinct paths have distinct quoted forms.", "quantifier": "all byte strings", "why_tests_cant": "infinite domain; escapes interact (backslash followed by n)", "anchors": ["src/rdiffbackup/utils/quoting.py: quote_path, unquote_path", "src/rdiffbackup/meta/stdattr.py"]}
{"id": "C10", "title": "File-name quoting for limited file systems is reversible", "statement": "A file name quoted for a destination file system with a restricted character set contains no forbidden character (except the quoting character itself), no trailing space or period and is no DOS device name where these are escaped, and unquotes to the original name, so that different names stay different; the set of characters used by a repository never changes once stored. Condition: no byte >= 128 is quoted, which holds for every destination with extended file names; on others names with such bytes do not survive.", "quantifier": "all names, all sets of characters to quote, with and without trailing-space and DOS-device escaping", "why_tests_cant": "infinite domain crossed with configuration", "anchors": ["src/rdiffbackup/locations/map/filenames.py: quote, unquote, get_quoting_regexps"]}
{"id": "C11", "title": "File metadata survives the metadata file", "statement": "Writing the attributes of any list of files into a metadata file and reading it back gives the same descriptions in the same order, independently of how the file is cut into blocks; every complete description can be written; storing twice changes nothing more; a damaged record costs only itself. Exception: a user or group called \"None\" is read back as no name.", "quantifier": "all lists of file attribute records, all block sizes", "why_tests_cant": "block boundaries may fall anywhere in any record", "anchors": ["src/rdiffbackup/meta/stdattr.py: AttrExtractor", "src/rdiffbackup/meta/__init__.py: FlatExtractor, FlatFile"]}
{"id": "C12", "title": "Metadata history is reconstructible", "statement": "With metadata stored as one full snapshot and a chain of reverse diffs, the metadata of every session in the chain is recovered exactly.", "quantifier": "all histories of metadata listings, all chain lengths", "why_tests_cant": "unbounded histories", "anchors": ["src/rdiffbackup/meta_mgr.py: PatchDiffMan"]}
{"id": "C13", "title": "Restoring a subtree sees exactly the subtree's metadata", "statement": "Reading metadata restricted to a path yields exactly the records of that path and of what lies below it, in order.", "quantifier": "all sorted metadata files, all restriction paths, all block sizes", "why_tests_cant": "prefix/ordering subtleties (a, a-b, a/b) over infinitely many trees", "anchors": ["src/rdiffbackup/meta/__init__.py: FlatExtractor.iterate_starting_with, _skip_to_index"]}
{"id": "C14", "title": "Comparison of two trees misses nothing", "statement": "Collating two sorted listings presents each path of either listing exactly once, in order, paired with exactly the entry of the same path of the other listing, or nothing.", "quantifier": "all pairs of strictly sorted listings of any length", "why_tests_cant": "unbounded lists", "anchors": ["src/rdiff_backup/rorpiter.py: Collate2Iters, CollateIterators, FillInIter"]}
{"id": "C15", "title": "Directories are finished exactly once and only after their content", "statement": "While a sorted listing is processed, each directory is closed exactly once, after all entries below it and before any later sibling; wrongly ordered input is rejected.", "quantifier": "all sequences of paths", "why_tests_cant": "unbounded nesting", "anchors": ["src/rdiff_backup/rorpiter.py: IterTreeReducer, ITRBranch"]}
{"id": "C16", "title": "The first matching include/exclude option decides", "statement": "A file is selected according to the first selection option, in command-line order, which says something of it, and is included when none does; a glob says something of a file exactly if its path or the path of a directory above matches the pattern (all patterns: ?, *, **, [..], ignorecase:), a plain name exactly of itself and what is below (and, including, above), a list of files to be included or to be excluded exactly of the files listed, of the directories above resp. of what is below; rdiff-backup's own data is never selected; a list ending with an inclusion is rejected. Exceptions: in a file list mixing + and - an excluding line hides the directories above later including lines; a glob also matches a name with a newline added.", "quantifier": "all option lists, all files", "why_tests_cant": "unbounded option lists", "anchors": ["src/rdiff_backup/selection.py: Select._select_default, set_iter"]}
{"id": "C17", "title": "Tree selection is consistent", "statement": "The files selected from a directory tree are those described recursively: an excluded directory hides its content, a directory merely scanned appears only if something below is selected; each once, in order, parents first, and without exception. With an included glob (without brackets and backslashes), exactly the files covered by it and the directories above them are selected. Filtering a listing (restore, comparison) gives exactly the included entries, provided that no option asks for a directory to be scanned and what is in an excluded directory is excluded; the proviso is needed, and so is the one on brackets and backslashes.", "quantifier": "all trees and all selection functions", "why_tests_cant": "unbounded trees; delayed directories stack up arbitrarily deep", "anchors": ["src/rdiff_backup/selection.py: Select._iterate_rpath, _diryield, FilterIter"]}
{"id": "C18", "title": "Pre-filtering by file name does not change the selection", "statement": "Deciding on the name alone before looking at the file never raises an exception and never changes which files are selected, for all options but two: with --exclude-other-filesystems the backup of any non-empty directory fails, and in file lists mixing + and - included files may be lost.", "quantifier": "all option lists and trees", "why_tests_cant": "options are stateful functions in places", "anchors": ["src/rdiff_backup/selection.py: _select_filename, _filelist_get_sf, _filelist_filter_func"]}
{"id": "C19", "title": "A restricted server only touches files under the restriction path", "statement": "A request executed by a process restricted to a directory names only paths leading into it, and a request naming a path with a .. component is refused, whatever the requests and their order - as long as no request overwrites specifics.local_connection and the repositories found lie in the directory; after setting up a repository the server is restricted to it. Exceptions: attributes of any file can be asked for (rpath.get_rpath_data is not vetted); overwriting local_connection switches the check off; setting up a repository from a path below it widens the restriction to the repository.", "quantifier": "all paths, all requests, all argument positions", "why_tests_cant": "adversarial input", "anchors": ["src/rdiff_backup/Security.py: vet_request, _vet_rpath, _vet_filename"]}
{"id": "C20", "title": "A server's restriction mode bounds what it executes", "statement": "A server in a given mode executes only requests of the list for this mode, or assignments of settings other than \"server\"; the read-only list has no writing request, the update-only list no destroying or reading one, the minimal list neither; nothing of Python itself can be called; the client protects its own side likewise. Exceptions: settings can be assigned in every mode, and setting up a repository writes to it in read-only mode if the client asks for that.", "quantifier": "all request names and arguments, all modes", "why_tests_cant": "adversarial input", "anchors": ["src/rdiff_backup/Security.py: _set_allowed_requests, vet_request, initialize"]}
{"id": "C21", "title": "Streams of files survive the connection", "statement": "A stream of objects and files converted to a byte stream and back gives the same objects and file contents in the same order, for every splitting into blocks and every sequence of reads, including files read in pieces; errors while reading a file are passed on as errors - provided each file is read to its end or to its error; leaving a file before its end raises TypeError. (pickle is assumed to round-trip.)", "quantifier": "all streams, all file contents, all read-size schedules", "why_tests_cant": "schedules of reads are unbounded", "anchors": ["src/rdiff_backup/iterfile.py: FileWrappingIter, IterWrappingFile, MiscIterToFile, FileToMiscIter"]}
{"id": "C22", "title": "Connection messages are framed unambiguously", "statement": "Any sequence of messages written on a connection is read back as the same sequence (type, request number, payload); what cannot be sent is refused; different sequences have different byte streams; a connection breaking between messages or within a header is noticed, the messages before being delivered. A break within the data of a message is not noticed: shorter data is delivered. (pickle is assumed to round-trip.)", "quantifier": "all message sequences, payloads below 2^56 bytes", "why_tests_cant": "unbounded sequences", "anchors": ["src/rdiff_backup/connection.py: LowLevelPipeConnection._write, _get, _i2b, _b2i"]}
{"id": "C23", "title": "Concurrent/nested remote calls get their own answers", "statement": "Each remote call receives the result of its own request, also when requests are nested in both directions; request numbers in use are never reused.", "quantifier": "all nestings of calls", "why_tests_cant": "unbounded schedules", "anchors": ["src/rdiff_backup/connection.py: PipeConnection.reval, get_new_req_num, get_response, answer_request"]}
{"id": "C24", "title": "Hard-link bookkeeping", "statement": "In a backup or restore every file which is not left as it is is written if it is the first name of its inode met, and linked to the first name otherwise, whatever the cache size; names of different inodes are never linked; a file is left as it is only if it compares equal and its links are as before; the first name's checksum serves all; a restored tree has exactly the links of the original; nothing is remembered once all names were seen; nothing changes if nothing changed. Conditions: link counts do not change meanwhile, restoring is into an empty place, and no formerly single file became the first name of an unchanged one; each is needed.", "quantifier": "all interleavings of link groups", "why_tests_cant": "unbounded orders of links", "anchors": ["src/rdiffbackup/locations/map/hardlinks.py"]}
{"id": "C25", "title": "Long file name replacements never collide", "statement": "Each too-long file name gets its own replacement name, never one given out before or in use, over any history of requests, creations, deletions and restarts; two files never share a place; what a backup stores is found by the restore; a name with files is never given out even if writing the counter is interrupted. Exceptions: a lost counter may give out again a name recorded but not yet used; an empty counter file blocks later requests; a shrinking limit on names loses increments.", "quantifier": "all contents of the directory, all histories of restarts", "why_tests_cant": "unbounded histories", "anchors": ["src/rdiffbackup/locations/map/longnames.py: _get_next_free_filename"]}
{"id": "C26", "title": "Verification detects every mismatch", "statement": "`verify` succeeds only if every regular file with a recorded checksum re-computes to this checksum; otherwise it reports a failure.", "quantifier": "all listings and contents", "why_tests_cant": "unbounded listings", "anchors": ["src/rdiffbackup/locations/_repo_shadow.py: RepoShadow.verify", "src/rdiff_backup/hash.py"]}
{"id": "C27", "title": "Delta block size bounds", "statement": "The block size chosen for signatures is always a positive multiple of 16, at least 64 for files below ~1 kB (none for empty) and grows with the square root of the file size.", "quantifier": "all file lengths", "why_tests_cant": "all integers", "anchors": ["src/rdiff_backup/Rdiff.py: _find_blocksize"]}
{"id": "C28", "title": "Copying a file preserves content", "statement": "Copying a file (including with sparse handling of zero blocks, compressed or not, in whatever pieces it is read) to a new file produces exactly the input bytes and the returned checksum is theirs; comparing two files read in full blocks tells exactly whether they are equal. Copying over an existing content would keep old bytes, and comparing with short reads would err.", "quantifier": "all contents, all block boundaries", "why_tests_cant": "sparse blocks may be anywhere incl. the end", "anchors": ["src/rdiff_backup/rpath.py: copyfileobj", "src/rdiff_backup/hash.py"]}
{"id": "C29", "title": "Delta/signature file wrappers deliver the stream", "statement": "Reading a signature/delta/patched file through its file-like wrapper in pieces of any sizes returns consecutive pieces of the same byte stream.", "quantifier": "all read-size schedules, all job outputs", "why_tests_cant": "schedule of reads", "anchors": ["src/rdiff_backup/librsync.py: LikeFile"]}
{"id": "C30", "title": "At most one writer works on a repository", "statement": "While a writing process not forced is at work, no other writing process not forced is, nor a reader which got its lock - for any number of processes, any interleaving of their steps, any of them killed anywhere - once the first backup is complete, or as long as no process removes what it takes for a failed first backup; a lock does not outlive its process. Exceptions: two first backups started together can both be at work; after a killed first backup the lock file left stops all unforced backups.", "quantifier": "all interleavings of lock/unlock", "why_tests_cant": "interleavings", "anchors": ["src/rdiffbackup/utils/locking.py", "src/rdiffbackup/locations/_repo_shadow.py: lock, unlock, _is_locked"]}
{"id": "C31", "title": "ACL and EA text fields round-trip", "statement": "Extended attributes and ACLs of the files of a session, written to their metadata files, are read back identically - whole or below a path, however the file is cut into blocks - and every file gets its own, and an ACL read back compares equal. Conditions: attribute names without blanks, =, \\ and non-ASCII bytes; owner names which are not numbers; both needed.", "quantifier": "all attribute names and values", "why_tests_cant": "infinite domain with special characters", "anchors": ["src/rdiffbackup/meta/ea.py", "src/rdiffbackup/meta/acl_posix.py", "src/cmodule.c"]}
{"id": "C32", "title": "Owner mapping", "statement": "Without options a file's owner is the user of the same name here if there is one, else the same id; a named ACL entry is kept exactly if its user exists here. With a mapping file of blank and old:new lines the last entry for the name counts, else the user of the same name here, else the entry for the id, else the id (for ACLs: dropped); a bad line stops the program; the numerical map keeps all ids. All this for any user database with one name per id, and whatever was looked up before. Where this differs from the manual: --preserve-numerical-ids does not select the numerical map; an entry for the id is not used if the name exists here; a nameless ACL entry not listed is dropped; an unknown name on the right is not reported; with several names for an id the name reported depends on earlier lookups.", "quantifier": "all mapping files, user databases, ids and names", "why_tests_cant": "unbounded configurations", "anchors": ["src/rdiffbackup/locations/map/owners.py"]}
{"id": "C33", "title": "Time specifications", "statement": "A time given as interval, nB session count, now, epoch seconds, timestamp or date resolves to the documented instant, and nothing else is accepted; a duration in words sums up to its seconds. (Zones as in C07; the time zero written as a timestamp is refused; nB beyond the oldest session is the oldest.)", "quantifier": "all strings/values", "why_tests_cant": "infinite domain", "anchors": ["src/rdiff_backup/Time.py: genstrtotime, _intervalstr_to_seconds, _time_from_session"]}
{"id": "C34", "title": "Restore picks the latest session not after the requested time", "statement": "Restoring as of time T uses the most recent session with time <= T, or the oldest one when T precedes all of them.", "quantifier": "all lists of sessions, all T", "why_tests_cant": "unbounded histories", "anchors": ["src/rdiffbackup/locations/_repo_shadow.py: _get_restore_time / set_rorp_cache, get_increment_times"]}
{"id": "C35", "title": "Mirror metadata says what was really written", "statement": "After a backup each path's recorded metadata is the one of the source if its update succeeded, and of the old mirror if it failed; each path is recorded at most once and in order; nothing is lost from the bounded cache.", "quantifier": "all listings, all success/failure patterns, all cache sizes", "why_tests_cant": "unbounded schedules of delayed flushes", "anchors": ["src/rdiffbackup/locations/_repo_shadow.py: _CacheCollatedPostProcess"]}
{"id": "C36", "title": "Session statistics add up", "statement": "The per-session counters are the sums over the processed files, in whatever order they are reported, and balance; writing and reading a statistics file preserves them, as long as they are at most 2^53; larger ones change.", "quantifier": "all sequences of processed files", "why_tests_cant": "unbounded", "anchors": ["src/rdiffbackup/singletons/sstats.py", "src/rdiffbackup/singletons/fstats.py"]}
{"id": "C37", "title": "Restoring works on unreadable mirror files and gives their permissions back", "statement": "When a process which is not root restores (or verifies, or compares with) files whose data lies in mirror directories or files without owner permissions, then for files asked for in path order every permission change succeeds, the file worked on and all directories on the way can be used at that time, permissions differ from the original ones only on the way to one path worked on, and finishing - at any point - gives every file of the mirror exactly the permissions it had before.", "quantifier": "all mirror trees and permissions, all sequences of requests in order, every point at which the restoring finishes", "why_tests_cant": "unbounded nesting and every combination of permissions and of request order", "anchors": ["src/rdiffbackup/locations/_repo_shadow.py: _PermissionChanger, _CachedRF"]}
{"id": "C38", "title": "Removing a path from the repository removes exactly it", "statement": "`remove file` deletes the metadata records of the path and of everything below, in all sessions, the files of the mirror and all increments at and below it and their long-name files, and nothing else; a dry run changes nothing. Conditions, each needed: no statistics line of another file continues the path with a blank; neither the path nor a directory next to it is named like an increment.", "quantifier": "all metadata files, paths", "why_tests_cant": "prefix subtleties", "anchors": ["src/rdiffbackup/locations/_repo_shadow.py: RepoShadow.remove_file, _remove_from_metadata", "src/rdiffbackup/actions/remove.py"]}
{"id": "C39", "title": "Increment sizes", "statement": "The sizes reported are, for every time at which there are increments, exactly the sum of the sizes of all increments of this time, for the mirror the sum of its files, and cumulative sizes from the mirror back; one entry per time, ordered by time; totals grow towards the past.", "quantifier": "all repositories", "why_tests_cant": "unbounded", "anchors": ["src/rdiffbackup/locations/_repo_shadow.py: get_increments_sizes"]}
{"id": "C40", "title": "Unchanged files are recognised", "statement": "A file whose recorded description equals the source's is recognised as unchanged, and any difference in type, size, modification time, permissions, owner (where compared), links, ACLs or extended attributes (where kept) is noticed. Exceptions: a special file without content equals an empty regular file of the same attributes; resource forks are compared even when they are not kept.", "quantifier": "all pairs of records", "why_tests_cant": "infinite domain", "anchors": ["src/rdiff_backup/rpath.py: RORPath.__eq__, equal_loose", "src/rdiffbackup/locations/_dir_shadow.py: get_diffs"]}
{"id": "C41", "title": "Comparison reports exactly the differences", "statement": "`compare` reports a path exactly if it exists on one side only, or its entries (type, size, attributes) differ, or - with the methods hash and full - the data of two regular files differ (by recorded checksum, resp. byte by byte); the exit code is OK exactly if nothing is reported. Exceptions: method hash misses a changed hard-linked file whose first name is gone from the source; method full fails if the selection leaves out a file present on both sides.", "quantifier": "all source and repository listings and contents", "why_tests_cant": "unbounded listings, all combinations of types and hard links", "anchors": ["src/rdiffbackup/locations/_dir_shadow.py: compare_meta, compare_hash, compare_full, _get_basic_report", "src/rdiffbackup/locations/_repo_shadow.py: _attach_files", "src/rdiffbackup/actions/compare.py: _print_reports"]}
{"id": "C42", "title": "File statistics of sessions add up to a correct report", "statement": "From the file statistics written by sessions, `rdiff-backup calculate` computes, for every directory and session, the number of changed files, source size and increment size of everything below it; the directories dropped are exactly those below the cutoff; sessions are added path by path; and in the report of top directories nothing is counted twice and what isn't reported of a directory is at most the cutoff. (Holds for paths not starting with '#', which are taken for comments.)", "quantifier": "all directory trees of any depth and width, all names, sizes and cutoffs, all pairs of sessions", "why_tests_cant": "the tree is rebuilt from a flat listing by two stack algorithms whose correctness depends on the shape of the whole tree", "anchors": ["src/rdiffbackup/singletons/fstats.py: FileStatsTree.make, _yield_fs_objs, _accumulate_fs, _make_root_tree, _make_tree_one_level, merge_tree, get_top_fs", "src/rdiffbackup/singletons/fstats.py: FileStatsTracker.add_stats"]}
{"id": "C43", "title": "Buffered line files: lines read are lines written", "statement": "The lines read from a statistics file are exactly the lines written to it, whatever the buffer size when writing and wherever the blocks read happen to cut the file; of a file cut short at any byte, the lines read are the first lines written, the last one maybe cut.", "quantifier": "all lists of lines without the separator, all buffer sizes, all block boundaries, all cut points", "why_tests_cant": "block boundaries can fall at every byte position, including on separators and in several lines at once", "anchors": ["src/rdiffbackup/utils/buffer.py: LinesBuffer.write, flush, close, __iter__, _replenish_buffer"]}
{"id": "C44", "title": "Every session still held is restored as a whole tree", "statement": "After any sequence of backups, interrupted backups followed by regress (itself possibly interrupted), and removals of old increments, restoring the repository as of any completed and not removed session gives exactly one entry per path, in order, and for every path whose update worked in that session the file, directory or special file the source had (content exactly, attributes as far as rdiff-backup compares them), and nothing where the source had nothing; restoring a sub-path gives the corresponding part of the same tree. Conditions: librsync's patch undoes its delta and SHA-1 has no collision on the contents which occur at a path; no two versions of a path agree in size and compared attributes but differ in content; no error was caught between writing an increment and replacing the mirror file, no special file was replaced by an empty one.", "quantifier": "all source trees of any size and depth, all histories of sessions, crashes (at any point, any order of operations across paths), interrupted regresses and removals, all orders in which directories are listed, all per-file outcomes", "why_tests_cant": "histories, trees and crash points are unbounded; the property ties together the metadata chain, the increments of every path and the markers", "anchors": ["src/rdiffbackup/locations/_repo_shadow.py: RepoShadow.get_sigs, apply, get_diffs, regress, remove_increments_older_than", "src/rdiffbackup/meta_mgr.py: PatchDiffMan", "src/rdiffbackup/actions/backup.py"]}
{"id": "C45", "title": "The repository never gets stuck", "statement": "In every state a repository can reach (same histories as in C44) a backup with a later time is accepted and completes; and if it is interrupted at any point after its marker was written and before the old one is removed, whatever the order of operations on different paths, a regress never stops with an exception, however often it is itself interrupted, leaves the mirror time of the last completed session, and every held session restores exactly as before.", "quantifier": "all reachable repositories, all following sessions, all crash points and interleavings, any number of interrupted regress attempts", "why_tests_cant": "crash points and interleavings of operations across paths are combinatorially many and must hold for every history", "anchors": ["src/rdiffbackup/actions/backup.py: BackupAction.run", "src/rdiffbackup/locations/_repo_shadow.py: needs_regress, regress, _regress_rbdir, _RepoRegressITRB"]}
{"id": "C46", "title": "Restoring finds the data of every file which has data, and notices when there is none", "statement": "For files asked for in path order, restoring finds a file exactly when the repository has data of it (an entry in the mirror, an increment, or a directory of its name among the increments), within a bounded number of steps, provided that for a file without data the directory has no data at all or has some for a file coming later. Without that proviso (the data of the last file of a directory is lost) the search never ends.", "quantifier": "all repositories (mirror and increments directories), all sequences of requests in order", "why_tests_cant": "termination and answers for every repository state and request sequence", "anchors": ["src/rdiffbackup/locations/_repo_shadow.py: _CachedRF._get_rf, _CachedRF._add_rfs, _RestoreFile.yield_sub_rfs, yield_inc_complexes"]}
{"id": "C47", "title": "A restore turns the target directory into exactly what was asked for", "statement": "Whatever a target directory holds and whatever permissions its directories have, a restore into it never stops and leaves at every path what was asked for (type, content, permissions, modification times, also of all directories, although working inside changes these), deletes what is listed there but not asked for, touches nothing that compares equal or isn't listed (selection), and leaves no temporary file; restoring again changes nothing. Exception: if a directory that has to be removed holds a file excluded by the selection, the restore stops with an exception.", "quantifier": "all trees asked for, all trees found in the target (any permissions, types, nesting), all selections, all clocks", "why_tests_cant": "trees, their types, permissions and nesting are unbounded; the order of permission changes, temporary files and directory times has to fit for every combination", "anchors": ["src/rdiffbackup/locations/_dir_shadow.py: WriteDirShadow.apply, _DirPatchITRB", "src/rdiff_backup/rorpiter.py: FillInIter, IterTreeReducer", "src/rdiffbackup/locations/_repo_shadow.py: RepoShadow.get_diffs"]}
{"id": "C48", "title": "After every session the mirror is what its metadata says", "statement": "Whatever the source and the mirror are, a session (with increments or without) runs to its end; files which cannot be written, increments which cannot be made and deletions which fail are caught, and then at every path the mirror holds what the metadata written by the session says: the source where the change was made, the old state where it failed, nothing where it was deleted (with permissions and times of the directories); without failures that is the source. So through any number of sessions the metadata always describe the mirror; rdiff-backup-data and other unlisted files stay untouched, no temporary file is left. Exceptions: a file whose deletion fails in a directory to be removed stops the session; not as root, directories without full owner permissions are kept usable (0700 added) when the changes are done.", "quantifier": "all sources, all mirrors, all sets of failing files, all histories of sessions, root or owner", "why_tests_cant": "which change fails at which place in which tree is unbounded; the metadata must fit in every combination and after every history", "anchors": ["src/rdiffbackup/locations/_repo_shadow.py: RepoShadow.apply, _RepoPatchITRB, _RepoIncrementITRB, _CacheCollatedPostProcess.flag_success, flag_deleted", "src/rdiff_backup/rorpiter.py: FillInIter, IterTreeReducer"]}
{"id": "C49", "title": "A backup by an ordinary user copes with directories it may not change", "statement": "Whatever permissions the directories of source and mirror have, a backup run by an ordinary user (or root) works to its end: directories of the mirror without full permissions for their owner are opened while the session works in them, and at the end have the permissions of the source again; nothing else is changed by this. Through any number of sessions the metadata describe the mirror up to the owner's permissions of directories, and after two sessions from the same source the mirror is exactly the source. Exceptions: a directory newly without full owner permissions stays open (0700 added) in the mirror until the next session; and, if more entries than the cache holds follow, the last opened directory gets its permissions back while a removal in it is still pending, and the backup fails.", "quantifier": "all permissions of all directories in all sources and mirrors, all sets of failing files, all histories of sessions, root or owner", "why_tests_cant": "the combinations of permissions, nesting and changes are unbounded, and the tests usually run as root or with ordinary permissions", "anchors": ["src/rdiffbackup/locations/_repo_shadow.py: _CacheCollatedPostProcess._pre_process, _unreadable_dir_init, _reset_dir_perms, close; _RepoPatchITRB.end_process_directory"]}
{"id": "C50", "title": "A location on the command line means what the manual says", "statement": "A location is split at a double colon into host and path; a backslash makes a following colon or backslash an ordinary character; without double colon it is a local path. Every description is understood like this: plain paths are themselves, every host and every path can be written with quoting and is got back byte by byte, more than one separator or a missing part is reported. Exceptions: a host ending with two backslashes loses one, a path of nothing but backslashes makes a remote location a local one, a part beginning with backslashes and a newline is lost, and no path with a backslash can be named.", "quantifier": "all byte strings given as a location, all hosts and paths", "why_tests_cant": "the combinations of colons and backslashes are unbounded, and a misread location writes to or reads from the wrong place", "anchors": ["src/rdiff_backup/SetConnections.py: parse_location"]}
{"id": "C51", "title": "The remote command is the remote schema with the host filled in, literally", "statement": "For every schema of text (braces doubled) and the placeholders {h}, {Vx}, {Vy}, {Vz}, and for every host, the command run is the text with the host and version put in literally: nothing in the host is interpreted as a placeholder. A schema without {h} is refused, and no other placeholder is evaluated. Exceptions: a doubled brace in front hides another placeholder from the check; the host directly between doubled braces is refused; a single closing brace ends in an exception.", "quantifier": "all schemas, all hosts, all versions", "why_tests_cant": "schema and host are arbitrary byte strings, and the command is executed by a shell", "anchors": ["src/rdiff_backup/SetConnections.py: _fill_schema, get_cmd_pairs"]}
{"id": "C52", "title": "Client and servers agree on an API version which all support", "statement": "If the connection is accepted, client and server use the same API version, in the range of both, and it is the one asked for, if one was; without one asked for, they agree whenever there is a common version, on the one closest to the client's default. With several servers all use the same version. Exception: the first server decides; a version common to all may exist and yet the second connection be refused.", "quantifier": "all ranges, defaults and chosen versions of client and servers, any number of servers", "why_tests_cant": "which versions meet is decided by future releases; the tests have one version only", "anchors": ["src/rdiff_backup/SetConnections.py: _validate_connection_version", "src/rdiffbackup/singletons/specifics.py: set_api_version, get_api_version"]}
{"id": "C53", "title": "Listing files and changes shows exactly what the sessions stored", "statement": "`list files --at T PATH` lists exactly the paths at or below PATH stored by the last session not later than T (the oldest session held if all are later), each once and in order. `list files --changed-since T PATH` prints one line per path at or below PATH which the last session has and that session has not (new), the other way round (deleted), or which both have but differ (changed); no other line. Different entries give different lines.", "quantifier": "all histories of sessions, interrupted ones with regress included, removals of old sessions, all times and paths", "why_tests_cant": "the records come from chains of reverse diffs of any length and are merged as streams; which session is meant depends on the whole history", "anchors": ["src/rdiffbackup/locations/_repo_shadow.py: list_files_changed_since, list_files_at_time, _set_restore_time", "src/rdiff_backup/rorpiter.py: Collate2Iters"]}
{"id": "C54", "title": "The increments listed for a path tell what it was in each session", "statement": "`list increments PATH` gives times of sessions in increasing order, the last entry being the mirror with the time of the last session. For every session which can be restored, the first entry not older than the session has the type (regular, directory, special, missing) of what is restored for that session, which is what the source had; also after old increments are removed. Exception: a special file which couldn't be created in the repository is listed as regular.", "quantifier": "all histories of a path, all listing orders of the increment files, all session times", "why_tests_cant": "the entry which describes a session may have been written any number of sessions later", "anchors": ["src/rdiffbackup/locations/_repo_shadow.py: get_increments, _get_inc_type, _get_file_type", "src/rdiffbackup/actions/list_.py: _list_increments"]}
{"id": "C55", "title": "Removing old increments beside an interrupted session doesn't prevent its recovery", "statement": "When a backup was interrupted and not yet regressed, `remove increments --older-than T` with T not later than the last completed session leaves the repository recoverable: the interruption is still recognised, regress (however often it is itself interrupted) completes, and every session not removed is then restored as it was before the interrupted session. Exception found: with T later than the last completed session the command deletes the marker and metadata of that session, nothing reports the interruption any more and no session can be restored.", "quantifier": "all histories, all interrupted sessions (every interruption point, per path and in the data directory), all numbers of removals, all interruption points of the regress", "why_tests_cant": "the state left by the interruption and the removals depends on the whole history and on arbitrary interruption points", "anchors": ["src/rdiffbackup/locations/_repo_shadow.py: remove_increments_older_than, _get_removal_time, needs_regress, regress", "src/rdiffbackup/actions/remove.py: RemoveAction.run"]}
{"id": "C56", "title": "A forced regress undoes exactly the last session", "statement": "`regress --force` on a repository which doesn't need a regress and holds two sessions or more removes the last session: afterwards the repository's time is that of the session before, each earlier session is restored exactly as before, and the next backup works. However often the regress is interrupted, it completes when repeated. With a single session nothing is changed.", "quantifier": "all histories (sessions, interrupted ones, removals, earlier forced regresses), all interruption points of the regress", "why_tests_cant": "the mirror is put back from increments and metadata whose form depends on the whole history; the regress may stop anywhere", "anchors": ["src/rdiffbackup/locations/_repo_shadow.py: force_regress, regress, _RegressITRB, get_increment_times", "src/rdiffbackup/actions/__init__.py: _operate_regress", "src/rdiffbackup/actions/regress.py: RegressAction.run"]}
{"id": "C57", "title": "A refused command changes nothing and fails", "statement": "When a command is to be refused because of what it is given (a location can't be connected, no temporary directory, no source directory, no repository, a target which is something else and no --force, options which contradict each other, a path below the repository where the repository is required or the other way round), nothing at all is written on either side and the exit status says error. Exceptions found: calculate ignores a missing --tempdir; restore --force over a file deletes the file before it refuses an invalid time or a repository which needs a regress.", "quantifier": "all commands, all options, all states of the locations, all outcomes of the calls", "why_tests_cant": "the refusals and states combine freely; the absence of effects must hold on each path through the checks", "anchors": ["src/rdiffbackup/run.py: main_run", "src/rdiffbackup/actions/*.py: pre_check, check", "src/rdiffbackup/locations/location.py: check", "src/rdiffbackup/locations/_repo_shadow.py: _is_existing, _is_writable", "src/rdiffbackup/locations/_dir_shadow.py: check"]}
{"id": "C58", "title": "Commands write to their target only, and overwrite nothing foreign without --force", "statement": "Restore writes in the target directory only, each other command in the repository only; backup never writes in the source. Without --force no target is deleted; backup writes only if the repository's directory is missing, empty or has repository data; restore only if the target is missing or an empty directory. A repository with a current_mirror marker, or with a lock file and no --force, is never cleared as the rest of a failed initial backup. Exception found: without marker and lock file also remove and regress clear it.", "quantifier": "all commands, options, states of the locations, outcomes of the calls and points where the process ends", "why_tests_cant": "every way through checks and setup has to be covered, including errors of any call", "anchors": ["src/rdiffbackup/actions/backup.py", "src/rdiffbackup/actions/restore.py", "src/rdiffbackup/locations/location.py: _is_writable, _create", "src/rdiffbackup/locations/_repo_shadow.py: setup, _create, _clean_failed_initial_backup", "src/rdiffbackup/locations/_dir_shadow.py: check, setup"]}
{"id": "C59", "title": "Reading commands don't write", "statement": "verify, list, calculate, info and test write nothing, whatever happens; compare writes at most configuration files of the repository which are missing, and nothing if they are there.", "quantifier": "all options, states and outcomes", "why_tests_cant": "the absence of writes must hold on each path including errors", "anchors": ["src/rdiffbackup/actions/{verify,list_,calculate,info,test,compare}.py", "src/rdiffbackup/locations/fs_abilities.py: _compare_ctq_file, set_special_escapes"]}
{"id": "C60", "title": "A command works in a fixed order: lock, recovery, marker, changes, marker", "statement": "Backup first prepares (directories, lock, tests, configuration, logs), then regresses if and only if the repository needs it and goes on only if that succeeded, and only if the time is after the last session's; then for a first session: apply, marker, statistics, for a later one: new marker, apply, old marker removed, statistics - each step only after the one before has succeeded. Nothing is changed by a writing command before the lock was taken (or there is no lock file, or --force). A restore happens only from a repository which needs no regress and isn't locked.", "quantifier": "all states, options, outcomes of each call, points where the process ends", "why_tests_cant": "any call may fail or be the last", "anchors": ["src/rdiffbackup/actions/backup.py: setup, run, _operate_backup", "src/rdiffbackup/actions/__init__.py: _operate_regress", "src/rdiffbackup/actions/{remove,regress,restore}.py", "src/rdiffbackup/locations/_repo_shadow.py: setup, _lock"]}
{"id": "C61", "title": "Exit status without error means the work was done", "statement": "If backup ends without the error bit in its exit status, the whole session was carried out in order (with a warning if a regress was necessary); remove: the removal was carried out without error and its warnings are passed on; regress: done if needed (with a warning); restore: carried out without OSError. The lock is given up at the end unless the process is killed. Exceptions found: compare with a time that can't be parsed isn't stopped by setup; verify forgets warnings of the setup.", "quantifier": "all states, options, outcomes", "why_tests_cant": "exit codes are combined over many calls each of which may fail", "anchors": ["src/rdiffbackup/run.py: main_run", "src/rdiffbackup/actions/*.py: setup, run", "src/rdiffbackup/actions/__init__.py: __exit__, _operate_regress", "src/rdiffbackup/singletons/consts.py"]}
{"id": "C62", "title": "A target inside the source is reported", "statement": "Backup to a directory below the source on the same connection always ends with a warning or error, and the warning is given for no other target. Exception found: with the root directory as source nothing is reported.", "quantifier": "all pairs of normalised absolute paths, all states and outcomes", "why_tests_cant": "all pairs of paths", "anchors": ["src/rdiffbackup/actions/backup.py: _warn_if_infinite_recursion, setup"]}
{"id": "C63", "title": "An interrupted first backup is simply repeated", "statement": "However often the first backup into a directory is interrupted, wherever, and whatever the source was each time, and whatever files were in the directory before (with --force), calling backup again is accepted (with --force if the lock file is left), completes, and leaves a repository holding exactly this session: it restores to the source, the mirror is a copy of the source, leftovers are gone and there are no increments. Exception found: a file found in the mirror looking like the one of the source is recorded without hash, so that its content isn't verified later.", "quantifier": "all previous contents of the directory, all numbers of attempts, sources and interruption points of each attempt (per path and in the data directory), all sources and outcomes of the final session", "why_tests_cant": "all crash points and numbers of retries", "anchors": ["src/rdiffbackup/locations/_repo_shadow.py: _is_failed_initial_backup, _clean_failed_initial_backup, _get_dest_select, apply, _CacheCollatedPostProcess", "src/rdiffbackup/actions/backup.py: _operate_backup"]}
{"id": "C64", "title": "At every moment nothing held is lost and there is a way on", "statement": "Take any sequence of calls on a directory: backups, complete or killed anywhere, first ones included; regresses, complete or killed; removals of old increments, complete or killed (a killed one may leave any of the files it was to delete; its sessions no longer count as held), also beside an interrupted backup; regress --force. At every moment the repository is in one of three conditions, told by the session markers: none, and a first backup is accepted; one, that of the newest session held, every session held restores to its source and a backup at a later time is accepted; two, then regress is possible and, whenever completed, leaves all sessions held restorable. So there is always a way to complete a further backup while keeping everything held. A killed removal is completed by calling it again. Exceptions: after a killed removal regress --force with only one session held goes back to what is left of a removed one; an interrupted session with an empty increments directory isn't noticed (C06).", "quantifier": "all files found at the begin, all finite sequences of calls in any order, all interruption points (per path and in the data directory), sources, outcomes, times and listing orders", "why_tests_cant": "the calls can be interleaved and interrupted in infinitely many ways; tests replay a few fixed sequences", "anchors": ["src/rdiffbackup/actions/backup.py: check, run", "src/rdiffbackup/actions/__init__.py: _operate_regress", "src/rdiffbackup/actions/remove.py: _remove_increments", "src/rdiffbackup/locations/_repo_shadow.py: needs_regress, regress, force_regress, remove_increments_older_than"]}
{"id": "C65", "title": "Extra metadata of the source are recorded and restored", "statement": "Every kind of extra metadata (extended attributes, POSIX and Windows ACLs, resource forks, carbon files) which the source's file system supports and which isn't switched off is recorded by a backup whatever the repository's file system supports (over a connection; locally if the repository's supports it too), and a restore writes it back if the target's file system supports it. Nothing is written to a file system which doesn't support it, a kind switched off is neither read, recorded nor written, --never-drop-acls refuses exactly the sessions which wouldn't read ACLs, and a change of extra metadata alone makes a file count as changed if the kind is written to the repository. Exceptions are stated and proved.", "quantifier": "for all combinations of abilities of source, repository and target file systems, options, connections, previous settings and extra metadata", "why_tests_cant": "tests run on one or two file systems; the combinations of abilities of three file systems, five kinds, options and connections can't be set up", "anchors": ["src/rdiffbackup/locations/fs_abilities.py:SetGlobals", "src/rdiffbackup/locations/fs_abilities.py:Dir2RepoSetGlobals._update_triple", "src/rdiffbackup/locations/fs_abilities.py:Repo2DirSetGlobals._update_triple", "src/rdiff_backup/rpath.py:_global_ignored_keys", "src/rdiff_backup/rpath.py:copy_attribs", "src/rdiffbackup/meta_mgr.py"]}
{"id": "C66", "title": "Names in a repository are the same for ever", "statement": "Whatever file systems, sources and quoting options the sessions of a repository had, all sessions which weren't refused used the same characters to quote and the same special escapes, and every later command reading the repository, wherever it runs, uses them too unless --chars-to-quote is given; so every file is found under the name it was stored with and its name is decoded to the original. Exceptions are stated and proved.", "quantifier": "for all histories of sessions (each with any abilities, options and suggestions), all later commands and all names", "why_tests_cant": "the repository would have to be moved between file systems of all kinds between sessions", "anchors": ["src/rdiffbackup/locations/fs_abilities.py:set_chars_to_quote", "src/rdiffbackup/locations/fs_abilities.py:set_special_escapes", "src/rdiffbackup/locations/fs_abilities.py:_compare_ctq_file", "src/rdiffbackup/locations/_repo_shadow.py:_setup_quoting", "src/rdiffbackup/locations/map/filenames.py"]}
{"id": "C67", "title": "Recoverable errors are counted, recorded once, and do not end the session", "statement": "When a file cannot be listed, read, updated or created for a reason of the recoverable kind, the backup goes on; at the end the number of errors in the session statistics is the number of such errors, and the error log has exactly one entry for each, in the order in which they happened, which can be separated again by lines (or null characters) whatever the file names and messages contain. This holds for the process writing the repository, hence for local backups. It does not hold for errors of the other process of a remote backup (the writer refuses the request to count the error, which ends the session) and for files which change while they are read (a missing method ends the session).", "quantifier": "all numbers of processes with any security class, level and restriction, all sequences of errors and messages, all texts, verbosities and separators", "why_tests_cant": "errors of all kinds at all points in all processes, with any text in their names", "anchors": ["src/rdiffbackup/singletons/log.py: ErrorLogger", "src/rdiff_backup/robust.py: check_common_error, get_error_handler", "src/rdiffbackup/singletons/sstats.py: add_error, add_error_local", "src/rdiff_backup/Security.py: _set_allowed_requests", "src/rdiffbackup/locations/_repo_shadow.py: _get_one_sig_fp, _matches_cached_rorp, _setup_logging"]}
{"id": "C68", "title": "Messages reach the log file and the terminal according to the verbosities", "statement": "During a backup the log file in the repository gets the messages of all processes up to the verbosity for the file of the process they come from, and the terminal of each process its messages up to its verbosity for the terminal, each exactly once and in order. The files can be closed at the end, after which nothing is added to them. The two verbosities are set together, or neither if one of the values is not a number from 0 to 9. Logging the traffic of a connection never causes traffic. Actions other than backup open their log file but never write to it.", "quantifier": "all numbers of processes, all verbosities, all sequences of messages and errors", "why_tests_cant": "any interleaving of messages of several processes with any combination of verbosities", "anchors": ["src/rdiffbackup/singletons/log.py: Logger", "src/rdiffbackup/locations/_repo_shadow.py: _setup_logging, _open_logfile, exit", "src/rdiffbackup/locations/repository.py: Repo.setup"]}
{"id": "C69", "title": "A restricted server does everything its mode is meant for", "statement": "A server restricted to a directory and to a mode (read-only, update-only, read-write) executes every request which an action allowed by that mode sends to it in a session on a location in or below that directory: reading a directory or a repository for read-only, backing up to a repository for update-only, all actions for read-write. Proved exceptions: statistics of a remote repository are refused in all modes, comparing with a repository without stored quoting settings is refused in read-only mode, a backup after an unfinished session is refused in update-only mode.", "quantifier": "all actions on repository or directory, all modes, all directories of restriction, all locations below them, all sets of global settings, all numbers of connections and of reads", "why_tests_cant": "the allowed lists and the requests sent live in different files; every combination of action, mode, path and settings has to match", "anchors": ["src/rdiff_backup/Security.py: _set_allowed_requests, vet_request", "src/rdiff_backup/SetConnections.py: get_cmd_pairs, _init_connection", "src/rdiffbackup/locations/repository.py: Repo", "src/rdiffbackup/locations/directory.py: ReadDir, WriteDir", "src/rdiffbackup/locations/fs_abilities.py: SetGlobals", "src/rdiffbackup/actions/"]}
{"id": "C70", "title": "The attributes written to a file are those asked for", "statement": "Giving a file the attributes of another one (permissions, owner, modification time, extended attributes, access and default ACL) leaves it with exactly those, whatever attributes it had before and although some of the system calls undo what others did (chown clears set-user-id bits and capabilities, chmod changes ACL masks, setting an ACL changes the permissions); attributes the process may not have on a file are left alone and everything else of the old file's is removed. It succeeds for a sound source and a file system with extended attributes. While it goes on, the permissions are never wider than before or after unless extended attributes are written. Increments get the permissions of their file. Proved exceptions: while extended attributes are written a private file can be read and written by everybody; on a file system without extended attributes the copy is aborted; unprivileged users lose the extended attributes of read-only increments.", "quantifier": "for all source attributes, target files of any kind and with any attributes, combinations of options, mappings of owners, root or not, and every intermediate state", "why_tests_cant": "The outcome depends on the order of seven interacting system calls for every combination of old and new modes, ACLs and attributes, and on states in between which tests never look at.", "anchors": ["src/rdiff_backup/rpath.py: copy_attribs, copy_attribs_inc, RPath.chmod, RPath.chown, RPath.setmtime", "src/rdiffbackup/meta/ea.py: read_from_rp, write_to_rp, _clear_rp", "src/rdiffbackup/meta/acl_posix.py: set_rp_acl, _list_to_acl, _acl_to_list"]}
{"id": "C71", "title": "What is found out about file systems is true, and files of one directory never get the same name in the repository", "statement": "Looking at the file system of a repository (before the first backup and at each later one) finds out exactly whether names outside of printable ASCII are possible, which characters are refused, whether capitals are distinguished, whether periods and spaces at the end of names are lost, whether device names are reserved, and whether owners, hard links, extended attributes and all permission bits can be stored; whatever happens, nothing which was in the directory is touched, and if the tests end normally nothing is left over. The source is only looked at by reading: it's taken not to distinguish capitals exactly if it doesn't and there's any name with a letter; and periods are only taken as lost there if they are. With these answers, for every source tree on one file system: each file's name in a new repository is one the file system of the repository takes, and no two files of a directory get names it takes for the same. (Refuted, with witnesses: when nothing but ends of names or devices need escaping; for sources which keep periods but don't distinguish capitals; with a file called con in the source; with other file systems mounted in the source; for capitals outside of ASCII; the permissions of directories are never tested; a failed test leaves its directory in the repository.)", "quantifier": "all file systems (folding of capitals, treatment of name ends, refused characters, devices, abilities), all contents of the repository directory, all source trees and all names in them", "why_tests_cant": "Tests run on one or two file systems of the developer's machine; the claim is about every combination of source and destination file systems and every set of names.", "anchors": ["src/rdiffbackup/locations/fs_abilities.py: FSAbilities._detect_readonly, _detect_readwrite, _detect_case_sensitive_readonly, _detect_extended_filenames, _detect_win_reserved_filenames, _detect_escape_trailing_spaces_readonly, get_chars_to_quote", "src/rdiff_backup/rpath.py: get_temp_rpath", "src/rdiffbackup/locations/_repo_shadow.py: setup quoting (212-236)"]}
{"id": "C72", "title": "A power failure loses nothing held", "statement": "With --fsync (the default) on a file system where directories can be forced to the disk: when the power fails at any moment of an incremental backup, and anything not forced to the disk by then may be lost (in any combination), the repository afterwards either still says the earlier session is the last one and every file of it is in the mirror as it was; or it says that a session is incomplete, and going back (regress) puts every file of the earlier session back with its data and attributes; or it says the new session is complete and every file is what it was to become. Power failures while going back, any number of them, don't change this. Exceptions (each proved with a history): the new file isn't forced to the disk before it's renamed over the old one, so on file systems which don't do that by themselves the old data are lost (the increment is a difference to data which aren't there); going back to a regular file where there's none writes it in place, and deletes the increment before the data are forced to the disk; the directory of increments of a directory replaced by something else isn't forced to the disk; with --no-fsync a session may say it's complete with data lost; without directory fsync nothing may say that a session was begun although files changed.", "quantifier": "all repositories, lists of changes (any number of files and directories, in the order of a backup), all points of the session and of going back at which power fails, all combinations of what of the unforced is lost, any number of failures while going back", "why_tests_cant": "A test would have to lose every subset of the unforced writes at every step of every session; page cache behaviour can't be provoked from a unit test, and the exceptions need particular subsets.", "anchors": ["src/rdiffbackup/locations/_repo_shadow.py: touch_current_mirror, remove_current_mirror, _RepoIncrementITRB, _RepoRegressITRB, regress", "src/rdiff_backup/rpath.py: fsync, fsync_with_dir", "src/rdiffbackup/singletons/generics.py: do_fsync, fsync_directories"]}
{"id": "C73", "title": "Power failures don't lose the metadata of completed sessions", "statement": "With --fsync (the default) on a file system where directories can be forced to the disk: when the power fails at any moment of a backup, and anything of rdiff-backup-data not forced to the disk by then may be lost, or found with any contents, in any combination, then either there is one session marker and the metadata files are exactly those before the backup, or exactly those after it; or there are two markers, the next call notices and goes back to the metadata before the backup, even if the power fails in any number of attempts to go back. After any history of backups and power failures the metadata of every completed session can be read exactly as recorded. A first session is complete or recognised as failed. Exception: with --no-fsync the metadata of the last complete session can be lost for good.", "quantifier": "all histories of sessions with any listings, all lengths of difference chains, all points of a session and of attempts to go back at which power fails, all combinations of unforced writes, deletions and renames", "why_tests_cant": "Which subset of the unforced writes reaches the disk can't be provoked by a unit test; the claim is about every subset at every step of every history.", "anchors": ["src/rdiffbackup/meta/__init__.py: FlatFile.close", "src/rdiffbackup/meta_mgr.py: convert_meta_main_to_diff, recreate_attr", "src/rdiffbackup/locations/_repo_shadow.py: touch_current_mirror, remove_current_mirror, _regress_rbdir, regress"]}
{"id": "C74", "title": "Averages of statistics are averages, and human sizes are right and ordered", "statement": "calculate average: of any non-empty list of session statistics, the average of each attribute exists exactly if every session has it and is the sum divided by the number of sessions; the change of destination size is the average of the sessions' changes, and exists exactly if each session has one; there is no average begin or end. Sizes shown for humans are exact below 1 KiB, else rounded to the nearest with at least three digits in a unit which leaves at most 1024 before the point; a bigger size is never shown as smaller. Exceptions: the average of errors is shown without its fraction, and the cutoff of calculate statistics counts new files twice and deleted files never.", "quantifier": "all non-empty lists of session statistics, with any attributes missing; all sizes, also negative", "why_tests_cant": "Rounding borders and missing attributes combine in infinitely many ways; the order of shown sizes is a claim on all pairs of sizes.", "anchors": ["src/rdiffbackup/singletons/sstats.py: calc_average, get_cutoff, _get_total_dest_size_change", "src/rdiffbackup/utils/convert.py: to_human_size_str"]}
{"id": "C75", "title": "What the selection options choose is what can be restored", "statement": "Whatever the history of a repository and whatever selection options its sessions had (also different ones each time): a session still held is restored with exactly the files its options chose in the source tree then, in the state they were found, and nothing else. With options which only exclude (globs, file types, sizes, lists of files and globs), excluding when backing up and backing up everything but excluding when restoring give the same files: those no option excludes. (Not so for regular expressions, markers and included globs: exceptions of C17.)", "quantifier": "all histories of sessions, crashes, removals and regresses; all directory trees; all lists of options as in C17; all paths", "why_tests_cant": "The claim is about the combination of every option list with every tree and every history.", "anchors": ["src/rdiff_backup/selection.py: Select._iterate_rpath, Select.parse_selection_args, FilterIter", "src/rdiffbackup/locations/_repo_shadow.py: _yield_metadata, restore", "src/rdiff_backup/selection.py: Select.select_default"]}
{"id": "C76", "title": "A running session is recognised by its PID", "statement": "A session records its process id in its mark in the repository, and a later session reads back exactly that number. While the process which has written one of the two marks runs and may be signalled, no session starts without --force; if none of the marks' processes runs, the next session isn't stopped, takes the place of the failed one and marks its own time. Consequently there are never two sessions at work, however they die: for every schedule where the repository's lock works, and even without a working lock as long as none starts between the check of another one and the writing of its mark.", "quantifier": "all contents of marks, all process ids, process tables and users, all interleavings of sessions of one user (checks, regressions, marking, end, death) and of other processes coming and going, without bound", "why_tests_cant": "the interleavings of several processes, with deaths at any point and PIDs used again, are unbounded; a test runs one of them", "anchors": ["src/rdiffbackup/locations/_repo_shadow.py: touch_current_mirror, remove_current_mirror, needs_regress, _check_pids", "src/rdiffbackup/actions/backup.py: run, _operate_backup", "src/rdiffbackup/actions/__init__.py: _operate_regress", "src/rdiffbackup/locations/_repo_shadow.py: setup, _lock, _unlock"]}
{"id": "C77", "title": "The selection options of the command line mean what the manual page says", "statement": "The selection criteria used by an action are exactly what the include, exclude and size options written on the command line mean, each one and in the order of the command line, with the contents of the lists as read then; every option of the parser is one of the manual page. A list which can't be read is reported before anything is done. Restoring a sub-path is refused exactly if one of the options selects by name.", "quantifier": "all sequences of selection options with any arguments, all files and standard inputs they refer to", "why_tests_cant": "the options and their order multiply without bound; a test takes a few command lines", "anchors": ["src/rdiffbackup/utils/argopts.py: SelectAction", "src/rdiffbackup/actions/__init__.py: SELECTION_PARSER", "src/rdiff_backup/selection.py: parse_selection_args, _init_parsing_mapping", "src/rdiffbackup/actions/restore.py: check"]}
{"id": "C78", "title": "The repository is found from the path the user gives", "statement": "Restoring, listing, verifying or comparing from a path inside of a repository works on the nearest repository holding that path, and on exactly the place the path has in it; the path of an increment file (repository/rdiff-backup-data/increments/dir/name.TIME.type, or increments.TIME.type for the root) works on the file dir/name of this repository at the time of the increment. A path is refused only when no repository holds it. A result is never a directory which is not a repository.", "quantifier": "every path given on the command line (relative or absolute, with redundant slashes and dots), every current directory and every tree of directories, every base, sub-directory, name, time, zone and type of an increment", "why_tests_cant": "tests use a few paths of a test repository; the answer depends on all the components of the path and on the directories above it, and names like 'increments' or a timestamp may appear anywhere in it", "anchors": ["src/rdiffbackup/locations/_repo_shadow.py: RepoShadow._get_repository_dirs", "src/rdiff_backup/rpath.py: RPath.normalize, RORPath.dirsplit, RPath.get_parent_rp, RPath.get_path_as_list", "src/rdiffbackup/locations/increment.py: StoredRPath.isincfile, _parse_increment_name"]}
{"id": "C79", "title": "Completion of the command line", "statement": "'rdiff-backup complete --cword N -- words', which the shell calls, offers exactly what may stand at the cursor: the options and actions of the action in charge at the cursor (as named by the words before it) which start with the word being typed and were not given yet, in alphabetical order with dashes ignored, followed by a marker for a file where a file may stand; after an option with a parameter it offers the values of this parameter. It never fails.", "quantifier": "every command line (words, position of the cursor, any nesting of actions) and every set of options, actions and arguments", "why_tests_cant": "tests complete a handful of lines; the walk through the nested actions depends on all the words and on the cursor", "anchors": ["src/rdiffbackup/actions/complete.py: CompleteAction.pre_check, run, _get_possible_options, _get_possible_sub_options, _get_matching_options, _get_options_dict"]}
{"id": "C80", "title": "A metadata file is written whole, under one name, and never mistaken for whole before", "statement": "Writing metadata (or another file of the data directory) fails exactly if the file named exists. Otherwise, whatever the records, the file left is the one named, or the one with .gz added if compression is asked for and there is anything to write; it is announced once under its true name, reading it by that name gives back exactly the records, and nothing else in the directory changes. Interrupted before the end, a compressed file is absent or not readable as a whole, and an uncompressed one ends with a whole record. A snapshot made again for a regression appears under its final name with what was written, and its temporary file is gone. Exceptions: without compression the snapshot made again is unreadable; an existing .gz file is overwritten silently; an empty file may end up beside an existing .gz.", "quantifier": "every state of the directory, name, compression flag, sequence of records and point of interruption between records", "why_tests_cant": "the records are flushed in groups, the name depends on the content, and the interruption may come after any record", "anchors": ["src/rdiff_backup/rpath.py: MaybeGzip", "src/rdiffbackup/meta/__init__.py: FlatFile.__init__, FlatFile.close, FlatFile._write_record", "src/rdiffbackup/meta_mgr.py: Manager.recreate_attr, Manager._writer_helper"]}
{"id": "C81", "title": "The action test says truly whether servers are fit", "statement": "'rdiff-backup test' on any number of locations returns 0 exactly if every location is remote, can be reached, gives back the value sent to it and has a directory at its path; otherwise it returns the code of an error. Nothing is contacted if a location on the command line is wrong; every location is contacted before the first test; the servers are tested in the order given and up to the first unfit one. Exceptions: if one server can't be reached none of the others is tested, and after the first unfit server the next ones aren't tested, although the program announces to validate the remaining ones (the warning foreseen for this is unreachable).", "quantifier": "every list of locations and every behaviour of their servers", "why_tests_cant": "any number of servers may misbehave in any combination", "anchors": ["src/rdiffbackup/actions/test.py: TestAction", "src/rdiff_backup/SetConnections.py: test_connections, _test_connection", "src/rdiffbackup/actions/__init__.py: BaseAction.connect, BaseAction.is_connection_ok", "src/rdiffbackup/run.py: main_run"]}
{"id": "C82", "title": "Plug-ins: added ones can't replace delivered ones", "statement": "Whatever modules with the prefix of plug-ins lie on the path of Python, every action and kind of metadata delivered with rdiff-backup is the one used under its name; nothing but delivered modules and modules with the prefix is taken for a plug-in; each goes by the name it gives itself, once, and none is lost but to another of the same name. The kinds of metadata are used with the main one first, the others in the order found; the program stops unless exactly one claims to be the main one, so that the main one is always the delivered one. Exception: of two added plug-ins of the same name one is lost silently, which one depends on the order of the path.", "quantifier": "every set and order of modules on the path, names and claims", "why_tests_cant": "the modules installed beside are arbitrary", "anchors": ["src/rdiffbackup/utils/plugins.py: get_discovered_plugins, _iter_namespace", "src/rdiffbackup/meta_mgr.py: get_meta_dict, get_meta_list", "src/rdiffbackup/actions_mgr.py: get_actions_dict"]}
{"id": "C83", "title": "Calculated statistics use exactly the complete sessions of the range", "statement": "`calculate statistics` (with --begin-time, --end-time and --minimum-ratio) averages exactly the sessions within the (inclusive) range for which the repository holds both a session_statistics and a file_statistics file, each once and in the order of time, and sums the trees of files of these same sessions, each measured with the cutoff computed from its own session; the cutoffs are summed too. It ends with the warning code exactly when there is no such session.", "quantifier": "every listing of the rdiff-backup-data directory in any order, every range, every minimum ratio, every content of the statistics files", "why_tests_cant": "tests use a handful of sessions in a fixed order of names; which sessions are paired depends on any listing, range and set of missing files", "anchors": ["src/rdiffbackup/locations/_repo_shadow.py:get_statistics", "src/rdiffbackup/locations/_repo_shadow.py:_get_combined_pairs", "src/rdiffbackup/locations/_repo_shadow.py:_get_session_average", "src/rdiffbackup/locations/_repo_shadow.py:_get_files_sum", "src/rdiffbackup/actions/calculate.py:_calculate_statistics", "src/rdiffbackup/singletons/fstats.py:FileStatsTree.make"]}
