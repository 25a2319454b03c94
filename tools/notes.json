{
"C10": {
"note": "Proved for ASCII character sets; refuted for destinations without extended file names, where bytes 128-255 are quoted but unquoted to two bytes."
},
"C01": {
"note": "Proved for every history of a path in which no error is caught between writing a diff increment and replacing the mirror file; refuted for a caught rename error or a caught error while writing the diff increment."
},
"C04": {
"note": "Proved for increments recognised as such; see the C08 refutation for source directories named like an increment."
},
"C05": {
"note": "Proved for the counted increments (those of the root directory); refuted for sessions without any change, which are not counted."
},
"C06": {
"note": "Proved for the data directory of every reachable repository, every crash point and repeated regresses, once the increments directory has content; refuted while it's empty, and for the base time used by a restore while an interrupted session is present."
},
"C12": {
"note": "For every history of sessions, crashes followed by regress, removals; every session still held; also restricted to a path."
},
"C21": {
"note": "For every stream, buffer limits, block structure and sequence of requests, as long as each file is read to its end or error; refuted for a file left before its end (TypeError in close). pickle is assumed to round-trip."
},
"C22": {
"note": "pickle is assumed to round-trip; a break within the data of a message is refuted to be noticed at once."
},
"C23": {
"note": "Up to 256 nested calls; one thread per side, as in the program."
},
"C31": {
"note": "Proved for attribute names of plain bytes and non-numeric owner names; refuted for an attribute name with a space and a numeric user name."
},
"C11": {
"note": "For every complete description, every block structure; refuted for a user called None."
},
"C40": {
"note": "Refuted for a fifo replacing an empty file."
},
"C24": {
"note": "For all listings with right link counts, all cache sizes, any comparison function; refuted when a link is added during the backup (KeyError) and for a restore over an existing tree (links broken)."
},
"C16": {
"note": "For every list of options (globs, plain names, file lists without mixed signs, predicates, sizes, presence): the first option matching decides; globs are related to an independent inductive glob semantics. Refuted corner cases: mixed +/- file lists and names ending in a newline."
},
"C17": {
"note": "Tree selection equals the recursive description for any options parsed and any tree; filtering of listings (restore, compare) proved equal when nothing is merely scanned, refuted otherwise (four counterexamples)."
},
"C18": {
"note": "Prefilter proved harmless for all options except --exclude-other-filesystems and mixed file lists, for which it is refuted."
},
"C19": {
"note": "Any request executed under a restriction names only paths leading into it (independent path-walking semantics, all histories); refuted: get_rpath_data is not vetted, specifics.set may overwrite local_connection, setting up a repository widens the restriction to its base. Unpickling of arguments is outside of the model."
},
"C20": {
"note": "Executed requests are in the mode's list for any history; lists compared with an independent table of effects. Refuted: settings can be changed in every mode; RepoShadow.setup writes in read-only mode."
},
"C27": {
"note": "Bounds for every length; monotonicity does not hold and is not claimed."
},
"C28": {
"note": "Any splitting into reads; new output file. Short reads of _cmp_file_obj and copying over old content are the refuted cases."
},
"C29": {
"note": "For every maker (librsync job), every input splitting and every sequence of reads; librsync itself is a parameter."
},
"C25": {
"note": "Names never repeat nor exist over histories of asks, file creations, deletions, restarts without a cut of the counter write (C25_names_distinct); with cuts, never a name which has files (C25_never_existing); stored places are distinct and found again. Refuted corner cases: a cut between deleting and rewriting next_free repeats a name given out but unused, an empty next_free blocks, a shrinking name limit loses increments."
},
"C26": {
"note": "Return code characterised exactly (success, error bit, warning bit, exception) for listings with consistent link counts; the reading of the file from the repository (get_fp) is an input here, see C01."
},
"C41": {
"note": "Proved for all listings; refuted corner cases: hash method misses a changed hard linked file whose first name is gone; full method dies if the selection leaves out a file present on both sides."
},
"C35": {
"note": "For every cache size, every listing of a tree and every schedule of reports: records written exactly as they should be, once, in order, parents accessible; no error if reports come while the file is in the cache."
},
"C36": {
"note": "Counters proved for all backups and orders of reports, identities between them, round trip for values up to 2^53; refuted beyond (float)."
},
"C42": {
"note": "Full pipeline from lines to tree to report; merging of sessions path by path. C42_hash_refuted: a path starting with '#' is skipped as a comment (finding). Percentages (floats) and their printing aren't modelled."
},
"C43": {
"note": "Complete."
},
"C02": {
"note": "Proved for one path under the stated conditions (contents of changed files show in size or loosely compared attributes; no special file replaced by an empty one); refuted where those fail."
},
"C03": {
"note": "One path; any number of interrupted regress attempts."
},
"C34": {
"note": "Conditions on librsync and SHA-1 only for the contents that occur."
},
"C44": {
"note": "Whole-repository model M_Global: data directory (M_MetaMgr) and files of every path (M_Core, M_Crash) together; the session reads the previous listing from the metadata chain."
},
"C45": {
"note": "The first session (crash before any completed session) is covered by C06_failed_first_session_removed; C45 starts with a completed session."
},
"C38": {
"note": "Exact effect of remove file on every metadata file, the mirror, the increments area and the long-names area; dry run; other paths untouched. Conditions (stats lines containing a space continuation, directories or the path named like an increment) shown necessary by the _refuted theorems."
},
"C46": {
"note": "C46_found is the property; C46_hangs_refuted shows the proviso is needed (real endless loop)."
},
"C37": {
"note": "Restoring only; the backup half (CCPP.dir_perms_list) is to be C47."
},
"C30": {
"note": "All interleavings of system-call steps of any number of processes, kills anywhere: one writer once the first backup is complete (or as long as nobody removes a 'failed' first backup); the lock does not outlive its holder. Refuted: two concurrent first backups can both work; after a killed first backup the left-over lock file blocks unforced backups."
},
"C39": {
"note": "get_increments_sizes on any listing: one entry per time, sums and cumulative sums exact, ordered, mirror last."
},
"C32": {
"note": "The documented policy for all user databases with one name per id, all mapping files of blank and old:new lines, and any order of earlier lookups (caches are invisible); bad lines are fatal; the numerical map keeps ids. Refuted: --preserve-numerical-ids has no effect (the option is stored under another key); a listed id is not used when the name exists here; nameless ACL entries are dropped when a mapping file is given; unknown names on the right are not reported; accounts sharing an id are answered depending on the order of questions."
},
"C47": {
"note": "M_TreeFs (directory tree with permissions and times), M_DirPatch (apply, _DirPatchITRB, FillInIter, get_diffs): proved by an invariant over the items and the stack of open directories."
},
"C48": {
"note": "Tree-level model of the whole patch run; what becomes of writing one file is a parameter (new file or caught failure). Low-permission directories of a non-root user and failed deletions in removed directories are proved exceptions."
},
"C49": {
"note": "opening and closing is modelled around C48's run; files of the source are given as read (M_Iter collate); the early reset is a proved exception"
},
"C50": {
"note": "Python's re.split, split, replace and join are modelled for these patterns only"
},
"C51": {
"note": "of str.format, fields with braces inside are not modelled; what other fields evaluate to is a parameter"
},
"C52": {
"note": "for remote sides which know about API versions"
},
"C53": {
"note": "the comparison of two records is a parameter (M_Rorp has it); the fallback to the file system without metadata isn't modelled"
},
"C54": {
"note": "C54_special_not_created_refuted is the exception named in the statement"
},
"C55": {
"note": "Removals at times not later than the last completed session keep an interrupted session recoverable; C55_time_given_decides links this to the time the user gives; C55_later_time_refuted: a later time destroys the last completed session."
},
"C56": {
"note": "For every history of M_Global (which now contains forced regresses themselves); f_forced is the extra condition that no two versions of a path of equal size are both taken for a third file's attributes."
},
"C57": {
"note": "every reason to refuse in S_Actions.refusal; exceptions proved: calculate and --tempdir, restore --force deletes first"
},
"C58": {
"note": "C58_without_force_nothing_overwritten, C58_only_the_target_written, C58_repository_not_cleared; exception: removal/regress clear an unmarked repository"
},
"C59": {
"note": "exception: compare records the quoting if missing"
},
"C60": {
"note": "order for every outcome of every call, the process may end in each"
},
"C61": {
"note": "exceptions: compare with invalid time, verify's warnings"
},
"C62": {
"note": "exact for normalised paths; exception: source /"
},
"C63": {
"note": "Model: a first session over the listing of the files found in the mirror (M_Global.gfirst), interrupted ones keep the mirror files versions (L_First). Hypotheses: those of C44 plus: attributes read from the mirror compare equal to those of the file and carry no hash. C63_found_file_has_no_hash is the exception."
},
"C64": {
"note": "Includes killed removals, under the condition careful (regress --force not after a killed removal with only one session held); both exceptions are proved: C64_forced_after_killed_removal_refuted and C06_empty_increments_refuted. Per call model M_Life over M_Global."
},
"C65": {
"note": "Detection of abilities is a flag per kind; settings, recording and writing modelled. Exceptions (C65_*_refuted): local backup to a file system without the kind drops it, also with --never-drop-acls; changes of extra metadata alone are missed if the repository doesn't support the kind."
},
"C66": {
"note": "Records chars_to_quote and special_escapes and their readers; C10 gives the decoding. Exceptions: escapes without quoting aren't applied; --chars-to-quote in a restore isn't compared with the record."
},
"C67": {
"note": "All processes of a session; _refuted: errors of the other side of a connection, changing files"
},
"C68": {
"note": "_refuted: log files of actions other than backup; exceptions at the boundary verbosity"
},
"C69": {
"note": "Requests of every action in M_Requests against the lists of M_Security; three proved exceptions."
},
"C70": {
"note": "Linux semantics of chown/chmod/xattr/ACL is part of the trusted base (first part of M_Attribs). Exceptions proved: world-readable window while EAs are written, file systems without EAs, EAs of read-only increments."
},
"C71": {
"note": "The abilities are the ones of M_Detect.fs; ACLs, resource forks, Carbon and fsync of directories are single answers. The exceptions are proved as _refuted."
},
"C72": {
"note": "safe = the file system forces the data of a file to the disk when it's renamed over another; where it doesn't, the theorem holds for all changes but those from a regular file to a regular file. The theorem about interrupted going back needs that no regular file is replaced by something else or deleted; exceptions proved as _refuted."
},
"C73": {
"note": "Theorems about every history of backups with power failures at any point (also while going back); the reading of the metadata is exact. Exception --no-fsync (C73_no_fsync_refuted). Not covered: --fsync where directories can't be forced to the disk; files other than metadata files and markers (C72 covers mirror and increments)."
},
"C74": {
"note": "Floats are modelled by exact numbers; what is printed is modelled for sizes (to_human_size_str) and for the whole-number errors."
},
"C75": {
"note": "Options are tame as in C17 (no --exclude-other-filesystems, no list both excluding and including). Paths whose update failed in the session are apart, as in C44. Names with newlines are apart in the last part."
},
"C76": {
"note": "Marker text, the regular expression reading it (leftmost match, against an independent relational specification), os.kill(pid,0), _check_pids and the start of a backup as a transition system of any number of processes, with the lock of lock.yml (as one step) working or not. Refuted for: the race between check and mark without a working lock or with --force, sessions of other users (EPERM), a session which regresses (without lock), unknown PID, the same PID again (containers), a damaged marker."
},
"C77": {
"note": "The option table, SelectAction and the dispatch tables, from the sequence of (option, argument) argparse delivers to the criteria of M_Select; argparse itself is assumed. Refuted for the documented options --include-device-files, --include-fifos, --include-sockets and --include-other-filesystems (RuntimeError) and for a second list from the standard input (ValueError)."
},
"C78": {
"note": "nearest repository, base, refusal exactly without repository, increments both ways (names and times); exceptions proved as _refuted: names increments/rdiff-backup-data above, repository at /, .., names like increments, relative path within the repository"
},
"C79": {
"note": "Four positive theorems (what is offered fits, nothing is forgotten, files are offered exactly where there is room, the order) and the absence of exceptions with the cursor on the last word; the exceptions are proved as refutations."
},
"C80": {
"note": "Gzip is modelled as a wrapper with a trailer, Python's own buffering is not; the records are byte strings (their format is C03/C04's)."
},
"C81": {
"note": "One server's behaviour is independent of the others; with extended attributes active the third argument of get_rpath_data (rp.data instead of the index) isn't modelled."
},
"C82": {
"note": "A module is its name and its class; what importing a module executes isn't modelled."
},
"C83": {
"note": "sessions of calculate statistics: C83_pairs (which files), C83_warning (iff none), C83_result (average and sum of trees with each session's own cutoff), C83_incomplete_session_refuted (finding). Trees: C42; averages: C74."
}
}