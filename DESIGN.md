# rdiff-backup: formal model in Coq — design

## Method

Each Python module that carries decision logic is modelled as total, computable
Gallina functions which follow the code branch by branch (`theories/M_*.v`,
model files: definitions only).  Exceptions are values (`option`/`result`), loops
are structural recursion or fuelled recursion with an explicit "out of fuel"
value that the theorems exclude.  Bytes are `list ascii`.  Proof scripts are in
`theories/L_*.v`, the property theorems (with non-vacuity `Example`s and `Print
Assumptions`) in `theories/P_*.v`.

Every model definition carries a comment with the file and lines in /repo it
models and any simplification.

External code (librsync, gzip, SHA-1, the kernel) appears only as a `Section`
variable / explicit theorem hypothesis (e.g. `patch base (delta base new) =
new`), instantiated by a concrete trivial implementation in an `Example`.

## Plan per property

| id | model | how it is proved |
|----|-------|------------------|
| C01 | file states, make_increment, mirror update, relevant increments, restore chain | induction over the history, invariant "restore at session i = source at i" |
| C02 | per-file update as a list of atomic fs operations; crash = prefix | case analysis over prefixes, plus invariant |
| C03 | regress as list of atomic operations | idempotence of regress on every intermediate state |
| C04 | deletion of increments by time | restore depends only on increments with time >= restore time |
| C05 | _get_removal_time decision | case analysis over filtered list of any length |
| C06 | current_mirror markers as set of times + crash steps | state-machine invariant over all runs |
| C07 | civil calendar, time string printer & parser | round-trip lemma, div/mod arithmetic; refuted for negative fractional-hour zones |
| C08 | increment name printer & parser | split-from-right lemmas |
| C09 | quote_path/unquote_path | induction over the byte list |
| C10 | quote/unquote with char class predicate | induction; refuted for bytes >= 128 |
| C11 | record printer/parser, block-wise extractor | buffer invariant, round trip |
| C12 | patch/diff iterators | sorted association-list algebra, induction over chain |
| C13 | _skip_to_index, _iterate_starting_with | ordering lemma on sorted lists |
| C14 | Collate2Iters loop | refinement to outer join specification |
| C15 | IterTreeReducer stack machine | invariant on branch stack; trace well-bracketed |
| C16 | select_default loop | induction |
| C17 | _iterate_rpath with delayed directories | equivalence with recursive specification |
| C18 | filename filter | simulation; refuted for stateful filelists |
| C19 | normalize, _vet_filename | prefix lemma on path components |
| C20 | allowed-request tables | finite table sweep + decision lemma |
| C21 | iterfile encoders/decoders | buffer invariants, round trip for every read schedule |
| C22 | pipe framing | round trip |
| C23 | request numbering and nested reval | stack discipline invariant |
| C24 | inode index | invariant over op sequence |
| C25 | free-name search | freshness + monotone counter |
| C26 | verify loop | induction |
| C27 | block-size arithmetic | lia / Z.sqrt bounds |
| C28 | copyfileobj with sparse blocks | file-with-position model, invariant |
| C29 | LikeFile buffer loop | buffer invariant |
| C30 | lock table transition system | invariant over all runs |
| C31 | acl_quote, EA/ACL record printers and parsers | round trip; refuted where the code loses names |
| C32 | user/group maps with their caches, mapping file parser, ACL entry mapping | cache invariant, case analysis; id option refuted |
| C33 | interval and session parsers | induction over the string |
| C34 | _set_restore_time | list lemma |
| C35 | _CacheCollatedPostProcess | invariant over schedules |
| C36 | statistics counters | induction; print/parse round trip |
| C37 | _PermissionChanger | stack invariant |
| C38 | _remove_from_metadata filter | filter lemma |
| C39 | get_increments_sizes | sum lemma |
| C40 | RORPath comparison | case analysis on attribute dictionaries |
| C41 | compare_meta/hash/full, report printer | induction over the collated listing |
| C42 | file statistics lines, directory tree, cutoff, report | invariants over the accumulator, sums over subtrees |
| C43 | buffered line writer/reader | buffer invariant for every block cutting |
| C44 | all paths + data directory, any history | composition of C01/C02/C06/C12 per path, induction over histories |
| C45 | same | progress: no reachable state refuses the next step |
| C46 | _CachedRF over the increments tree | invariant of the cache, termination measure |
| C47 | the tree of a restore target, _DirPatchITRB driven by FillInIter and IterTreeReducer | invariant over the open branches: what is above is open, what is done is as wanted |
| C48 | the mirror under _RepoPatchITRB/_RepoIncrementITRB, what CCPP is told, the metadata following from that | the same invariant with failures; induction over sessions |
| C49 | opening and closing of directories around C48's run, for an ordinary user | every path passed through in the run is open because it was opened or made by the run; induction over the list of noted permissions |
| C50 | parse_location, with the regular expression's split spelled out | the stitched parts are the escape-respecting parts (induction on the string); quoting as inverse |
| C51 | _fill_schema: both findall's and str.format as scanners | induction over the schema's parts, and over the string for the absence of other fields |
| C52 | the agreement in _validate_connection_version, set_api_version | arithmetic; induction over the servers |
| C53 | list_files_changed_since, list_files_at_time on the data directory of M_MetaMgr | C12 (every session recovered), C14 (collating), C34 (which session) |
| C54 | get_increments and the two type functions on the path state of M_Core | invariant over the sessions: the type found for each session held |
| C55 | remove_increments_older_than on the whole repository in the state of an interrupted session (M_Global.gremoves between gcrash and regresses) | the invariant of an interrupted session is kept by a removal up to the last completed session |
| C56 | force_regress + regress as a further event of M_Global | a complete repository with a second marker satisfies the invariant of an interrupted session relative to the earlier sessions (Hist: what each older increment restores) |
| C57 | run.py main_run, actions/*.py, checks and setup of the locations as programs in a state-and-trace monad over an arbitrary world (M_Actions) | case analysis on the reason of the refusal; every path through pre_check, connect, check ends before the first operation |
| C58 | same | weakest-precondition calculus for the monad (L_Actions): the set of operations each command may call |
| C59 | same | same |
| C60 | same; the order of a session is specified as a list followed until the first failing call | the trace is cut into preparation, regress, session, exit |
| C61 | same | same decomposition with the code |
| C62 | backup.py _warn_if_infinite_recursion on paths | induction on the components of the paths |
| C63 | first sessions over what is found in the mirror, interrupted any number of times (M_Global.gfirst, first_crashes, event GFirst of the histories of C44) | the mirror files stay versions (or empty) through the attempts; the completing session establishes the invariant of M_Global |
| C64 | single calls (M_Life.act) in any order from a directory with any files; specification S_Life (life, holds_after, sound) | invariant with three states: no session (C63), complete (C44), interrupted (the state of C45); each call keeps it; a killed removal leaves files of removed sessions: every later call does the same as on the repository without these (L_LifeCut, L_LifeSim), except regress --force with a single session (refuted) |
| C65 | settings xxx_active/xxx_write/xxx_conn per kind and connection as functions; reading, recording, loading, writing of extra metadata | values of the settings after all updates, by cases on equality of the connections; the rest is composition |
| C66 | records chars_to_quote and special_escapes, sessions in any order with any abilities, later commands | invariant `recorded_as`: what is recorded is what was used; with C10 the decoding |
| C67 | M_Log: Logger, ErrorLogger, robust.check_common_error and SessionStats.add_error in every process of a session, remote calls vetted by M_Security; sequences of errors and messages as a fold; proved by an invariant (`Ready`) and an effect calculus (`becomes`) | proved, two refutations |
| C68 | the same model: log file and terminals after any sequence of events; set_verbosity, conn, exception, closing | proved, two refutations |
| C69 | scripts of requests of each action for each location, run through the vetting of M_Security; invariant: only the request with the location's path is looked at, all others are in the lists | proved, three refutations |
| C70 | an inode with the side effects of chown, chmod, setxattr, acl_set_file; copy_attribs, copy_attribs_inc, ea.py and acl_posix.py as sequences of these | for all old and new attributes the final inode has the new ones (two halves: owner+EAs, mode+ACL+time, each by a specification of the steps); success from soundness; every intermediate mode by a chain of invariants; exceptions by concrete inodes and, for file systems without EAs, in general |
| C71 | File systems as records (folding of names, treatment of name ends, accepted characters, devices, abilities); the tests by writing as a program over the entries of the test directory, those by reading over trees with a file system per directory; proved by computation over the finitely many abilities, and by injectivity of the quoting up to the folding of the destination |
| C72 | M_Power: each place on the disk has a value and a set of values which may be found after a power failure; the operations of a session and of going back as lists, with the fsyncs the code does; a power failure picks one possible value for each place independently. Proof: every prefix of a file's operations keeps the old version in the mirror or in a forced increment reachable through forced directories (L_Power: one path; L_Power2: sessions; L_Power3: going back, with an invariant over any number of interruptions). Whether a rename forces the data of the renamed file (as ext4, btrfs do) is a parameter. |
| C73 | M_PowerDir: the data directory of M_MetaMgr on a disk: every marker and every metadata file name has a value and a set of possible values (cells of M_Power); the atomic operations of a session and of a regress (session_dops, regress_dops of M_MetaMgr) become writes, deletions, renames and fsyncs where the code has them. Proof: every prefix of a session or regress keeps one of four stages (old files exact and new marker possible; both markers and old files exact among leftovers; both markers and the replacement exact with the old snapshot possible; files exact and old marker possible); what is found in each is a state of the crash invariant of C06/C12. |
| C74 | M_Average: calc_average, the total change, get_cutoff and to_human_size_str over exact numbers (Q, N) instead of floats; proved by induction on the list and by arithmetic on the rounding (nothing on the grid of a unit is crossed) |
| C75 | composition of M_Select (iteration, filter) with M_Global (sessions, restore): the source tree of a session is what the iteration yields; C17 and C44 are joined; for options which only exclude, every option excludes with a directory all below it, so that the filter of a listing and the iteration agree |
| C76 | `M_Pid`: marker, extract_pid, kill0, check_pids, and sessions as a transition system; `S_Pid`: position of the PID, orderly schedules | the regex is characterised as the leftmost match; check exact by induction over the markers; invariant of the transition system (one session at most, its phase fits the markers); refuted cases as theorems |
| C77 | `M_SelCmd`: option table, SelectAction, dispatch tables, check of sub-paths; `S_SelCmd`: the manual page as a table of requests with their spelling and meaning | equivalence between the result of the command line and the meanings of the requests, by induction over the command line; one case analysis over the 28 options |
| C78 | `M_RepoPath`: _get_repository_dirs with normalize, dirsplit, get_parent_rp, isincfile, over an abstract directory listing; `S_RepoPath`: nearest repository over places, file names of increments | normal form of paths (three ways to start), induction over the components from the end; splitting of names at dots within a path (times have no slash) |
| C79 | `M_Complete`: the completion over an abstract tree of parsers; `S_Complete`: the parser in charge (a walk over the words before the cursor), what fits, the order | induction over the tree of parsers: the recursion ends in one call of the matching with a suffix of the words; insertion sort |
| C80 | `M_GzWriter`: the writer of FlatFile over MaybeGzip and over a plain file, the directory as a function from paths, gzip as a wrapper with a trailer; `S_GzWriter`: the compressed name, the full hundreds. Invariant of the writer (what was flushed is what lies in the file), by induction over the records; then opening, interruption, closing, reading by the name, recreate_attr |
| C81 | `M_TestAction`: locations with the behaviour of their servers, the steps of run.py for this action; `S_TestAction`: fit servers. Case analysis on the steps, induction over the locations |
| C82 | `M_Plugins`: Python dictionaries (place of the key, last value), discovery and the list of metadata; stated directly. Induction over the modules: the value of a key after an update is the last one given |
| C83 | M_StatSessions: the choice of the statistics files (pairs by time), cutoffs, sum of trees, return codes; on M_IncName, M_Average and M_FileStats; reading a file is a parameter; proved by sortedness of the keys and membership |

(Later properties are listed in the section "Where things are".)

## Trusted base

* Coq 8.16.1's kernel (with its `vm_compute` reduction where `Example`s and finite table
  sweeps use it), and the compiler that built it.
* Axioms: every property theorem is followed by `Print Assumptions`, and every one prints
  *Closed under the global context*: no axiom, none of the standard library either.
  (vcheck's overall listing names `Coq.ssr.ssrunder.Under_rel.*`: these are the fields of a
  module type of the standard library's ssreflect plugin files, loaded with `Lia`; no theorem
  here depends on them.)
* Only Coq's standard library is used; no plugin, functor, module type, `Declare Module`,
  section-less `Variable`, `Admitted` or switched-off check.  Section variables
  (e.g. the delta algorithm) are closed over, so they appear as explicit universally
  quantified arguments and hypotheses in the final theorems.
* The reading of the Python code: that each `M_*.v` definition does what the cited lines do.
  This is by inspection only; nothing was executed.  Python built-ins (`list.sort`,
  `re`, `int()`, `str.split`, `dict`) are modelled by hand where used.
* Assumed about the outside, always as hypotheses of the theorems that need it:
  - librsync: `patch base (delta (signature base) new) = new` (C01, C02, C44);
  - SHA-1 where a verdict on content is drawn from it: the theorems speak of equal
    checksums, never of equal content (C26, C41);
  - pickle: `loads (dumps x) = x` and nothing more (C21, C22); unpickling of data from an
    untrusted peer happens before vetting and is outside the model;
  - the kernel: operations on files take effect in program order, renaming is atomic, flock
    excludes (C02, C03, C06, C30, C44, C45); a crash may leave a file being written with
    any content.

## Where things are

`M_X.v` model, `S_X.v` specification (where the theorems need words of their own), `L_X.v`
lemmas, `P_X.v` theorems, `Print Assumptions` and examples.  Base.v has bytes, orders and
list helpers.

| model | code | properties | left out |
|---|---|---|---|
| M_Quoting | utils/quoting.py, locations/map/filenames.py, fs_abilities.py (choice of characters) | C09 C10 | QuotedRPath's use in every RPath method |
| M_Time | Time.py | C07 C33 | clock, daylight saving of the platform (an offset function is a parameter); floats |
| M_IncName | locations/increment.py (names), grouping in _repo_shadow.py | C08 | |
| M_Core | increment.py make_increment, _repo_shadow.py _RepoPatchITRB/_RepoIncrementITRB/_RestoreFile, removal and restore times | C01 C04 C05 C34 | one path at a time; resource forks; hard-linked increments |
| M_Crash | the same as file-system operations; _RegressFile, _RepoRegressITRB | C02 C03 | metadata of directories other than their existence; temp files are dropped by regress |
| M_Iter | rorpiter.py | C14 C15 | generators are lists; errors of the underlying iterators |
| M_MetaMgr | meta_mgr.py, markers, needs_regress, _regress_rbdir | C06 C12 | abstract records |
| M_Conn | connection.py | C22 C23 | threads; conn_bytes timing |
| M_IterFile | iterfile.py | C21 | MiniIter… base class versions |
| M_Rorp | rpath.py RORPath | C40 | |
| M_Meta | meta/__init__.py, meta/stdattr.py | C11 C13 | gzip; resource fork/carbon fields |
| M_EaAcl | cmodule.c acl_quote/unquote, meta/ea.py, meta/acl_posix.py | C31 | xattr and ACL system calls; Windows ACLs |
| M_Hardlinks | map/hardlinks.py and its users | C24 | |
| M_Select | selection.py | C16 C17 C18 | user regexps are any predicate; locale |
| M_Security | Security.py | C19 C20 | symbolic links; pickle |
| M_Rdiff, M_LikeFile, M_CopyFile | Rdiff.py, librsync.py wrappers, rpath.py copyfileobj/cmp, hash.py | C27 C28 C29 | librsync itself |
| M_LongNames | map/longnames.py | C25 | |
| M_Verify | verify, compare in _repo_shadow/_dir_shadow, actions/compare.py | C26 C41 | network copies of files |
| M_CCPP | _CacheCollatedPostProcess | C35 | directory permissions |
| M_Stats, M_FileStats | singletons/sstats.py, fstats.py, utils/buffer.py | C36 C42 C43 | floats beyond whole numbers and hundredths |
| M_Owners | utils/usrgrp.py, map/owners.py, location.py, acl_posix.py mapping | C32 | group database calls (a function is given) |
| M_CachedRF | _CachedRF, _RestoreFile listing, _PermissionChanger | C37 C46 | long names |
| M_TreeFs | a directory tree with permissions, times, temporary files; lstat, rename, unlink, mkdir, chmod, rmdir | C47 C48 | hard links, sticky bits; a path is a list of names |
| M_DirPatch | _dir_shadow.py WriteDirShadow.apply, _DirPatchITRB, get_diffs | C47 | content of diffs (M_Rdiff), hash check (logs only) |
| M_RepoPatch | _repo_shadow.py apply, _RepoPatchITRB, _RepoIncrementITRB | C48 | what writing one file does is a parameter (M_CopyFile, M_Rdiff, M_Crash); increments only can fail; CCPP is M_CCPP |
| M_DirPerms | _repo_shadow.py _CacheCollatedPostProcess _pre_process, _unreadable_dir_init, close, _reset_dir_perms | C49 | all directories are opened before the first change and closed after the last; the reset when an entry leaves the cache only in the refutation |
| M_Location | SetConnections.py parse_location, _fill_schema, _validate_connection_version; specifics.py set_api_version | C50 C51 C52 | fields of str.format with braces in them; servers before API versions |
| M_Listing | _repo_shadow.py list_files_*, get_increments, _get_inc_type, _get_file_type; list_.py | C53 C54 | decoding of names, dates; fallback without metadata |
| M_Actions | run.py main_run, actions/*.py, location.py, directory.py, repository.py, _repo_shadow.py setup/create/lock, fs_abilities.py _compare_ctq_file (decision) | C57–C62 | what each operation does to the world (any effect, any outcome); other processes; messages; server action |
| M_RemoveFile | remove_file | C38 | compression |
| M_Lock | setup, _create, _lock, utils/locking.py | C30 | NFS; Windows |
| M_Sizes | get_increments_sizes | C39 | |
| M_Global | backup, regress (also forced), restore, removal (also beside an interrupted session) for the whole repository | C44 C45 C55 C56 C63 | removing the data directory of a failed first session is one step (interrupted, it leaves files which are recognised again) |
| M_Life | single calls on a repository: backup, regress, removal, regress --force, complete or killed | C64 | force_regress called for an interrupted session whose increments directory is empty; removals up to a time after the last completed session |
| M_Settings | fs_abilities.py:773-1252 (settings), rpath.py:80-101, 1802-1811, 1555-1590 (extra metadata) | C65, C66 | detection of abilities is a flag; single flags taken from the destination not modelled |
| M_Log | singletons/log.py (Logger, ErrorLogger), robust.check_common_error, sstats.add_error, set-up of the log files; textwrap's line filling and failures of writing a log file are left out |
| M_Requests | the requests sent by SetConnections, the actions, locations/{location,directory,repository,fs_abilities}.py to the server of one location; values which vetting does not look at are left out, as are requests between servers |
| M_Attribs, S_Attribs | rpath.py copy_attribs, copy_attribs_inc; ea.py read/write/clear; acl_posix.py set_rp_acl, list_to_acl, acl_to_list; Linux chown/chmod/xattr/ACL | ACLs as lists of entries, EAs as lists of pairs; the process is root or owns the file |
| M_Detect, S_Detect, P_Detect | fs_abilities.py 63-764 (tests), rpath.py get_temp_rpath, _repo_shadow.py 212-236; what is found out and the names in a new repository |
| M_Power, S_Power, L_Power, L_Power2, L_Power3, P_Power | C72: durability: fsync, markers, increments, regress under power failures (rpath.py fsync, _repo_shadow.py touch/remove_current_mirror, _RepoIncrementITRB, _RepoRegressITRB, regress) |
| M_PowerDir, L_PowerDir, L_PowerDir2, L_PowerDir3, P_PowerDir | C73: metadata files and markers under power failures (meta/__init__.py close, meta_mgr.py convert_meta_main_to_diff and recreate_attr, _repo_shadow.py touch/remove_current_mirror, _regress_rbdir) |
| M_Average, P_Average | C74: averages and sizes for humans (sstats.py:152-195, convert.py:26-86) |
| M_Pid | current_mirror content, _check_pids, concurrent sessions | POSIX only; ASCII content; the repository has increments; taking the lock is one step (M_Lock has its details); what is written besides the markers isn't part of it |
| M_SelCmd | selection options from the command line to the criteria of M_Select | argparse is assumed (one call per option, full option names); int() only takes decimal notation |
| M_RepoPath | from a path to (repository, index, type) | symbolic links left out in the specification (`sees`); quoting of file names is switched on later (setup_finish) and is not in it |
| M_Complete | rdiff-backup complete | the set of options is a list (order of equal keys); argparse's own internals are the input |
| M_GzWriter, P_GzWriter | C80: FlatFile writing (meta/__init__.py:219-300), MaybeGzip (rpath.py:1359-1418), recreate_attr (meta_mgr.py:117-148) |
| M_TestAction, P_TestAction | C81: the action test (actions/test.py, SetConnections.py:147-174 and 517-553, connect of actions/__init__.py) |
| M_Plugins, P_Plugins | C82: plug-ins (utils/plugins.py, meta_mgr.py:376-419, actions_mgr.py) |
| M_StatSessions | C83 |
| S_SelRestore, P_SelRestore | C75: selection and restore together (no new code modelled: M_Select and M_Global joined) |
| P_QuotingFs | C10: names for Windows-like, limited and case-insensitive file systems, against independent lists |
| P_Clock | C57: a clock behind the last session is refused |
| P_RorpLoose | C40: exactly which attributes the loose comparison ignores |
| P_LinkRename | C24: the first name of a hard link is removed and later names still find the data |
| P_SelectOptions | C16: theorems about the kinds of files, `--exclude-if-present`, `--exclude-other-filesystems`, file lists with mixed lines |
| L_LifeCut, L_LifeSim | lemmas: calls on a repository with remains of a killed removal compared with the cleaned one | C64 | – |

Not modelled at all: the option parser itself (arguments.py, actions_mgr.py: argparse), those
actions/*.py which no module above cites, SetConnections.py's start of ssh, the processes behind
fs_abilities.py's probes (their answers are the input of M_Detect), Windows and macOS specifics
(ACLs of Windows, resource forks, Carbon file information), iteration over a real directory (the
order of listdir is assumed arbitrary and is sorted by the code), the C module other than
acl_quote, the printed text of rdiff-backup-statistics and rdiff-backup-delete.

## Findings

Places where the code doesn't do what the English property says without conditions.  The ones
with a `_refuted` theorem are proved; the others were seen while modelling.

1. Time zones west of Greenwich with a fraction of an hour (-03:30): labels read back 2*m minutes early
   (`C07_*_refuted`); increments named so are not found by regress.
2. fs_abilities.py:985-1006: bytes >= 128 are not quoted by the classes chosen (`C10_*_refuted`).
3. The increments directory of a source directory named like an increment (`x.<time>.diff`)
   is taken for an increment (C08, C01, C04; `remove file` deletes it).
4. `recreate_attr` names its file `.snapshot.gz` but writes it uncompressed with --no-compression.
5. `get_mirror_time(must_exist=True)` with two markers returns the first in listdir order
   (`C06_restore_base_refuted`).
6. selection: `--exclude-other-filesystems` raises KeyError on any non-empty directory; a file
   list mixing + and - loses files; glob `$` matches before a trailing newline; `[!a]`
   matches "/"; FilterIter (restore/compare) shows stale scanned directories, raises on a
   scanned non-directory, may exclude the root.
7. Extended attribute names with `=`, `\`, blank or non-ASCII bytes don't round-trip
   (`C31_*_refuted`); `line[0] == b"#"` is never true.
8. iterfile: `MiscIterToFile.read(length)` returns `read_buffer[length:]`; closing an
   unfinished virtual file adds bytes to str; after a read error close raises AttributeError.
9. Security: `"%d" % i + 1` raises TypeError; settings other than "server" can be assigned in
   every mode, among them `local_connection` which switches path vetting off
   (`C19_*_refuted`); RepoShadow.setup widens the restriction to the base of the repository;
   setup, in the minimal set, creates directories; list has `sstats.SessionsStats.add_error_local`
   (typo), so the real function is refused; `get_statistics` is in no list.
10. `remove file`: statistics lines matched by `startswith(path + " ")` (`C38_*_refuted`);
    paths beginning with "#"; names of increments.
11. `genstrtotime` takes the time 0 for "no match" (`C33`).
12. RORPath.__eq__ is not symmetric; a special file equals an empty regular one
    (`C40_*_refuted`); "resource_forks" vs "resourcefork".
13. A caught failure of rename or while writing an increment leaves a wrong or partial
    increment (`C01_*_refuted`).
14. Sessions leaving the root directory unchanged have no root increment and aren't counted
    by `remove increments` (`C05_*`).
15. needs_regress with an empty increments directory: blocked repository; `remove --older-than`
    deletes an empty `increments`.
16. Regress relies on mirror and recorded metadata differing when the session changed a file;
    violated by loose equality (`C02_*_refuted`).
17. connection: a message cut within its data by a broken pipe is delivered cut
    (`C22_*_refuted`); `.object(` typo in `_answer_request`.
18. A user or group named "None" is read back as none (`C11_*_refuted`).
19. rpath.get_rpath_data raises a name that doesn't exist; a metadata record with an empty
    name raises UnboundLocalError.
20. ACLs: numeric user names are read back as ids; `__str__` drops a default ACL without
    access entries; is_basic asserts on it.
21. Hard links: a link count growing during the backup raises KeyError; restoring over an
    identical tree breaks links; a file newly linked as first name to an unchanged second
    one isn't linked in the mirror (`C24_*_refuted`).
22. Long names: the counter file is deleted, then rewritten; a truncated one raises ValueError
    for ever; a shrinking name limit loses increments (`C25_*_refuted`).
23. `_find_blocksize` isn't monotone; copying over a longer file keeps bytes under holes
    (`C28_*_refuted`); `_cmp_file_obj` is wrong on short reads.
24. compare: `--method hash` misses a changed hard-linked file whose first name is gone
    (`C41_*_refuted`); `--method full` dies when the selection excludes one side; an unparsable
    time returns exit code 0.
25. verify: unreadable repository data is replaced by an empty file; statistics go through
    float: sizes above 2^53 change (`C36_*_refuted`).
26. _CacheCollatedPostProcess: (root, nothing) raises AttributeError; changed-and-failed files
    are counted neither as source nor as mirror files; `_reset_dir_perms` never pops.
27. fstats: lines of paths beginning with "#" are comments; get_cutoff adds NewFiles twice;
    a missing parent drops the rest; nothing above the cutoff fails an assertion (`C42_*`).
28. `_CachedRF._get_rf` loops for ever if a requested file has no data and every other entry
    of its directory sorts before it (`C46_hangs_refuted`); a request for the root raises IndexError.
29. Locking: two concurrent first backups may both hold the exclusive lock; a killed first
    backup leaves lock.yml which blocks later ones; `_create` precedes the lock; the opener
    truncates the holder's trace (`C30_*_refuted`).
30. Owners: `--preserve-numerical-ids` has no effect (key mismatch); a listed id is overridden
    by an existing name (`C32_*_refuted`).
31. Restore: a file excluded by the selection in a directory to be removed stops the restore (`C47_excluded_file_in_the_way_refuted`).
32. Backup: a failed deletion in a directory to be removed stops the session with ENOTEMPTY
    (`C48_failed_deletion_in_removed_directory_refuted`).
33. Backup as an ordinary user: a directory new in the source without full owner permissions stays open in the mirror until the next
    session (`C49_new_closed_directory_stays_open_refuted`).
34. `_reset_dir_perms` gives a directory its permissions back while the removal of a subdirectory in it may be pending; the backup then
    fails with EACCES (`C49_permissions_back_too_early_refuted`).
35. parse_location: `(\\{2})*` keeps the last pair only, so a host ending with two backslashes loses one; a path of backslashes only makes
    a remote location local; a part of backslashes and a newline is dropped (`C50_*_refuted`).
36. parse_location: no path with a backslash can be named, POSIX ones included (`C50_no_path_with_a_backslash_refuted`).
37. _fill_schema: a doubled brace hides a placeholder from the check; ValueError isn't caught (`C51_*_refuted`).
38. The first server decides on the API version alone (`C52_common_version_not_found_refuted`); also SetConnections.py:406 compares
    (`== 200`) where an assignment was meant (servers of version 2.0, not modelled).
39. `remove increments` doesn't look for an interrupted session: a time between the last completed and the interrupted session
    deletes the marker and the metadata of the last completed one (`C55_later_time_refuted`).
40. `calculate` replaces the general checks by its own work (pre_check calls run): a missing --tempdir isn't noticed
    (`C57_calculate_tempdir_refuted`).
41. `restore --force` onto a file deletes the file during setup and refuses afterwards when the time can't be parsed or the
    repository needs a regress (`C57_restore_deletes_then_refuses_refuted`).
42. `remove` (also `remove file --dry-run`) and `regress` clear what looks like a failed initial backup
    (`C58_removal_clears_refuted`).
43. `compare` writes configuration files into a repository which has none (`C59_compare_writes_refuted`); with a time which can't be
    parsed its setup returns `ret_code & ERR` (compare.py; 0 here) and the run goes on (`C61_compare_time_refuted`).
44. `verify` drops the warnings of its setup (`C61_verify_warning_refuted`).
45. `_warn_if_infinite_recursion` doesn't warn when the source is `/` (`C62_root_refuted`).
46. The code of the backup run is OK although files couldn't be read (they are only logged and counted); a failed connection ends
    `test` in main_run although its check method would go on with the others (both visible in the model, no theorem).
47. A first session which finds files in the mirror (a repeated first session, or `--force` into an existing directory) records those
    which look unchanged as found, i.e. without SHA1 digest (`_get_dest_select` 524-544, `_CacheCollatedPostProcess` 2422-2452), so
    `verify` cannot check them until they change (`C63_found_file_has_no_hash`). For this reason the recorded hash is optional in
    M_Core (`sha1 : attr -> bytes -> option bytes`, the attributes tell whether it is known), and C02/C03, which are about single
    paths, assume known hashes (`hashes_known`); C44/C45 don't.
48. Local backup: the settings `xxx_conn` of the only connection are those of the repository, since the second assignment of
    `Dir2RepoSetGlobals._update_triple` (fs_abilities.py:973-984) overwrites the first. So EAs, ACLs, ... which the source's file
    system supports and the repository's doesn't are neither read nor recorded, though over a connection they are
    (`C65_local_dropped_refuted`), and `--never-drop-acls` doesn't notice (`C65_never_drop_acls_refuted`).
49. A change of extra metadata alone is ignored if the repository's file system doesn't support the kind (rpath.py:80-101), so the
    old record stays (`C65_change_missed_refuted`); resource forks are the exception since the ignored key is `resource_forks`, the
    key in the dictionary `resourcefork`.
50. Special escapes are recorded but not applied if there are no characters to quote (`_repo_shadow.py:222`,
    `C66_escapes_without_quoting_refuted`); `--chars-to-quote` given to a restore isn't compared with the record
    (`C66_enforced_quoting_unchecked_refuted`). An empty set of escapes is written as an empty file and read as the set of the empty
    string, which is harmless.
51. `remove increments --older-than` killed half-way (_repo_shadow.py:1244-1249 deletes files one after the other, without any marker of what it is doing): remains of removed sessions are still listed as sessions, can be asked to be restored, and give wrong contents; sessions kept are not touched, and calling the removal again completes it (C64_removal_repeated). But `regress --force` with one session left then takes the remains for the session before, goes back to it and so loses the only good session (C64_forced_after_killed_removal_refuted).
52. `log.ErrorLog.write_if_open` is called in two places (_repo_shadow.py:622, 2677) but does not exist: a source file changing while it is backed up ends the whole session with an AttributeError instead of being skipped (C67_changed_file_refuted).
53. Security.py allows `sstats.SessionsStats.add_error_local`, the request is `sstats.SessionStats.add_error_local`: any recoverable error on the side not writing the repository (an unreadable source file of a remote backup) ends the session with a Security.Violation (C67_other_side_refuted).
54. The log files of actions other than backup (`regress.log`, `remove.log`) are opened but nothing is ever written to them, since only a backup sets the writer (C68_other_actions_refuted).
55. Logger.exception uses `>=` where Logger.__call__ uses `>`: without a log file, unexpected exceptions are not shown at the verbosity equal to their importance (C68_exception_hidden_refuted).
56. `RepoShadow.get_statistics` (API since 300) is in no list of Security.py: `calculate statistics` of a remote repository is refused by every server which is not in override mode (C69_statistics_refuted).
57. `compare` sets the repository up with Dir2RepoSetGlobals, which writes chars_to_quote / special_escapes to a repository lacking them: comparing writes to the repository, and a read-only server refuses it (C69_compare_configures_refuted).
58. A server in update-only mode refuses `regress`, which a backup sends by itself if the last session did not finish: one interrupted backup blocks all later ones until somebody with more rights repairs the repository (C69_update_only_regress_refuted).
59. A server restricted to "." accepts no relative location inside of it (normalize gives "." for the directory, but paths without it for its contents); this is why C69 asks for a directory other than the current one.
60. File lists with mixed "+"/"-" lines: an excluded path sorting between a directory and an included file below it keeps the directory from being included (selection.py:440-474), so with a final `--exclude '**'` the included file isn't backed up (C16_mixed_list_parent_refuted).
61. While extended attributes are written, copy_attribs makes the file readable and writable for everybody (`rpout.chmod(rpin.getperms() | 0o666)`), set-user-id bits included, after its contents are complete: a private file is exposed for that time on source-side restores and in the mirror (C70_window_refuted; without EAs there's no such time: C70_no_window_without_attributes).
62. EA's _clear_rp catches io.UnsupportedOperation, which the OSError with EOPNOTSUPP isn't: a target on a file system without extended attributes, mounted below one having them, raises (C70_unsupported_refuted).
63. copy_attribs_inc doesn't make the increment writable before writing extended attributes; EACCES is ignored, so that who isn't root silently loses the attributes of increments which are read-only (C70_increment_attributes_refuted).
64. Names are only escaped (ends, devices) if there are characters to quote at all (`_repo_shadow.py:222`): on a file system which drops periods but takes all characters and distinguishes capitals, "a." and "a" collide although the test found out that they do (`C71_periods_without_quoting_refuted`).
65. The read-only test for periods takes a source which keeps them but doesn't distinguish capitals for one which drops them when "foo" is listed before "FOO." (`C71_periods_and_capitals_refuted`); a source file called `con` turns off the escaping of all devices (`C71_device_in_source_refuted`); only the first directory with a letter is looked at, so mounts below are not (`C71_mounts_refuted`); capitals outside of ASCII are never quoted (`C71_capitals_outside_ascii_refuted`).
66. The high permissions of directories are tested on a file created by `touch` (`C71_high_permissions_refuted`), and a failing test leaves its temporary directory in rdiff-backup-data (`C71_left_over_refuted`).
67. (C72) _repo_shadow.py:2764-2770: the increment is forced to the disk before the mirror file is replaced, but the new file (the temporary file) isn't: on a file system which doesn't force data before a rename, after a power failure the mirror file may be empty, and the increment, a difference to data that aren't there any more, doesn't give the old data back (C72_renamed_before_written_refuted).
68. (C72) _repo_shadow.py:3396-3402: going back to a regular file where the mirror has none (or something else) writes the file in place; only the directory is forced to the disk before the increment is deleted (line 3326), not the data: a power failure then leaves an empty file with the right attributes, and the repeated regress takes it for good (C72_restored_in_place_refuted).
69. (C72) _repo_shadow.py:2802-2811: when a directory is replaced by something else, its increment (and its new directory of increments) isn't forced to the disk, unlike when it stays a directory (2797): the increments of the files in it, though forced themselves, may be in a directory which isn't found again (C72_directory_replaced_refuted).
70. (C72) _repo_shadow.py:696-700: the removal of the older current_mirror isn't forced to the disk, so that a session reported as complete may be undone by the next command (C72_completed_session_undone; nothing held before it is lost). Where directories can't be forced to the disk (fsync_directories false), the marker of a begun session may be lost though files have changed: nothing asks for going back (C72_no_directory_fsync_refuted).
71. (C74) sstats.py:185-193 get_cutoff adds NewFiles twice and never DeletedFiles: a session which only deletes files has the cutoff 0. sstats.py:292-294 shows the average of errors with %d: 5 errors in 6 sessions are shown as 0 (C74_cutoff_refuted, C74_errors_refuted).
72. **What the PID of the marker recognises** (C76, `_repo_shadow.py:1754-1829`, `backup.py:111-151`). Where flock works and nobody uses --force, the lock of lock.yml alone excludes two sessions (`C76_locks_suffice`, for every schedule). Where it has no effect only the PIDs are left, and then: (a) two sessions started together both go on, and three markers are left with which no session can start any more, not even with --force (AssertionError at 1687); the same happens with locks if the second has --force. (b) A session of another user isn't recognised by an unprivileged user: EPERM, which proves that the process runs, is taken as unknown (the FIXME says so). (c) A session which is regressing has not written a marker; a second one regresses at the same time. In any case: (d) the PID of the process itself isn't excepted: in a container, where rdiff-backup has the same PID every time, a crashed session can't be repaired without --force. (e) A number over 2^31-1 in a marker gives an uncaught OverflowError, PID 0 is always 'running'.
73. **Four documented selection options crash** (C77, `selection.py:189, 208-220`). --include-device-files, --include-fifos, --include-sockets and --include-other-filesystems are in the manual page and accepted by the parser, but have no entry in the mapping: RuntimeError 'Bad selection option'.
74. **The standard input can be used for one list only** (C77, `argopts.py:118-126`): with a second `-stdin` option sys.stdin is read after it was closed, ValueError isn't caught.
75. **Increments below a directory named increments or rdiff-backup-data are refused** (C78, `_repo_shadow.py:473-493`): the first component of that name is taken, even above the repository.
76. **An increment of a repository at / names the current directory** (C78, `_repo_shadow.py:495-497`): the base is the empty path.
77. **repo/.. counts as within repo** (C78, `_repo_shadow.py:508-516`): index `..`; with `..` the path list and the parents differ in meaning.
78. **Names looking like increments** (C78, `_repo_shadow.py:464-471`): a repository, or a backed up file, whose name ends with .TIME.dir (or other type) can't be given as a path; conversely files of rdiff-backup-data not looking like an increment are taken as backed up files.
79. **complete --no-unique always fails** (C79, `complete.py:222-227`): options_set is only bound with --unique (UnboundLocalError).
80. **Completion between an action and its sub-action fails** (C79, `complete.py:177-183`): None is returned and iterated over (TypeError), e.g. for `list --h<TAB> files`.
81. **Completion offers values unfiltered, repeated options once, and takes values for actions** (C79, `complete.py:207-208, 222-225, 140-144`).
82. **An existing .gz metadata file is overwritten silently** (C80, `rpath.py:1371, 1394-1397`, `meta_mgr.py:200`): only the uncompressed name is checked; and when there is nothing to write both files are left.
83. **test stops at the first problem** (C81, `run.py:90-97`, `SetConnections.py:170-171`): one unreachable server and no other one is tested (test.py:72-82 means to go on, with a warning, but is never reached then); all(map(...)) leaves out the servers after the first unfit one.
84. **Added plug-ins of the same name replace each other silently** (C82, `plugins.py:40-56`).
85. (C83) _repo_shadow.py:1185 one session whose statistics lack an attribute used by get_cutoff (a session_statistics file cut off by a crash) makes the whole calculation fail (`C83_incomplete_session_refuted`); calculate.py:150-152 the branch for None cannot be reached, get_statistics gives a list or a pair.
