(** * The requests an action sends to the server of one of its locations
    (src/rdiff_backup/SetConnections.py; src/rdiffbackup/actions/ (all actions);
     src/rdiffbackup/locations/{location,directory,repository,fs_abilities}.py;
     src/rdiffbackup/singletons/generics.py)

    Each location which is not local has a server of its own.  For every action, the
    sequence of requests which the client sends to the server of the repository, or to
    the server of the directory, when all goes well.  Which values are sent does not
    matter for the vetting, except for the paths and for the names of settings.

    Not modelled: the requests of one server to the other or to the client (iterators,
    see M_Streams; messages, see M_Log). *)
From Coq Require Import List Bool Ascii.
From Verif Require Import Base M_Security.
Import List ListNotations.

Definition rq (f : bytes) (args : list arg) : request := mk_req f args true.
Definition repo_f (m : bytes) : bytes := bs "_repo_shadow.RepoShadow." ++ m.
Definition rdir_f (m : bytes) : bytes := bs "_dir_shadow.ReadDirShadow." ++ m.
Definition wdir_f (m : bytes) : bytes := bs "_dir_shadow.WriteDirShadow." ++ m.

(** generics.py:153-166, 179-182: every setting goes to every connection *)
Definition gset (name : bytes) : request := rq (bs "generics.set_local") [AStr name; AOther].
(** specifics.py set, through the connection *)
Definition sset (name : bytes) : request := rq (bs "specifics.set") [AStr name; AOther].

(** SetConnections.py:314-355, 358-494, 497-514, 105-118; rpath.py:739.  [settings] are
    the names of generics.changed_settings, [others] the number of connections opened
    before or after this one. *)
Definition connecting (settings : list bytes) (others : nat) (base : bytes) (index : list bytes) : list request :=
  [rq (bs "specifics.get") [AStr (bs "version")]; rq (bs "specifics.get") [AStr (bs "api_version")];
   rq (bs "specifics.set_api_version") [AOther];
   rq (bs "SetConnections.init_connection_remote") [AOther]]
  ++ repeat (rq (bs "SetConnections.add_redirected_conn") [AOther]) others
  ++ [rq (bs "log.Log.set_verbosity") [AOther; AOther]; rq (bs "log.Log.set_parsable") [AOther]]
  ++ map gset settings
  ++ [rq (bs "rpath.get_rpath_data") [ABytes (rp_path base index); ABytes base; AOther]].

(** actions/__init__.py:622-643 setup: the current time (Time.py, generics.set) and the
    signal handlers *)
Definition starting : list request :=
  [gset (bs "current_time"); gset (bs "current_time_string"); rq (bs "robust.install_signal_handlers") []].

(** fs_abilities.py:800-872 and the __call__ of the three subclasses (887-903, 1084-1100,
    1187-1206): five triples of settings, then single ones; [conn_attr] is set in the
    process of either location *)
Definition triple (a b c : string) : list request := [gset (bs a); sset (bs c); gset (bs b)].
Definition set_triples : list request :=
  triple "eas_active" "eas_write" "eas_conn" ++ triple "acls_active" "acls_write" "acls_conn"
  ++ triple "win_acls_active" "win_acls_write" "win_acls_conn"
  ++ triple "resource_forks_active" "resource_forks_write" "resource_forks_conn"
  ++ triple "carbonfile_active" "carbonfile_write" "carbonfile_conn".
Definition set_singles : list request :=
  map (fun s => gset (bs s)) ["preserve_hardlinks"; "fsync_directories"; "change_ownership"; "permission_mask"; "symlink_perms"]%string.
Definition set_quoting : list request :=
  map (fun s => gset (bs s)) ["chars_to_quote"; "chars_to_quote_regexp"; "chars_to_quote_unregexp"; "escape_dos_devices";
                              "escape_trailing_spaces"; "use_compatible_timestamps"]%string.
(** 905-935, 1008-1030: what a repository does not know yet is written to it *)
Definition configure (write : bool) (key : bytes) : list request :=
  rq (repo_f (bs "get_config")) [AStr key]
  :: if write then [rq (repo_f (bs "set_config")) [AStr key; AOther]] else [].

(** Repo.__init__ and Repo.setup (repository.py:33-106), [src]: with a source directory;
    [uctq], [use]: the repository has no chars_to_quote, no special_escapes *)
Section Scripts.
Variable base : bytes.
Variable index : list bytes.
Definition repo_init (writable exists_ sub time : bool) : list request :=
  [rq f_init_repo [ARPath true base index; AOther; ABool writable; ABool exists_; ABool sub; ABool time]].
Definition repo_check : list request := [rq (repo_f (bs "check")) []].
Definition repo_setup (src uctq use : bool) : list request :=
  [rq f_setup_repo []; rq (repo_f (bs "get_fs_abilities")) []]
  ++ (if src then [gset (bs "backup_writer"); sset (bs "is_backup_writer")] else [])
  ++ set_triples ++ set_singles
  ++ configure (src && uctq) (bs "chars_to_quote") ++ configure (src && use) (bs "special_escapes") ++ set_quoting
  ++ [rq (repo_f (bs "setup_finish")) []].
(** repository.py:111-119 exit *)
Definition repo_exit : list request :=
  [gset (bs "backup_writer"); sset (bs "is_backup_writer"); rq (repo_f (bs "exit")) []].

(** ReadDir, WriteDir (directory.py:31-151): the settings of the repository come along *)
Definition dir_read_init : list request := [rq (rdir_f (bs "init")) [ARPath true base index; AOther; ABool false; ABool true]].
Definition dir_write_init : list request := [rq (wdir_f (bs "init")) [ARPath true base index; AOther; ABool true; ABool false]].
Definition dir_f (w : bool) (m : bytes) : bytes := if w then wdir_f m else rdir_f m.
Definition dir_setup (w : bool) : list request :=
  [rq (dir_f w (bs "check")) []; rq (dir_f w (bs "setup")) []; rq (dir_f w (bs "get_fs_abilities")) []]
  ++ [gset (bs "backup_writer")] ++ set_triples ++ set_singles ++ set_quoting.

(** reading from an iterator or a file held by the server, [n] times
    (connection.py:708-722) *)
Definition reading_from (n : nat) : list request :=
  repeat (rq (bs "VirtualFile.readfromid") [AOther; AOther]) n ++ [rq (bs "VirtualFile.closebyid") [AOther]].

Inductive role : Type := RRepo | RDir.
(** [uctq], [use] as above; [failed]: the last session did not finish; [can]: a forced
    regress is possible; [n]: how many reads *)
Inductive compare_method : Type := CMeta | CHash | CFull.
Inductive act : Type :=
| QBackup (uctq use failed : bool)
| QRestore (at_time : bool)
| QCompare (m : compare_method) (uctq use : bool)
| QListIncrements (sizes : bool)
| QListFiles (since : bool)
| QVerify
| QRemoveIncrements
| QRemoveFile
| QRegress (failed force can : bool)
| QStatistics
| QTest.

Definition other_path : arg := ARPath false [] [].

(** what an action does with its repository, from Repo() to the end *)
Definition repo_part (a : act) (n : nat) : list request :=
  match a with
  | QBackup uctq use failed =>                                (* backup.py:58-160; actions/__init__.py:659-696 *)
      repo_init true false false true ++ repo_check ++ starting ++ repo_setup true uctq use
      ++ [rq (repo_f (bs "needs_regress")) []]
      ++ (if failed then [rq (repo_f (bs "regress")) []] else [])
      ++ [rq (repo_f (bs "get_mirror_time")) [ABool false; ABool true];
          rq (repo_f (bs "touch_current_mirror")) [AOther];
          rq (repo_f (bs "get_sigs")) [AOther; AOther; ABool false]]
      ++ reading_from n
      ++ [rq (repo_f (bs "apply")) [AOther; AOther];
          rq (repo_f (bs "remove_current_mirror")) [];
          rq (repo_f (bs "close_statistics")) [AOther]]
  | QRestore at_time =>                                       (* restore.py:65-236 *)
      repo_init false true true false ++ repo_check ++ starting ++ repo_setup false false false
      ++ configure false (bs "chars_to_quote") ++ configure false (bs "special_escapes")
      ++ (if at_time then [rq (repo_f (bs "get_parsed_time")) [AStr (bs "now")]] else [])
      ++ [rq (repo_f (bs "set_select")) [other_path];
          rq (repo_f (bs "needs_regress")) [];
          rq (repo_f (bs "init_loop")) [AOther];
          rq (repo_f (bs "get_diffs")) [AOther]]
      ++ reading_from n
      ++ [rq (repo_f (bs "finish_loop")) []]
  | QCompare m uctq use =>                                    (* compare.py:67-170 *)
      repo_init false true true false ++ repo_check ++ starting ++ repo_setup true uctq use
      ++ [rq (repo_f (bs "get_parsed_time")) [AOther];
          rq (repo_f (bs "init_and_get_loop")) [AOther; AOther]]
      ++ reading_from n
      ++ [rq (repo_f (bs "finish_loop")) []]
  | QListIncrements sizes =>                                  (* list_.py:83-205 *)
      repo_init false true true false ++ repo_check ++ starting ++ repo_setup false false false
      ++ [rq (repo_f (if sizes then bs "get_increments_sizes" else bs "get_increments")) []]
  | QListFiles since =>                                       (* list_.py:83-130, 206-218 *)
      repo_init false true true false ++ repo_check ++ starting ++ repo_setup false false false
      ++ [rq (repo_f (bs "get_parsed_time")) [AOther];
          rq (repo_f (if since then bs "list_files_changed_since" else bs "list_files_at_time")) [AOther]]
      ++ reading_from n
  | QVerify =>                                                (* verify.py:58-104 *)
      repo_init false true true false ++ repo_check ++ starting ++ repo_setup false false false
      ++ [rq (repo_f (bs "get_parsed_time")) [AOther]; rq (repo_f (bs "verify")) [AOther]]
  | QRemoveIncrements =>                                      (* remove.py:75-156 *)
      repo_init true true false false ++ repo_check ++ starting ++ repo_setup false false false
      ++ [rq (repo_f (bs "remove_increments_older_than")) [AOther; AOther]]
  | QRemoveFile =>
      repo_init true true true false ++ repo_check ++ starting ++ repo_setup false false false
      ++ [rq (repo_f (bs "remove_file")) []]
  | QRegress failed force can =>                              (* regress.py:55-105; actions/__init__.py:659-696 *)
      repo_init true true false false ++ repo_check ++ starting ++ repo_setup false false false
      ++ [rq (repo_f (bs "needs_regress")) []]
      ++ (if failed then [rq (repo_f (bs "regress")) []]
          else if force then rq (repo_f (bs "force_regress")) [] :: if can then [rq (repo_f (bs "regress")) []] else []
          else [])
  | QStatistics =>                                            (* calculate.py:102-125 *)
      repo_init false true false false ++ starting ++ [rq (repo_f (bs "get_statistics")) [AOther; AOther; AOther]]
  | QTest =>                                                  (* SetConnections.py:517-560 *)
      starting ++ [sset (bs "test_variable"); rq (bs "specifics.get") [AStr (bs "test_variable")];
                   rq (bs "rpath.get_rpath_data") [ABytes (rp_path base index); ABytes base; AOther]]
  end.

(** what an action does with its directory *)
Definition dir_part (a : act) (n : nat) : list request :=
  match a with
  | QBackup _ _ _ =>
      dir_read_init ++ starting ++ dir_setup false
      ++ [rq (rdir_f (bs "set_select")) []; rq (rdir_f (bs "get_select")) []]
      ++ reading_from n ++ [rq (rdir_f (bs "get_diffs")) [AOther]] ++ reading_from n
  | QRestore _ =>
      dir_write_init ++ starting ++ dir_setup true
      ++ [rq (wdir_f (bs "set_select")) []; rq (wdir_f (bs "get_sigs_select")) []]
      ++ reading_from n ++ [rq (wdir_f (bs "apply")) [AOther]]
  | QCompare m _ _ =>
      dir_read_init ++ starting ++ dir_setup false ++ [rq (rdir_f (bs "set_select")) []]
      ++ match m with
         | CMeta => [rq (rdir_f (bs "compare_meta")) [AOther]]
         | CHash => [rq (rdir_f (bs "compare_hash")) [AOther]]
         | CFull => rq (rdir_f (bs "get_select")) [] :: reading_from n ++ [rq (rdir_f (bs "compare_full")) [AOther]]
         end ++ reading_from n
  | QTest => repo_part QTest n
  | _ => []                                                   (* no directory *)
  end.
Definition ending (a : act) (r : role) : list request :=
  match r, a with
  | RRepo, QTest => []
  | RRepo, _ => repo_exit
  | RDir, _ => [gset (bs "backup_writer")]
  end.

Definition script (settings : list bytes) (others : nat) (a : act) (r : role) (n : nat) : list request :=
  connecting settings others base index
  ++ match r with RRepo => repo_part a n | RDir => dir_part a n end
  ++ ending a r.
End Scripts.
