(** * Vetting of remote requests (src/rdiff_backup/Security.py)

    A request is a function name and a list of arguments.  The state is the one
    of the module Security of the process receiving the request, together with
    the two facts outside of it which vetting depends on: whether
    [specifics.local_connection] still is the local connection, and the base
    directory remembered by RepoShadow.init.  Symbolic links are not modelled:
    paths are compared by name only, as the code does. *)
From Coq Require Import List ZArith Bool Ascii.
From Verif Require Import Base.
Import List ListNotations.
Local Open Scope Z_scope.

Definition slash : ascii := "/".

(** Python values arriving as arguments (connection.py:374-411 _get): paths
    ([local]: the connection number is the one of the receiving process),
    character strings, byte strings and truth values; anything else is [AOther]. *)
Inductive arg : Type :=
| ARPath (local : bool) (base : bytes) (index : list bytes)
| AStr (s : bytes)
| ABytes (s : bytes)
| ABool (b : bool)
| AOther.

(** os.path.join (posixpath) as used by RORPath.path_join (rpath.py:104-122) *)
Fixpoint os_join (p : bytes) (l : list bytes) : bytes :=
  match l with
  | [] => p
  | b :: r =>
      os_join (if match b with c :: _ => Ascii.eqb c slash | [] => false end then b
               else match p with
                    | [] => b
                    | _ => if match rev p with c :: _ => Ascii.eqb c slash | [] => false end
                           then p ++ b else p ++ slash :: b
                    end) r
  end.
(** rpath.py:678 RPath.path *)
Definition rp_path (base : bytes) (index : list bytes) : bytes := os_join base index.

(** bytes.isalnum of one byte *)
Definition is_alnum (c : ascii) : bool :=
  let n := ord c in
  ((48 <=? n) && (n <=? 57) || (65 <=? n) && (n <=? 90) || (97 <=? n) && (n <=? 122))%N.

(** rpath.py:990-1009 RPath.normalize, the path of the result *)
Definition dot : bytes := bs ".".
Definition dotdot : bytes := bs "..".
Definition real_comp (x : bytes) : bool := match x with [] => false | _ => negb (beq_bytes x dot) end.
Definition starts_slash (p : bytes) : bool := match p with c :: _ => Ascii.eqb c slash | [] => false end.
Definition windows_share (p : bytes) : bool :=
  match p with _ :: c :: d :: _ => Ascii.eqb c slash && is_alnum d | _ => false end.
Definition normalize (p : bytes) : bytes :=
  let newpath := os_join [] (filter real_comp (split_on slash p)) in
  if starts_slash p then
    if windows_share p then slash :: slash :: newpath else slash :: newpath
  else match newpath with [] => dot | _ => newpath end.

(** 33-44, 59 *)
Inductive level : Type := LMinimal | LReadOnly | LUpdateOnly | LReadWrite | LOverride.
Inductive sclass : Type := CServer | CBackup | CRestore | CValidate | CNone.

Record sec : Type := mk_sec {
  s_level : level;
  s_restrict : option bytes;       (* _restrict_path, None or non-empty *)
  s_allowed : list bytes;          (* _allowed_requests *)
  s_conn_ok : bool;                (* specifics.local_connection is the local connection *)
  s_base : option bytes;           (* path of RepoShadow._base_dir *)
  s_writable : bool }.             (* RepoShadow._must_be_writable *)

(** 56-61 _file_requests *)
Definition f_init_repo : bytes := bs "_repo_shadow.RepoShadow.init".
Definition f_setup_repo : bytes := bs "_repo_shadow.RepoShadow.setup".
Definition file_requests : list (bytes * nat) :=
  [(bs "rpath.make_file_dict", O); (f_init_repo, O);
   (bs "_dir_shadow.ReadDirShadow.init", O); (bs "_dir_shadow.WriteDirShadow.init", O)].

(** 64-67 _globals_requests; 53 _disallowed_server_globals *)
Definition f_set_local : bytes := bs "generics.set_local".
Definition f_set : bytes := bs "specifics.set".
Definition globals_requests : list bytes := [f_set_local; f_set].
Definition disallowed_server_globals : list bytes := [bs "server"].

(** 192-307 _set_allowed_requests *)
Definition req_minimal : list bytes :=
  [bs "RedirectedRun"; bs "VirtualFile.readfromid"; bs "VirtualFile.closebyid"; bs "specifics.get";
   bs "log.Log.log_to_file"; bs "robust.install_signal_handlers"; bs "SetConnections.add_redirected_conn";
   f_init_repo; bs "_repo_shadow.RepoShadow.check"; f_setup_repo;
   bs "_repo_shadow.RepoShadow.setup_finish"; bs "_repo_shadow.RepoShadow.exit";
   bs "log.Log.open_logfile_local"; bs "log.Log.close_logfile_local";
   bs "log.ErrorLog.open_logfile_local"; bs "log.ErrorLog.close_logfile_local"; bs "log.ErrorLog.log_to_file"].
Definition req_common : list bytes :=
  [bs "rpath.get_rpath_data"; bs "_repo_shadow.RepoShadow.get_config";
   bs "_repo_shadow.RepoShadow.get_mirror_time"; bs "_repo_shadow.RepoShadow.needs_regress";
   bs "_repo_shadow.RepoShadow.get_fs_abilities"].
Definition req_read : list bytes :=
  [bs "_dir_shadow.ReadDirShadow.compare_full"; bs "_dir_shadow.ReadDirShadow.compare_hash";
   bs "_dir_shadow.ReadDirShadow.compare_meta"; bs "_dir_shadow.ReadDirShadow.get_diffs";
   bs "_dir_shadow.ReadDirShadow.get_fs_abilities"; bs "_dir_shadow.ReadDirShadow.get_select";
   bs "_dir_shadow.ReadDirShadow.set_select"; bs "_repo_shadow.RepoShadow.init_loop";
   bs "_repo_shadow.RepoShadow.get_increment_times"; bs "_repo_shadow.RepoShadow.set_select";
   bs "_repo_shadow.RepoShadow.finish_loop"; bs "_repo_shadow.RepoShadow.get_diffs";
   bs "_repo_shadow.RepoShadow.list_files_changed_since"; bs "_repo_shadow.RepoShadow.list_files_at_time";
   bs "_repo_shadow.RepoShadow.init_and_get_loop"; bs "_repo_shadow.RepoShadow.verify";
   bs "_dir_shadow.ReadDirShadow.init"; bs "_dir_shadow.ReadDirShadow.check";
   bs "_dir_shadow.ReadDirShadow.setup"; bs "_repo_shadow.RepoShadow.get_increments";
   bs "_repo_shadow.RepoShadow.get_increments_sizes"; bs "_repo_shadow.RepoShadow.get_parsed_time"].
Definition req_update : list bytes :=
  [bs "VirtualFile.writetoid"; bs "_repo_shadow.RepoShadow.close_statistics";
   bs "_repo_shadow.RepoShadow.get_sigs"; bs "_repo_shadow.RepoShadow.apply";
   bs "_repo_shadow.RepoShadow.remove_current_mirror"; bs "_repo_shadow.RepoShadow.set_config";
   bs "_repo_shadow.RepoShadow.touch_current_mirror"; bs "sstats.SessionsStats.add_error_local"].
Definition req_write : list bytes :=
  [bs "_repo_shadow.RepoShadow.regress"; bs "_repo_shadow.RepoShadow.remove_increments_older_than";
   bs "_dir_shadow.WriteDirShadow.get_fs_abilities"; bs "_dir_shadow.WriteDirShadow.get_sigs_select";
   bs "_dir_shadow.WriteDirShadow.apply"; bs "_dir_shadow.WriteDirShadow.set_select";
   bs "_dir_shadow.WriteDirShadow.init"; bs "_dir_shadow.WriteDirShadow.check";
   bs "_dir_shadow.WriteDirShadow.setup"; bs "_repo_shadow.RepoShadow.force_regress";
   bs "_repo_shadow.RepoShadow.remove_file"].
Definition req_server : list bytes :=
  [bs "SetConnections.init_connection_remote"; bs "specifics.set_api_version";
   bs "log.Log.set_verbosity"; bs "log.Log.set_parsable"].
Definition allowed_requests (cl : sclass) (lv : level) : list bytes :=
  req_minimal
  ++ match lv with LReadOnly | LUpdateOnly | LReadWrite => req_common | _ => [] end
  ++ match lv with LReadOnly | LReadWrite => req_read | _ => [] end
  ++ match lv with LUpdateOnly | LReadWrite => req_update | _ => [] end
  ++ match lv with LReadWrite => req_write | _ => [] end
  ++ match cl with CServer => req_server | _ => [] end.

(** 128-189 _set_security_level.  A command pair is (command, path), the command
    empty for a local location; [tmp] is tempfile.gettempdirb().  Unknown classes
    (RuntimeError) are not in [sclass]. *)
Record cmdpair : Type := mk_pair { cp_cmd : option bytes; cp_path : bytes }.
Definition islocal (p : cmdpair) : bool := match cp_cmd p with None => true | Some [] => true | _ => false end.
Definition set_security_level (tmp : bytes) (cl : sclass) (lv : level) (rdir : option bytes) (pairs : list cmdpair)
  : option (level * option bytes) :=
  match cl with
  | CNone | CServer => Some (lv, rdir)
  | CValidate => match pairs with [] => None | _ => Some (LMinimal, Some tmp) end  (* IndexError *)
  | CBackup | CRestore =>
      match pairs with
      | [] => None                                   (* IndexError *)
      | cp1 :: r =>
          let cp2 := match r with c :: _ => c | [] => cp1 end in
          let single := match r with [] => true | _ => false end in
          if (match cl with CRestore => single | _ => false end)
             || Bool.eqb (islocal cp1) (islocal cp2) then Some (LMinimal, Some tmp)
          else if islocal cp1 then Some (LReadOnly, Some (cp_path cp1))
          else Some (match cl with CRestore => LReadWrite | _ => LUpdateOnly end, Some (cp_path cp2))
      end
  end.

(** 93-105 reset_restrict_path; an empty string counts as no restriction *)
Definition opt_path (p : bytes) : option bytes := match p with [] => None | _ => Some p end.
Definition reset_restrict (s : sec) (path : bytes) : sec :=
  mk_sec (s_level s) (opt_path (normalize path)) (s_allowed s) (s_conn_ok s) (s_base s) (s_writable s).

(** 74-91 initialize *)
Definition initialize (tmp : bytes) (cl : sclass) (lv : level) (rdir : option bytes) (pairs : list cmdpair) : option sec :=
  match set_security_level tmp cl lv rdir pairs with
  | None => None
  | Some (lv', rdir') =>
      let s := mk_sec lv' None (allowed_requests cl lv') true None false in
      Some (match rdir' with Some (c :: r) => reset_restrict s (c :: r) | _ => s end)
  end.

(** 326-355 _vet_rpath on the path of a local RPath *)
Definition mem_bytes (x : bytes) (l : list bytes) : bool := existsb (beq_bytes x) l.
Fixpoint list_prefix (a b : list bytes) : bool :=
  match a, b with
  | [], _ => true
  | x :: a', y :: b' => beq_bytes x y && list_prefix a' b'
  | _, _ => false
  end.
Definition vet_path (restrict : bytes) (path : bytes) : bool :=
  let components := split_on slash (normalize path) in
  if mem_bytes dotdot components then false
  else if beq_bytes restrict (bs "/") then true
  else list_prefix (split_on slash restrict) components.

Inductive vres : Type := VAccept | VViolation | VError.   (* VError: another exception *)

(** 310-323 _vet_filename; a path object is accepted as file name (os.PathLike).
    When specifics.local_connection has been overwritten, looking at the file fails. *)
Definition filename_of (a : arg) : option bytes :=
  match a with
  | ARPath _ base index => Some (rp_path base index)
  | AStr s | ABytes s => Some s
  | ABool _ | AOther => None
  end.
Definition vet_filename (s : sec) (restrict : bytes) (i : nat) (args : list arg) : vres :=
  match nth_error args i with
  | None => VError                                 (* "%d" % i + 1: TypeError *)
  | Some a =>
      match filename_of a with
      | None => VViolation
      | Some p => if s_conn_ok s then if vet_path restrict p then VAccept else VViolation else VError
      end
  end.

Definition vet_arg (s : sec) (restrict : bytes) (a : arg) : bool :=
  match a with
  | ARPath local base index =>
      if local && s_conn_ok s then vet_path restrict (rp_path base index) else true
  | _ => true
  end.

Fixpoint file_request (f : bytes) (l : list (bytes * nat)) : option nat :=
  match l with
  | [] => None
  | (g, i) :: r => if beq_bytes f g then Some i else file_request f r
  end.

(** 108-125 vet_request *)
Definition vet_paths (s : sec) (f : bytes) (args : list arg) : vres :=
  match s_restrict s with
  | None => VAccept
  | Some r =>
      if forallb (vet_arg s r) args then
        match file_request f file_requests with
        | Some i => vet_filename s r i args
        | None => VAccept
        end
      else VViolation
  end.
Definition is_disallowed (a : arg) : bool :=
  match a with AStr g => mem_bytes g disallowed_server_globals | _ => false end.
Definition vet_request (s : sec) (f : bytes) (args : list arg) : vres :=
  match s_level s with
  | LOverride => VAccept
  | _ =>
      match vet_paths s f args with
      | VAccept =>
          if mem_bytes f (s_allowed s) then VAccept
          else if mem_bytes f globals_requests then
            match args with
            | [] => VError                          (* IndexError *)
            | a :: _ => if is_disallowed a then VViolation else VAccept
            end
          else VViolation
      | v => v
      end
  end.

(** ** Answering requests (connection.py:549-568 _answer_request)

    [find_base] is what _get_repository_dirs (_repo_shadow.py:447-522) finds in the
    file system: the base directory of the repository a path lies in.  [ok] tells
    whether RepoShadow.setup gets as far as line 159. *)
Section Serve.
Variable find_base : bytes -> option bytes.

Definition run_effect (ok : bool) (s : sec) (f : bytes) (args : list arg) : sec :=
  if beq_bytes f f_init_repo then                   (* _repo_shadow.py:95-147 *)
    match args with
    | ARPath true base index :: rest =>
        let p := rp_path base index in
        mk_sec (s_level s) (s_restrict s) (s_allowed s) (s_conn_ok s)
          (match nth_error rest 3 with
           | Some (ABool true) => find_base p
           | _ => Some p
           end)
          (match nth_error rest 1 with Some (ABool true) => true | _ => false end)
    | _ => s
    end
  else if beq_bytes f f_setup_repo then             (* 152-159 *)
    match s_base s with
    | Some b => if ok && s_conn_ok s then reset_restrict s b else s
    | None => s
    end
  else if beq_bytes f f_set then                    (* specifics.py:115-120 *)
    match args with
    | AStr g :: _ => if beq_bytes g (bs "local_connection")
                     then mk_sec (s_level s) (s_restrict s) (s_allowed s) false (s_base s) (s_writable s) else s
    | _ => s
    end
  else s.

(** 152-156: RepoShadow.setup calls _create (351-445), which makes the directories of
    the repository and cleans up what it takes for a failed initial backup *)
Definition setup_creates (s : sec) : bool := s_writable s.

Record request : Type := mk_req { r_fun : bytes; r_args : list arg; r_ok : bool }.
(** what the server did: the request executed, or the exception sent back *)
Inductive done : Type := Executed (r : request) | Refused (v : vres).

Definition answer (s : sec) (r : request) : done * sec :=
  match vet_request s (r_fun r) (r_args r) with
  | VAccept => (Executed r, run_effect (r_ok r) s (r_fun r) (r_args r))
  | v => (Refused v, s)
  end.
Fixpoint serve (s : sec) (l : list request) : list done * sec :=
  match l with
  | [] => ([], s)
  | r :: l' =>
      let '(d, s1) := answer s r in
      let '(ds, s2) := serve s1 l' in
      (d :: ds, s2)
  end.
End Serve.
