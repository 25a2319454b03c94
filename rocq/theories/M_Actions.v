(** * The commands: from the command line to the exit code

    Models
    - src/rdiffbackup/run.py:38-158 main_run, 160-189 _system_setup
    - src/rdiffbackup/actions/__init__.py:510-522 __exit__, 533-574 pre_check, 576-609 connect,
      611-618 check, 620-641 setup, 643-655 run, 657-693 _operate_regress
    - src/rdiffbackup/actions/{backup,restore,compare,verify,list_,remove,regress,calculate,info,
      test}.py
    - src/rdiffbackup/locations/location.py:76-172 (check, setup, _is_existing, _is_writable,
      _create), _repo_shadow.py:149-260 (setup, setup_finish, exit), 300-424, _dir_shadow.py:311-345,
      repository.py:72-125, directory.py:43-100, fs_abilities.py:856-1068
    - src/rdiffbackup/singletons/consts.py:30-34 (codes).

    A command is a program over the world: it looks at the world (any answer possible), calls
    operations which change it (any effect and any outcome possible, including the end of the
    process), and computes a code.  Simplifications: only one process works on the locations
    (several: M_Lock), so that what was looked at stays true until the next operation; reading
    operations leave the world as it is (temporary changes of permissions: M_PermChanger);
    messages are left out; the server action (M_Conn, M_Security) is left out. *)
From Coq Require Import List NArith ZArith Bool Ascii.
From Verif Require Import Base.
Import ListNotations.
Local Open Scope N_scope.

Definition beq (a b : bytes) : bool := if list_eq_dec Ascii.ascii_dec a b then true else false.

(** ** Codes: consts.py:30-34 *)
Definition OK : N := 0.
Definition ERR : N := 1.
Definition WARN : N := 2.
Definition FILE_WARN : N := 8.
(** [code & RET_CODE_ERR] *)
Definition is_err (c : N) : bool := negb (N.land c ERR =? 0).

(** ** The command line *)
Inductive action : Type :=
| Backup | Restore | Compare | Verify | ListFiles | ListIncrements
| RemoveIncrements | RemoveFile | Regress | CalcAverage | CalcStatistics | Info | Test.

Record opts : Type := mk_opts {
  o_force : bool;                 (* --force *)
  o_tempdir : bool;               (* --tempdir given *)
  o_at : bool;                    (* --at given (restore) *)
  o_increment : bool;             (* --increment given (restore) *)
  o_filesel : bool;               (* a file selection is given (restore) *)
  o_logging : bool;               (* file verbosity above 0 *)
  o_quote : option bytes;         (* --chars-to-quote *)
  o_now : Z }.                    (* the current time *)

(** backup.py:157-178 _warn_if_infinite_recursion: paths of source and target, [conn]: they have
    the same connection *)
Definition warn_recursion (conn : bool) (rpin rpout : bytes) : bool :=
  if negb conn then false
  else if (List.length rpout <=? List.length rpin + 1)%nat then false
  else beq (firstn (List.length rpin + 1) rpout) (rpin ++ bs "/").

(** ** The world *)
Inductive loc : Type := LDir | LRepo.
Inductive kind : Type := KNone | KOther | KDir.

(** what an action can see of the locations; [v_data]: rdiff-backup-data *)
Record view : Type := mk_view {
  v_kind : loc -> kind;           (* base_dir *)
  v_empty : loc -> bool;          (* base_dir.listdir() is empty *)
  v_data : kind;                  (* _data_dir *)
  v_incs : bool;                  (* _incs_dir.lstat() *)
  v_nomarker : bool;              (* 400-412: no current_mirror and at most one error_log and mirror_metadata *)
  v_lockfile : bool;              (* lock.yml *)
  v_mtime : Z;                    (* get_mirror_time: 0 none, -1 several *)
  v_quote : option bytes;         (* config chars_to_quote *)
  v_escapes : bool }.             (* config special_escapes exists *)

(** the calls which change something *)
Inductive op : Type :=
| OpDelete (l : loc)      (* base_dir.delete() *)
| OpMkdir (l : loc)       (* base_dir.makedirs() or mkdir(), chmod *)
| OpCleanFailed           (* _clean_failed_initial_backup *)
| OpMkData | OpMkIncs
| OpLock                  (* _lock with must_be_writable: creates and writes lock.yml *)
| OpTestFs (l : loc)      (* detect_fs_abilities with writable=True: temporary files *)
| OpSetQuote | OpSetEscapes       (* set_config *)
| OpOpenLogs              (* _setup_logging *)
| OpRegress               (* RepoShadow.regress *)
| OpFake                  (* RepoShadow.force_regress *)
| OpTouch                 (* touch_current_mirror *)
| OpApply                 (* RepoShadow.apply with everything it reads *)
| OpRemoveMarker          (* remove_current_mirror *)
| OpStats                 (* close_statistics *)
| OpRestore               (* WriteDirShadow.apply with everything it reads *)
| OpRemoveIncs            (* remove_increments_older_than *)
| OpRemoveFile            (* remove_file *)
| OpExit.                 (* repo.exit: unlock, close the logs *)

(** how a call ends: a value, an exception (OSError or another one), sys.exit(1) (FatalError,
    singletons/log.py:174-179; no call gives another code), the end of the process *)
Inductive out (A : Type) : Type :=
| Val (a : A) | Exc (os : bool) | Quit | Killed.
Arguments Val {A}. Arguments Exc {A}. Arguments Quit {A}. Arguments Killed {A}.

(** needs_regress (1637-1690) *)
Inductive answer_nr : Type := NRNo | NRYes.

Section Actions.
Variable disk : Type.

(** everything the world decides; the answers may depend on the operations so far *)
Record env : Type := mk_env {
  e_view : disk -> view;
  e_eff : list op -> op -> disk -> disk * out N;   (* effect and code of an operation *)
  e_lock : list op -> disk -> option bool;         (* _lock: taken, refused, no file *)
  e_faked : list op -> disk -> bool;               (* force_regress returns True *)
  e_system : N;                    (* _system_setup *)
  e_mismatch : bool;               (* the action's name isn't the one given *)
  e_tempdir : bool;                (* the temporary directory exists *)
  e_precheck : N;                  (* further checks of calculate and test *)
  e_conn : out bool;               (* all locations could be connected *)
  e_init : out unit;               (* creation of the location objects (reads only) *)
  e_ref_inc : bool;                (* repo.ref_type == "inc" *)
  e_ref_index : bool;              (* repo.ref_index isn't empty *)
  e_abil : loc -> disk -> out bool;        (* detect_fs_abilities with writable=False: succeeded *)
  e_misc : list op -> disk -> out N;       (* owner mappings, compression, set_select... *)
  e_suggested : disk -> bytes;             (* _get_ctq_from_fsas *)
  e_time : disk -> out bool;               (* get_parsed_time isn't None *)
  e_regress : list op -> disk -> out answer_nr;  (* needs_regress *)
  e_recursion : bool;                      (* _warn_if_infinite_recursion warns *)
  e_read : list op -> disk -> out N }.     (* reading part: verify, listings, reports *)
Variable E : env.
Variable o : opts.

(** the state of a run: the world, the operations so far, whether we hold the lock *)
Record st : Type := mk_st { s_disk : disk; s_ops : list op; s_lock : bool }.
Definition M (A : Type) : Type := st -> st * out A.
Definition ret {A} (a : A) : M A := fun s => (s, Val a).
Definition stop {A} (x : out A) : M A := fun s => (s, x).
Definition bind {A B} (m : M A) (k : A -> M B) : M B := fun s =>
  let (s', x) := m s in
  match x with
  | Val a => k a s'
  | Exc os => (s', Exc os)
  | Quit => (s', Quit)
  | Killed => (s', Killed)
  end.
Notation "x <- m ;; k" := (bind m (fun x => k)) (at level 61, m at next level, right associativity).
Notation "m ;; k" := (bind m (fun _ => k)) (at level 61, right associativity).

(** look at the world *)
Definition look {A} (f : view -> A) : M A := fun s => (s, Val (f (e_view E (s_disk s)))).
Definition ask {A} (f : list op -> disk -> out A) : M A := fun s => (s, f (s_ops s) (s_disk s)).
(** change it *)
Definition act (p : op) : M N := fun s =>
  let (d, x) := e_eff E (s_ops s) p (s_disk s) in (mk_st d (s_ops s ++ [p]) (s_lock s), x).
(** [code & RET_CODE_ERR: return], else go on with the code *)
Definition unless_err (c : N) (k : M N) : M N := if is_err c then ret c else k.
Definition when (b : bool) (m : M N) : M N := if b then m else ret OK.

(** ** Which locations, and how: the connect methods *)
Definition has_repo (a : action) : bool :=
  match a with CalcAverage | Info | Test => false | _ => true end.
(** must_be_writable, must_exist, check_time of the repository *)
Definition mw (a : action) : bool :=
  match a with Backup | RemoveIncrements | RemoveFile | Regress => true | _ => false end.
Definition me (a : action) : bool := match a with Backup => false | _ => true end.
Definition check_time (a : action) : bool := match a with Backup => true | _ => false end.

(** ** Checks of the locations *)
(** location.py:115-133, _repo_shadow.py:299-317 *)
Definition is_existing (l : loc) (v : view) : bool :=
  match v_kind v l with
  | KDir => match l with LDir => true | LRepo => match v_data v with KDir => true | _ => false end end
  | _ => false
  end.
(** location.py:135-157, _repo_shadow.py:319-347 *)
Definition is_writable (l : loc) (v : view) : bool :=
  match v_kind v l with
  | KNone => true
  | KOther => o_force o
  | KDir =>
      match l with
      | LDir => true
      | LRepo => if negb (v_empty v LRepo) && (match v_data v with KNone => true | _ => false end)
                 then o_force o else true
      end
  end.
(** location.py:76-90 *)
Definition loc_check (l : loc) (mw me : bool) (v : view) : N :=
  N.lor (if me && negb (is_existing l v) then ERR else OK)
        (if mw && negb (is_writable l v) then ERR else OK).
(** _dir_shadow.py:311-335 *)
Definition write_dir_check (v : view) : N :=
  N.lor (loc_check LDir true false v)
        (match v_kind v LDir with
         | KDir => if v_empty v LDir then OK else if o_force o then WARN else ERR
         | _ => OK
         end).

(** ** Setup of the locations *)
(** exceptions of class OSError are caught; [false]: one happened *)
Definition caught (m : M N) : M bool := fun s =>
  let (s', x) := m s in
  match x with
  | Val _ => (s', Val true)
  | Exc true => (s', Val false)
  | Exc false => (s', Exc false)
  | Quit => (s', Quit)
  | Killed => (s', Killed)
  end.

(** location.py:159-185 _create *)
Definition create_base (l : loc) : M bool :=
  caught
    (k <- look (fun v => v_kind v l) ;;
     when (match k with KOther => o_force o | _ => false end) (act (OpDelete l)) ;;
     k <- look (fun v => v_kind v l) ;;
     when (match k with KNone => true | _ => false end) (act (OpMkdir l))).

(** _repo_shadow.py:349-391 _create, 393-424 *)
Definition create_repo : M bool :=
  ok <- create_base LRepo ;;
  if negb ok then ret false else
  failed <- look (fun v => match v_data v with KNone => false | _ => v_nomarker v end) ;;
  locked <- look v_lockfile ;;
  if failed && locked && negb (o_force o) then ret false else
  when failed (act OpCleanFailed) ;;
  nodata <- look (fun v => match v_data v with KNone => true | _ => false end) ;;
  ok <- (if nodata then caught (act OpMkData) else ret true) ;;
  if negb ok then ret false else
  noincs <- look (fun v => negb (v_incs v)) ;;
  if noincs then caught (act OpMkIncs) else ret true.

(** 2060-2110 _lock: only with must_be_writable is the file created or written *)
Definition lock (w : bool) : M (option bool) :=
  (if w then act OpLock else ret OK) ;;
  fun s =>
    let r := e_lock E (s_ops s) (s_disk s) in
    (mk_st (s_disk s) (s_ops s) (match r with Some true => true | _ => s_lock s end), Val r).

(** _repo_shadow.py:149-191 setup *)
Definition shadow_setup (a : action) : M N :=
  ok <- (if mw a then create_repo else ret true) ;;
  if negb ok then ret ERR else
  late <- look (fun v => check_time a && (o_now o <=? v_mtime v)%Z) ;;
  if late then ret ERR else
  r <- lock (mw a) ;;
  match r with
  | Some false => if o_force o then ask (e_misc E) else ret ERR
  | _ => ask (e_misc E)
  end.

(** detect_fs_abilities, which returns None after an OSError *)
Definition abilities (l : loc) (w : bool) : M bool :=
  if w then caught (act (OpTestFs l)) else ask (fun _ => e_abil E l).

(** fs_abilities.py:1008-1068 _compare_ctq_file *)
Definition compare_quoting : M N :=
  fun s =>
    let v := e_view E (s_disk s) in
    let suggested := e_suggested E (s_disk s) in
    match v_quote v with
    | None => act OpSetQuote s
    | Some previous =>
        let actual :=
          match o_quote o with
          | None => match suggested with
                    | [] => previous
                    | _ => suggested
                    end
          | Some q => q
          end in
        if beq actual previous then (s, Val OK) else (s, Quit)
    end.
(** fs_abilities.py:899-957, the record *)
Definition set_escapes : M N :=
  there <- look v_escapes ;;
  if there then ret OK else act OpSetEscapes.

(** repository.py:72-112 setup, _repo_shadow.py:198-254 setup_finish; [two]: with a source
    directory (Dir2RepoSetGlobals), else SingleRepoSetGlobals, which only reads *)
Definition repo_setup (a : action) (two : bool) : M N :=
  c <- shadow_setup a ;;
  unless_err c
   (ab <- abilities LRepo (mw a) ;;
    if negb ab then ret ERR else
    g <- ask (e_misc E) ;;
    (if two then compare_quoting ;; set_escapes else ret OK) ;;
    let c := N.lor c g in
    unless_err c
     (when (mw a && (o_logging o || match a with Backup => true | _ => false end)) (act OpOpenLogs) ;;
      ret c)).

(** directory.py:43-60 ReadDir.setup *)
Definition read_dir_setup : M N :=
  ab <- abilities LDir false ;;
  ret (if ab then OK else ERR).
(** directory.py:86-110 WriteDir.setup, _dir_shadow.py:338-345 *)
Definition write_dir_setup : M N :=
  ok <- create_base LDir ;;
  if negb ok then ret ERR else
  c <- ask (e_misc E) ;;
  unless_err c
   (ab <- abilities LDir true ;;
    if negb ab then ret (N.lor c ERR) else
    g <- ask (e_misc E) ;;
    ret (N.lor c g)).

(** ** The steps of the actions *)
(** actions/__init__.py:533-574; calculate.py:81-104 calls run instead of the general checks;
    test.py:52-70 *)
Definition pre_check (a : action) : N :=
  let general := N.lor (if e_mismatch E then ERR else OK)
                       (if o_tempdir o && negb (e_tempdir E) then ERR else OK) in
  match a with
  | CalcAverage => OK
  | CalcStatistics => e_precheck E
  | Test => N.lor general (e_precheck E)
  | _ => general
  end.

(** the check methods; the status of the connection is OK here (run.py:93-101) *)
Definition check (a : action) (v : view) : N :=
  match a with
  | Backup => N.lor (loc_check LDir false true v) (loc_check LRepo true false v)
  | Compare => N.lor (loc_check LDir false true v) (loc_check LRepo false true v)
  | Restore =>
      N.lor (N.lor (loc_check LRepo false true v) (write_dir_check v))
        (N.lor (if e_ref_inc E then if o_at o then ERR else OK
                else if o_increment o then ERR else OK)
               (if o_filesel o && e_ref_index E then ERR else OK))
  | Verify | ListFiles | ListIncrements => loc_check LRepo false true v
  | RemoveIncrements => N.lor (loc_check LRepo true true v) (if e_ref_index E then ERR else OK)
  | RemoveFile => N.lor (loc_check LRepo true true v) (if e_ref_index E then OK else ERR)
  | Regress => loc_check LRepo true true v
  | CalcAverage | CalcStatistics | Info | Test => OK
  end.

(** the setup methods *)
Definition setup (a : action) : M N :=
  match a with
  | Backup =>
      c <- read_dir_setup ;;
      unless_err c
       (c <- repo_setup a true ;;
        unless_err c (ret (N.lor c (if e_recursion E then WARN else OK))))
  | Compare =>
      c <- read_dir_setup ;;
      unless_err c
       (c <- repo_setup a true ;;
        unless_err c
         (t <- ask (fun _ => e_time E) ;;
          ret (if t : bool then c else N.land c ERR)))
  | Restore =>
      c <- repo_setup a false ;;
      unless_err c
       (g <- write_dir_setup ;;
        let c := N.lor c g in
        unless_err c
         (t <- (if o_at o || negb (e_ref_inc E) then ask (fun _ => e_time E) else ret true) ;;
          ret (if t : bool then c else N.lor c ERR)))
  | Verify =>
      c <- repo_setup a false ;;
      unless_err c
       (t <- ask (fun _ => e_time E) ;;
        ret (if t : bool then OK else ERR))
  | ListFiles =>
      c <- repo_setup a false ;;
      unless_err c
       (t <- ask (fun _ => e_time E) ;;
        ret (if t : bool then c else N.lor c ERR))
  | ListIncrements | RemoveIncrements | RemoveFile | Regress => repo_setup a false
  | CalcAverage | CalcStatistics | Info | Test => ret OK
  end.

(** actions/__init__.py:657-693 *)
Definition operate_regress (try_regress force : bool) : M N :=
  nr <- ask (e_regress E) ;;
  match nr with
  | NRYes => if try_regress then c <- act OpRegress ;; ret (N.lor c WARN) else ret ERR
  | NRNo =>
      if force then
        act OpFake ;;
        faked <- ask (fun l d => Val (e_faked E l d)) ;;
        if faked : bool then act OpRegress else ret WARN
      else ret OK
  end.

(** backup.py:130-155 _operate_backup *)
Definition operate_backup (previous_time : Z) : M N :=
  when (negb (previous_time =? 0)%Z) (act OpTouch) ;;
  act OpApply ;;
  (if (previous_time =? 0)%Z then act OpTouch else act OpRemoveMarker) ;;
  act OpStats ;;
  ret OK.

(** the run methods *)
Definition run (a : action) : M N :=
  match a with
  | Backup =>
      c <- operate_regress true false ;;
      unless_err c
       (t <- look v_mtime ;;
        if (t <? 0)%Z || (o_now o <=? t)%Z then ret (N.lor c ERR) else
        g <- operate_backup t ;;
        ret (N.lor c g))
  | Restore =>
      c <- operate_regress false false ;;
      unless_err c
       (ok <- caught (act OpRestore) ;;
        ret (if ok then c else N.lor c ERR))
  | Regress => operate_regress true (o_force o)
  | RemoveIncrements => act OpRemoveIncs
  | RemoveFile => act OpRemoveFile
  | Compare | Verify | ListFiles | ListIncrements | CalcAverage | CalcStatistics | Info | Test =>
      ask (e_read E)
  end.

(** ** run.py:38-158 *)
(** leaving the with block: actions/__init__.py:505-520 and repo.exit, which gives up the lock (and
    empties lock.yml if it is exclusive); a killed process does nothing more *)
Definition leave (a : action) (m : M N) : M N := fun s =>
  let (s1, x) := m s in
  match x with
  | Killed => (s1, Killed)
  | _ =>
      if s_lock s1 then
        let (s2, y) := (if mw a then act OpExit else ret OK) s1 in
        match y with
        | Val _ => (mk_st (s_disk s2) (s_ops s2) false, x)
        | Exc b => (s2, Exc b) | Quit => (s2, Quit) | Killed => (s2, Killed)
        end
      else (s1, x)
  end.

Definition in_with (a : action) (c : N) : M N :=
  k <- look (check a) ;;
  let c := N.lor c k in
  unless_err c
   (g <- setup a ;;
    let c := N.lor c g in
    unless_err c
     (g <- run a ;;
      ret (N.lor c g))).

Definition main_run (a : action) : M N :=
  let c := e_system E in
  unless_err c
   (let c := N.lor c (pre_check a) in
    unless_err c
     (conn <- stop (e_conn E) ;;
      if negb conn then ret ERR else
      (if has_repo a then stop (e_init E) else ret tt) ;;
      leave a (in_with a c))).

(** a run in a world [d] *)
Definition command (a : action) (d : disk) : st * out N := main_run a (mk_st d [] false).
End Actions.

Arguments mk_st {disk}. Arguments s_disk {disk}. Arguments s_ops {disk}. Arguments s_lock {disk}.
