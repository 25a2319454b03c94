(** * Messages, errors and their log files, in all the processes of a session
    (src/rdiffbackup/singletons/log.py; robust.py:70-158; sstats.py:376-391)

    A session runs in one process (everything local) or in several: process 0 is the
    client, the others are its servers; the servers reach each other through the
    client only.  Each process has its own Logger, ErrorLogger and SessionStats.
    A computation yields [None] when an exception leaves it (and no handler below
    is there to catch it).

    Simplifications: character strings are byte strings (convert.to_safe_bytes is the
    identity on them); the terminal receives a list of messages with their stream, the
    line filling of textwrap is not modelled; writing to a log file never fails
    (disk full); the time stamp and the process number are given by the caller. *)
From Coq Require Import List Arith Bool Ascii ZArith.
From Verif Require Import Base M_Security.
Import List ListNotations.

(** log.py:40-46 *)
Definition V_NONE : nat := 0.
Definition V_ERROR : nat := 1.
Definition V_WARNING : nat := 2.
Definition V_NOTE : nat := 3.
Definition V_INFO : nat := 5.
Definition V_DEBUG : nat := 8.

(** 49-56 _LOG_PREFIX; another key is a KeyError *)
Definition log_prefix (v : nat) : option bytes :=
  match v with
  | 0 => Some []
  | 1 => Some (bs "ERROR:")
  | 2 => Some (bs "WARNING:")
  | 3 => Some (bs "NOTE:")
  | 5 => Some (bs "*")
  | 8 => Some (bs "DEBUG:")
  | _ => None
  end.

(** One process: the modules specifics, generics, log, sstats and Security of it.
    [p_log_w], [p_elog_w]: the attribute log_writer exists and is not closed;
    [p_log], [p_elog]: what has been written to the two files. *)
Record proc : Type := mk_proc {
  p_server : bool;                 (* specifics.server *)
  p_writer : bool;                 (* specifics.is_backup_writer *)
  p_bw : option nat;               (* generics.backup_writer: which process *)
  p_null : bool;                   (* generics.null_separator *)
  p_log_open : bool;               (* Log.log_file_open *)
  p_elog_open : bool;              (* ErrorLog.log_file_open *)
  p_file_v : nat;                  (* Log.file_verbosity *)
  p_term_v : nat;                  (* Log.term_verbosity *)
  p_parsable : bool;               (* Log.parsable *)
  p_sec : sec;                     (* Security *)
  p_log_w : bool;
  p_elog_w : bool;
  p_log : bytes;
  p_elog : bytes;
  p_errors : nat;                  (* SessionStats.Errors *)
  p_term : list (bool * bytes) }.  (* true: stderr *)

Definition world : Type := list proc.

Fixpoint upd (w : world) (i : nat) (f : proc -> proc) : world :=
  match w, i with
  | [], _ => []
  | p :: r, O => f p :: r
  | p :: r, S j => p :: upd r j f
  end.

Definition set_term (t : list (bool * bytes)) (p : proc) : proc :=
  mk_proc (p_server p) (p_writer p) (p_bw p) (p_null p) (p_log_open p) (p_elog_open p) (p_file_v p) (p_term_v p)
    (p_parsable p) (p_sec p) (p_log_w p) (p_elog_w p) (p_log p) (p_elog p) (p_errors p) t.
Definition set_log (b : bytes) (p : proc) : proc :=
  mk_proc (p_server p) (p_writer p) (p_bw p) (p_null p) (p_log_open p) (p_elog_open p) (p_file_v p) (p_term_v p)
    (p_parsable p) (p_sec p) (p_log_w p) (p_elog_w p) b (p_elog p) (p_errors p) (p_term p).
Definition set_elog (b : bytes) (p : proc) : proc :=
  mk_proc (p_server p) (p_writer p) (p_bw p) (p_null p) (p_log_open p) (p_elog_open p) (p_file_v p) (p_term_v p)
    (p_parsable p) (p_sec p) (p_log_w p) (p_elog_w p) (p_log p) b (p_errors p) (p_term p).
Definition set_errors (n : nat) (p : proc) : proc :=
  mk_proc (p_server p) (p_writer p) (p_bw p) (p_null p) (p_log_open p) (p_elog_open p) (p_file_v p) (p_term_v p)
    (p_parsable p) (p_sec p) (p_log_w p) (p_elog_w p) (p_log p) (p_elog p) n (p_term p).
Definition set_log_open (b : bool) (p : proc) : proc :=
  mk_proc (p_server p) (p_writer p) (p_bw p) (p_null p) b (p_elog_open p) (p_file_v p) (p_term_v p)
    (p_parsable p) (p_sec p) (p_log_w p) (p_elog_w p) (p_log p) (p_elog p) (p_errors p) (p_term p).
Definition set_elog_open (b : bool) (p : proc) : proc :=
  mk_proc (p_server p) (p_writer p) (p_bw p) (p_null p) (p_log_open p) b (p_file_v p) (p_term_v p)
    (p_parsable p) (p_sec p) (p_log_w p) (p_elog_w p) (p_log p) (p_elog p) (p_errors p) (p_term p).
Definition set_log_w (b : bool) (p : proc) : proc :=
  mk_proc (p_server p) (p_writer p) (p_bw p) (p_null p) (p_log_open p) (p_elog_open p) (p_file_v p) (p_term_v p)
    (p_parsable p) (p_sec p) b (p_elog_w p) (p_log p) (p_elog p) (p_errors p) (p_term p).
Definition set_elog_w (b : bool) (p : proc) : proc :=
  mk_proc (p_server p) (p_writer p) (p_bw p) (p_null p) (p_log_open p) (p_elog_open p) (p_file_v p) (p_term_v p)
    (p_parsable p) (p_sec p) (p_log_w p) b (p_log p) (p_elog p) (p_errors p) (p_term p).
Definition set_bw (j : nat) (p : proc) : proc :=
  mk_proc (p_server p) (p_writer p) (Some j) (p_null p) (p_log_open p) (p_elog_open p) (p_file_v p) (p_term_v p)
    (p_parsable p) (p_sec p) (p_log_w p) (p_elog_w p) (p_log p) (p_elog p) (p_errors p) (p_term p).
Definition set_writer (p : proc) : proc :=
  mk_proc (p_server p) true (p_bw p) (p_null p) (p_log_open p) (p_elog_open p) (p_file_v p) (p_term_v p)
    (p_parsable p) (p_sec p) (p_log_w p) (p_elog_w p) (p_log p) (p_elog p) (p_errors p) (p_term p).
Definition set_verbs (f t : nat) (p : proc) : proc :=
  mk_proc (p_server p) (p_writer p) (p_bw p) (p_null p) (p_log_open p) (p_elog_open p) f t
    (p_parsable p) (p_sec p) (p_log_w p) (p_elog_w p) (p_log p) (p_elog p) (p_errors p) (p_term p).

(** Calling [f] with [args] in process [j], from process [i]: locally, through a
    PipeConnection (connection.py:549-568: the request is vetted by the receiver), or
    between two servers through the client (connection.py:600-666, 724-745), which vets
    the RedirectedRun.  The arguments of a RedirectedRun are the number, the name and
    the arguments proper: seen from the client none of them is a local path. *)
Definition remote_args (args : list arg) : list arg :=
  map (fun a => match a with ARPath _ b i => ARPath false b i | _ => a end) args.
Definition accepts (p : proc) (f : bytes) (args : list arg) : bool :=
  match vet_request (p_sec p) f args with VAccept => true | _ => false end.
Definition call_ok (w : world) (i j : nat) (f : bytes) (args : list arg) : bool :=
  if Nat.eqb i j then true
  else match nth_error w j with
       | None => false
       | Some p =>
           accepts p f args
           && match i, j with
              | S _, S _ =>
                  match nth_error w 0 with
                  | Some c => accepts c (bs "RedirectedRun") (AOther :: AStr f :: remote_args args)
                  | None => false
                  end
              | _, _ => true
              end
       end.

(** log.py:286-316 _format.  [stamp] is what the time stamp, role and process number
    look like. *)
Definition pad_right (n : nat) (s : bytes) : bytes := s ++ repeat (chr 32) (n - List.length s).
Definition preformatted (msg : bytes) : bool := mem_byte nl (removelast msg).
Definition format_msg (stamp : bytes) (verb msgv : nat) (msg : bytes) : option bytes :=
  if verb <=? V_DEBUG then
    if (msgv =? V_NONE) || ((msgv =? V_INFO) && preformatted msg) then Some (msg ++ [nl])
    else match log_prefix msgv with Some pre => Some (pad_right 9 pre ++ msg ++ [nl]) | None => None end
  else match log_prefix msgv with
       | Some pre => Some (stamp ++ bs "  " ++ pre ++ bs " " ++ msg ++ [nl])
       | None => None
       end.

Section Log.
Variable stamp : bytes.

(** 107-112 Logger.log_to_file, run in process [j] *)
Definition log_to_file (w : world) (j : nat) (msg : bytes) (v : nat) : option world :=
  match nth_error w j with
  | None => None
  | Some p =>
      match format_msg stamp (p_file_v p) v msg with
      | None => None                              (* KeyError *)
      | Some s => if p_log_w p then Some (upd w j (set_log (p_log p ++ s))) else None   (* AttributeError *)
      end
  end.

(** 114-142 Logger.log_to_term *)
Definition log_to_term (w : world) (i : nat) (msg : bytes) (v : nat) : option world :=
  match nth_error w i with
  | None => None
  | Some p =>
      match format_msg stamp (p_term_v p) v msg with
      | None => None
      | Some s =>
          let err := (v =? V_ERROR) || (v =? V_WARNING) || p_server p in
          Some (upd w i (set_term (p_term p ++ [(err, s)])))
      end
  end.

(** 90-105 Logger.__call__ in process [i] *)
Definition log_call (w : world) (i : nat) (msg : bytes) (v : nat) : option world :=
  match nth_error w i with
  | None => None
  | Some p =>
      if (p_file_v p <? v) && (p_term_v p <? v) then Some w
      else
        match
          (if (v <=? p_file_v p) && p_log_open p then
             if p_writer p then log_to_file w i msg v
             else match p_bw p with
                  | Some j => if call_ok w i j (bs "log.Log.log_to_file") [AStr msg; AOther]
                              then log_to_file w j msg v else None
                  | None => Some w
                  end
           else Some w) with
        | None => None
        | Some w1 => if v <=? p_term_v p then log_to_term w1 i msg v else Some w1
        end
  end.

(** 144-172 Logger.conn: only to the terminal *)
Definition conn_str (p : proc) : bytes := if p_server p then bs "Server" else bs "Client".
Definition one_line (p : proc) (s : bytes) : bytes :=   (* .replace("\n", " | ") *)
  if p_parsable p then flat_map (fun c => if Ascii.eqb c nl then bs " | " else [c]) s else s.
Definition log_conn (w : world) (i : nat) (direction result num : bytes) : option world :=
  match nth_error w i with
  | None => None
  | Some p =>
      if p_term_v p <=? V_DEBUG then Some w
      else log_to_term w i (conn_str p ++ bs " " ++ direction ++ bs " (" ++ num ++ bs "): " ++ one_line p result) V_DEBUG
  end.

(** 181-207 Logger.exception; [loc]: log_type is LOCAL, else NORMAL (NOFILE is never
    used).  [tb] is the text of the exception. *)
Definition log_exception (w : world) (i : nat) (loc : bool) (v : nat) (tb : bytes) : option world :=
  match nth_error w i with
  | None => None
  | Some p =>
      if negb loc || p_log_open p then log_call w i (one_line p tb) v
      else if p_term_v p <=? v then Some w
      else log_to_term w i (one_line p tb) v
  end.

(** 318-342 validate_verbosity: a number, or a string to be parsed as such; the message
    about a wrong value goes through [log_call] *)
Inductive verb_in : Type := VInt (z : Z) | VStr (s : bytes).
Definition verb_text (x : verb_in) : bytes := match x with VInt z => dec_Z z | VStr s => s end.
Definition verb_value (x : verb_in) : option Z := match x with VInt z => Some z | VStr s => parse_Z s end.
Definition validate_verbosity (w : world) (i : nat) (x : verb_in) : option (world * option nat) :=
  match verb_value x with
  | None =>
      match log_call w i (bs "Verbosity must be a number, received '" ++ verb_text x ++ bs "' instead") V_ERROR with
      | Some w1 => Some (w1, None)
      | None => None
      end
  | Some z =>
      if ((0 <=? z) && (z <=? 9))%Z then Some (w, Some (Z.to_nat z))
      else match log_call w i (bs "Verbosity must be between 0 and 9, received '" ++ dec_Z z ++ bs "' instead") V_ERROR with
           | Some w1 => Some (w1, None)
           | None => None
           end
  end.

(** 209-234 set_verbosity; the boolean is whether RET_CODE_OK is returned *)
Definition set_verbosity (w : world) (i : nat) (fv : verb_in) (tv : option verb_in) : option (world * bool) :=
  match validate_verbosity w i fv with
  | None => None
  | Some (w1, None) => Some (w1, false)
  | Some (w1, Some tmp) =>
      match tv with
      | None => Some (upd w1 i (set_verbs tmp tmp), true)
      | Some x =>
          match validate_verbosity w1 i x with
          | None => None
          | Some (w2, None) => Some (w2, false)
          | Some (w2, Some t) => Some (upd w2 i (set_verbs tmp t), true)
          end
      end
  end.

(** 245-261 Logger.open_logfile: [f] is done in every other process; a refusal
    is an exception *)
Fixpoint tell_from (w : world) (i : nat) (name : bytes) (args : list arg) (f : proc -> proc) (js : list nat) : option world :=
  match js with
  | [] => Some w
  | j :: r => if Nat.eqb i j then tell_from w i name args f r
              else if call_ok w i j name args then tell_from (upd w j f) i name args f r
              else None
  end.
Definition tell_others (w : world) (i : nat) (name : bytes) (args : list arg) (f : proc -> proc) : option world :=
  tell_from w i name args f (seq 0 (List.length w)).
Definition open_logfile (w : world) (i : nat) : option world :=
  match nth_error w i with
  | Some p => if p_log_open p then None
              else tell_others (upd w i (fun p => set_log_open true (set_log_w true p))) i
                     (bs "log.Log.open_logfile_local") [] (set_log_open true)
  | None => None
  end.
(** 263-274 close_logfile *)
Definition close_logfile (w : world) (i : nat) : option world :=
  match nth_error w i with
  | Some p =>
      if p_log_open p then
        match tell_others w i (bs "log.Log.close_logfile_local") [] (set_log_open false) with
        | Some w1 => if p_log_w p then Some (upd w1 i (fun p => set_log_open false (set_log_w false p))) else None
        | None => None
        end
      else Some w
  | None => None
  end.
(** 369-398 the same of the ErrorLogger *)
Definition open_elogfile (w : world) (i : nat) : option world :=
  match nth_error w i with
  | Some p => if p_elog_open p then None
              else tell_others (upd w i (fun p => set_elog_open true (set_elog_w true p))) i
                     (bs "log.ErrorLog.open_logfile_local") [] (set_elog_open true)
  | None => None
  end.
Definition close_elogfile (w : world) (i : nat) : option world :=
  match nth_error w i with
  | Some p =>
      if p_elog_open p then
        match tell_others w i (bs "log.ErrorLog.close_logfile_local") [] (set_elog_open false) with
        | Some w1 => if p_elog_w p then Some (upd w1 i (fun p => set_elog_open false (set_elog_w false p))) else None
        | None => None
        end
      else Some w
  | None => None
  end.

(** Setting up a session whose repository is in process [j].  When backing up
    (repository.py:92-99; generics.py set, set_local; specifics.py set) every process gets
    to know the writer; then RepoShadow.setup_finish (_repo_shadow.py:197-210) opens the log
    files (_setup_logging, 234-253; _open_logfile, 1591-1608), [backup]: the name of the
    action contains "backup".  Other actions writing to a repository have no source
    directory and do not set the writer (repository.py:88-91).  Opening the files is
    assumed to work (OSError is caught with a message for the log file, not for the
    error log). *)
Definition know_writer (w : world) (j : nat) : option world :=
  match tell_others (upd w 0 (set_bw j)) 0 f_set_local [AStr (bs "backup_writer"); AOther] (set_bw j) with
  | None => None
  | Some w1 => if call_ok w1 0 j f_set [AStr (bs "is_backup_writer"); ABool true]
               then Some (upd w1 j set_writer) else None
  end.
Definition setup_logging (w : world) (j : nat) (backup : bool) : option world :=
  match nth_error w j with
  | None => None
  | Some p =>
      match (if 0 <? p_file_v p then open_logfile w j else Some w) with
      | None => None
      | Some w1 => if backup then open_elogfile w1 j else Some w1
      end
  end.
Definition session_start (w : world) (j : nat) (backup : bool) : option world :=
  match (if backup then know_writer w j else Some w) with
  | None => None
  | Some w1 =>
      if call_ok w1 0 j (bs "_repo_shadow.RepoShadow.setup_finish") [] then setup_logging w1 j backup else None
  end.

(** 414-418 _get_log_string; [e_rp] and [e_exc] are the texts of the path and of the
    exception, [e_arg] what the path is for the vetting of requests *)
Record err : Type := mk_err { e_type : bytes; e_rp : bytes; e_exc : bytes; e_arg : arg }.
Definition err_string (e : err) : bytes := e_type e ++ bs ": '" ++ e_rp e ++ bs "' " ++ e_exc e.

(** 400-412 ErrorLogger.log_to_file in process [j] *)
Definition spaced (s : bytes) : bytes := map (fun c => if Ascii.eqb c nl then chr 32 else c) s.
Definition elog_to_file (w : world) (j : nat) (e : err) : option world :=
  match log_call w j (err_string e) V_WARNING with
  | None => None
  | Some w1 =>
      match nth_error w1 j with
      | None => None
      | Some p =>
          let s := if p_null p then err_string e ++ [chr 0] else spaced (err_string e) ++ [nl] in
          if p_elog_w p then Some (upd w1 j (set_elog (p_elog p ++ s))) else None
      end
  end.

(** 359-367 ErrorLogger.__call__ in process [i] *)
Definition elog_call (w : world) (i : nat) (e : err) : option world :=
  match nth_error w i with
  | None => None
  | Some p =>
      if p_elog_open p then
        if p_writer p then elog_to_file w i e
        else match p_bw p with
             | Some j => if call_ok w i j (bs "log.ErrorLog.log_to_file") [AStr (e_type e); e_arg e; AOther]
                         then elog_to_file w j e else None
             | None => Some w
             end
      else log_call w i (err_string e) V_WARNING
  end.

(** sstats.py:376-391 add_error in process [i] *)
Definition count_error (w : world) (i : nat) : option world :=
  match nth_error w i with
  | None => None
  | Some p =>
      if p_writer p then Some (upd w i (fun p => set_errors (S (p_errors p)) p))
      else match p_bw p with
           | Some j => if call_ok w i j (bs "sstats.SessionStats.add_error_local") []
                       then Some (upd w j (fun p => set_errors (S (p_errors p)) p)) else None
           | None => Some w
           end
  end.

(** The handlers given to check_common_error: most write to the error log
    (robust.py:70-87, selection.py:245-247, 314-316), robust.listrp warns (robust.py:90-98),
    the one of iterfile.py:282-292 only remembers the exception. *)
Inductive handler : Type := HErr (e : err) | HWarn (msg : bytes) | HQuiet.
Definition run_handler (w : world) (i : nat) (h : handler) : option world :=
  match h with
  | HErr e => elog_call w i e
  | HWarn msg => log_call w i msg V_WARNING
  | HQuiet => Some w
  end.

(** What goes wrong with one file, in process [i]:
    - [Raised]: check_common_error (robust.py:103-123) got an exception which catch_error
      (126-152) recognizes, or not ([routine]: is_routine_fatal, 155-172), with its text;
    - [Strange]: an unreadable symbolic link (rpath.py:1780-1797), directly to the error log;
    - [Changed]: a file changed between two looks at it (_repo_shadow.py:618-627, 2664-2683):
      ErrorLog.write_if_open does not exist, AttributeError. *)
Inductive trouble : Type :=
| Raised (caught routine : bool) (tb : bytes) (h : handler)
| Strange (e : err)
| Changed.
Definition meet (w : world) (i : nat) (t : trouble) : option world :=
  match t with
  | Raised true _ tb h =>
      match log_exception w i false V_INFO tb with
      | None => None
      | Some w1 =>
          match count_error w1 i with
          | None => None
          | Some w2 => run_handler w2 i h
          end
      end
  | Raised false _ _ _ => None                    (* logged and raised again *)
  | Strange e => elog_call w i e
  | Changed => None
  end.

(** what happens one after the other: in process [i], trouble or a message *)
Inductive event : Type := ETrouble (i : nat) (t : trouble) | EMsg (i : nat) (msg : bytes) (v : nat).
Definition happen (w : world) (e : event) : option world :=
  match e with
  | ETrouble i t => meet w i t
  | EMsg i msg v => log_call w i msg v
  end.
Fixpoint session (w : world) (l : list event) : option world :=
  match l with
  | [] => Some w
  | e :: r => match happen w e with Some w1 => session w1 r | None => None end
  end.
End Log.
