(** * What a user expects of messages and recoverable errors

    Independent of how the messages travel between processes: only the lists of
    messages and errors, and what one line looks like. *)
From Coq Require Import List Arith Bool Ascii.
From Verif Require Import Base M_Security M_Log.
Import List ListNotations.

(** the verbosities for which a message can be given *)
Definition known (v : nat) : Prop := In v [0; 1; 2; 3; 5; 8].

(** The messages an event gives rise to, the repository being written by process [j]:
    process, text, verbosity.  The entries of the error log are announced by the writer. *)
Definition said (w : world) (j : nat) (e : event) : list (nat * bytes * nat) :=
  match e with
  | EMsg i m v => [(i, m, v)]
  | ETrouble i (Raised true _ tb h) =>
      (i, match nth_error w i with Some p => one_line p tb | None => tb end, 5)
      :: match h with
         | HErr x => [(j, err_string x, 2)]
         | HWarn m => [(i, m, 2)]
         | HQuiet => []
         end
  | ETrouble _ (Strange x) => [(j, err_string x, 2)]
  | ETrouble _ _ => []
  end.

(** the errors to be found in the error log *)
Definition errors_of (e : event) : list err :=
  match e with
  | ETrouble _ (Raised true _ _ (HErr x)) | ETrouble _ (Strange x) => [x]
  | _ => []
  end.
(** the errors to be counted *)
Definition counts (e : event) : nat :=
  match e with ETrouble _ (Raised true _ _ _) => 1 | _ => 0 end.

(** one entry of the error log *)
Definition entry (null : bool) (x : err) : bytes :=
  if null then err_string x ++ [chr 0] else spaced (err_string x) ++ [nl].

(** what one message adds to the log file, and to the terminal of process [k] *)
Definition text (stamp : bytes) (verb v : nat) (m : bytes) : bytes :=
  match format_msg stamp verb v m with Some s => s | None => [] end.
Definition to_log (stamp : bytes) (w : world) (fv : nat) (x : nat * bytes * nat) : bytes :=
  let '(i, m, v) := x in
  match nth_error w i with
  | Some p => if v <=? p_file_v p then text stamp fv v m else []
  | None => []
  end.
Definition to_term (stamp : bytes) (w : world) (k : nat) (x : nat * bytes * nat) : list (bool * bytes) :=
  let '(i, m, v) := x in
  match nth_error w k with
  | Some p => if (Nat.eqb i k) && (v <=? p_term_v p)
              then [((v =? 1) || (v =? 2) || p_server p, text stamp (p_term_v p) v m)] else []
  | None => []
  end.

(** a process after some time: the same, with more in its files, on its terminal and
    in its counter *)
Definition grown (p : proc) (log elog : bytes) (n : nat) (term : list (bool * bytes)) : proc :=
  set_term (p_term p ++ term) (set_errors (p_errors p + n) (set_elog (p_elog p ++ elog) (set_log (p_log p ++ log) p))).

(** a process before the session: nothing opened, its Security as set up by
    Security.initialize for whatever class, level and restriction *)
Definition fresh (p : proc) : Prop :=
  p_writer p = false /\ p_bw p = None /\ p_log_open p = false /\ p_elog_open p = false
  /\ p_log_w p = false /\ p_elog_w p = false
  /\ exists tmp cl lv rdir pairs, initialize tmp cl lv rdir pairs = Some (p_sec p).

(** a path in another process than the one writing the repository *)
Definition foreign (x : err) : Prop := match e_arg x with ARPath true _ _ => False | _ => True end.

(** the writer obeys to every request (--restrict is not used and the security level is
    "override", which only the program's own tests set) *)
Definition obeys (w : world) (j : nat) : Prop :=
  exists p, nth_error w j = Some p /\ s_level (p_sec p) = LOverride.

(** the events a session survives: messages of any process, unreadable links of any
    process, errors of the recoverable kind of the process [j] writing the repository
    (of any process only if the writer obeys to every request) *)
Definition fine (w : world) (j : nat) (e : event) : Prop :=
  match e with
  | EMsg i _ v => i < length w /\ known v
  | ETrouble i (Raised true _ _ h) =>
      i = j \/ (i < length w /\ obeys w j /\ match h with HErr x => foreign x | _ => True end)
  | ETrouble i (Strange x) => i = j \/ (i < length w /\ foreign x)
  | _ => False
  end.
