(** * Recognising a session which is still running

    Models src/rdiffbackup/locations/_repo_shadow.py: touch_current_mirror,
    remove_current_mirror, needs_regress with _check_pids, and the start of
    actions/backup.py which uses them, for several processes working on the same
    repository at the same time.  POSIX only (the win32 branch of pid_running isn't
    modelled). *)
From Coq Require Import List NArith ZArith Bool Ascii.
From Verif Require Import Base.
Import List ListNotations.

(** ** The content of a marker *)

(** _repo_shadow.py:672-676: "PID {pp}\n"; [None]: os.getpid() has failed, then
    "PID NA\n" is written *)
Definition marker (pid : option N) : bytes :=
  bs "PID " ++ match pid with Some n => dec n | None => bs "NA" end ++ [nl].

(** [\s] of an ASCII string: tab, newline, vertical tab, form feed, carriage return,
    0x1c to 0x1f and space.  (In Python's str patterns it matches other Unicode spaces
    too; markers are ASCII.) *)
Definition is_ws (c : ascii) : bool :=
  let o := ord c in ((9 <=? o) && (o <=? 13) || (28 <=? o) && (o <=? 32))%N.

(** re.I on an ASCII string *)
Definition ci (a b : ascii) (c : ascii) : bool := Ascii.eqb c a || Ascii.eqb c b.

Fixpoint skip_ws (s : bytes) : bytes :=
  match s with c :: r => if is_ws c then skip_ws r else s | [] => [] end.
Fixpoint take_digits (s : bytes) : bytes :=
  match s with c :: r => if is_digit c then c :: take_digits r else [] | [] => [] end.

(** _repo_shadow.py:1757: PID\s*([0-9]+) with re.I at the beginning of [s] *)
Definition match_here (s : bytes) : option N :=
  match s with
  | a :: b :: c :: r =>
      if ci "P" "p" a && ci "I" "i" b && ci "D" "d" c
      then match take_digits (skip_ws r) with [] => None | ds => Some (dval ds) end
      else None
  | _ => None
  end.

(** 1759-1765 extract_pid: pid_re.search, [^] with re.M matches at the beginning and
    after each newline.  [bol]: at the beginning of a line. *)
Fixpoint search_pid (bol : bool) (s : bytes) : option N :=
  match (if bol then match_here s else None) with
  | Some n => Some n
  | None => match s with [] => None | c :: r => search_pid (Ascii.eqb c nl) r end
  end.
Definition extract_pid (s : bytes) : option N := search_pid true s.

(** ** Whether a process runs *)

(** The processes on the machine: their PID and the user they run as *)
Definition proctab := list (N * N).
Inductive kres := KOk | KNoProc | KPerm | KOverflow.
Definition pid_max : N := 2147483647.
Fixpoint owner_of (pt : proctab) (pid : N) : option N :=
  match pt with
  | [] => None
  | (p, u) :: r => if (p =? pid)%N then Some u else owner_of r pid
  end.

(** os.kill(pid, 0) called by the user [me]: signal 0 is only a check of permissions.
    Process 0 is the own process group.  A number which isn't a C int raises
    OverflowError, which isn't an OSError. *)
Definition kill0 (pt : proctab) (me pid : N) : kres :=
  if (pid_max <? pid)%N then KOverflow
  else if (pid =? 0)%N then KOk
  else match owner_of pt pid with
       | None => KNoProc
       | Some u => if ((me =? 0) || (me =? u))%N then KOk else KPerm
       end.

(** _repo_shadow.py:1803-1814 pid_running; outer [None]: the exception isn't caught *)
Definition pid_running (pt : proctab) (me pid : N) : option (option bool) :=
  match kill0 pt me pid with
  | KNoProc => Some (Some false)
  | KPerm => Some None
  | KOk => Some (Some true)
  | KOverflow => None
  end.

(** 1816-1829 _check_pids *)
Inductive ck := CkPass | CkFatal (pid : N) | CkCrash.
Fixpoint check_pids (pt : proctab) (me : N) (contents : list bytes) : ck :=
  match contents with
  | [] => CkPass
  | s :: r =>
      match extract_pid s with
      | None => check_pids pt me r
      | Some pid =>
          match pid_running pt me pid with
          | None => CkCrash
          | Some (Some true) => CkFatal pid
          | Some _ => check_pids pt me r
          end
      end
  end.

(** ** Several processes and one repository *)

(** The repository has increments, so needs_regress looks at the markers: (time,
    content).  The order of the listing of the directory is the one of the list. *)
Definition marks := list (Z * bytes).

(** where a session is: _operate_regress has said that no regress is needed, that one is
    needed (it isn't done yet), the time has been compared and the new marker will be
    written next, and it is written. *)
Inductive phase := PhStart | PhRegress | PhReady (t : Z) | PhMarked (t : Z).
Record world := mk_w {
  w_marks : marks;
  w_procs : proctab;
  w_lock : option N;          (** the process which holds the lock of lock.yml *)
  w_sess : list (N * phase)   (** the rdiff-backup processes past the check *)
}.

Inductive decision := DcGo | DcRegress | DcStop.
(** 1668-1690 needs_regress, for the repository with increments; as
    actions/__init__.py:655-690 and actions/backup.py:111-114 use it *)
Definition decide (pt : proctab) (me : N) (force : bool) (m : marks) : decision :=
  match m with
  | [] => DcStop
  | [_] => DcGo
  | [_; _] =>
      if force then DcRegress
      else match check_pids pt me (map snd m) with CkPass => DcRegress | _ => DcStop end
  | _ => DcStop
  end.

(** the older and the newer of two markers *)
Definition older (m : marks) : marks :=
  match m with
  | [a; b] => if (fst a <? fst b)%Z then [a] else [b]
  | _ => m
  end.
Definition newer (m : marks) : marks :=
  match m with
  | [a; b] => if (fst a <? fst b)%Z then [b] else [a]
  | _ => m
  end.

Definition drop_proc (p : N) (pt : proctab) : proctab :=
  filter (fun e => negb (fst e =? p)%N) pt.
Definition drop_sess (p : N) (l : list (N * phase)) : list (N * phase) :=
  filter (fun e => negb (fst e =? p)%N) l.
Fixpoint phase_of (p : N) (l : list (N * phase)) : option phase :=
  match l with
  | [] => None
  | (q, f) :: r => if (q =? p)%N then Some f else phase_of p r
  end.
(** the process ends, whatever the reason; the kernel releases its lock *)
Definition leave (p : N) (w : world) : world :=
  mk_w (w_marks w) (drop_proc p (w_procs w))
       (match w_lock w with Some q => if (q =? p)%N then None else Some q | None => None end)
       (drop_sess p (w_sess w)).
Definition set_phase (p : N) (f : phase) (w : world) : world :=
  mk_w (w_marks w) (w_procs w) (w_lock w) ((p, f) :: drop_sess p (w_sess w)).
Definition set_marks (m : marks) (w : world) : world :=
  mk_w m (w_procs w) (w_lock w) (w_sess w).

Inductive ev :=
| EvCheck (p u : N) (force : bool)  (** rdiff-backup backup starts as process p of user u:
                                        setup with its lock, and needs_regress *)
| EvRegress (p : N)                 (** it regresses *)
| EvTime (p : N) (t : Z)            (** it compares its time with the last one's *)
| EvTouch (p : N)                   (** it writes its marker *)
| EvFinish (p : N)                  (** it removes the older marker and ends *)
| EvDie (p : N)                     (** it is killed *)
| EvSpawn (p u : N) | EvExit (p : N).  (** any other program *)

(** 150-176 setup: the session takes the lock (M_Lock has the details, here it is one
    step) or doesn't get it, which stops it unless it has --force.  [locks]: flock has
    an effect (there are file systems where it has none, and earlier versions don't use
    it). *)
Definition take_lock (locks : bool) (p : N) (force : bool) (l : option N) : option (option N) :=
  if locks then
    match l with
    | None => Some (Some p)
    | Some q => if force then Some (Some q) else None
    end
  else Some l.

Definition step (locks : bool) (w : world) (e : ev) : world :=
  match e with
  | EvCheck p u force =>
      match owner_of (w_procs w) p with
      | Some _ => w       (* the kernel doesn't give a PID twice *)
      | None =>
          match take_lock locks p force (w_lock w) with
          | None => w
          | Some lk =>
              let pt := (p, u) :: w_procs w in
              match decide pt u force (w_marks w) with
              | DcGo => set_phase p PhStart (mk_w (w_marks w) pt lk (w_sess w))
              | DcRegress => set_phase p PhRegress (mk_w (w_marks w) pt lk (w_sess w))
              | DcStop => w
              end
          end
      end
  | EvRegress p =>
      match phase_of p (w_sess w) with
      | Some PhRegress =>
          match w_marks w with
          | [_; _] => set_phase p PhStart (set_marks (older (w_marks w)) w)
          | _ => leave p w      (* 1838-1842: assertion *)
          end
      | _ => w
      end
  | EvTime p t =>
      match phase_of p (w_sess w) with
      | Some PhStart =>
          match w_marks w with
          | [m] => if (fst m <? t)%Z then set_phase p (PhReady t) w else leave p w
          | _ => leave p w      (* backup.py:115-123 *)
          end
      | _ => w
      end
  | EvTouch p =>
      match phase_of p (w_sess w) with
      | Some (PhReady t) =>
          if existsb (fun m => (fst m =? t)%Z) (w_marks w)
          then leave p w        (* rpath.py:1123: the file already exists *)
          else set_phase p (PhMarked t)
                 (set_marks ((t, marker (Some p)) :: w_marks w) w)
      | _ => w
      end
  | EvFinish p =>
      match phase_of p (w_sess w) with
      | Some (PhMarked _) =>
          match w_marks w with
          | [_; _] => leave p (set_marks (newer (w_marks w)) w)
          | _ => leave p w      (* 686-691: assertion *)
          end
      | _ => w
      end
  | EvDie p => match phase_of p (w_sess w) with Some _ => leave p w | None => w end
  | EvSpawn p u =>
      match owner_of (w_procs w) p with
      | Some _ => w
      | None => mk_w (w_marks w) ((p, u) :: w_procs w) (w_lock w) (w_sess w)
      end
  | EvExit p =>
      match phase_of p (w_sess w) with
      | Some _ => w             (* it isn't another program *)
      | None => mk_w (w_marks w) (drop_proc p (w_procs w)) (w_lock w) (w_sess w)
      end
  end.
Definition run (locks : bool) (l : list ev) (w : world) : world := fold_left (step locks) l w.
