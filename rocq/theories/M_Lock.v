(** * Locking the repository (src/rdiffbackup/locations/_repo_shadow.py:149-191 setup, 350-391 _create,
    416-436 _is_failed_initial_backup, _clean_failed_initial_backup, 2061-2110 _lock, _unlock;
    utils/locking.py: flock on POSIX systems).

    Any number of processes, each working on the same repository on one machine; every system call that
    matters is a step of its own, and a process can end at any point.  Simplifications: the
    directories can be created and written; removing and creating the data directory are single
    steps; the trace of the writer in lock.yml (its contents) is left out; the time check of setup
    is left out (it is repeated under the lock: actions/backup.py:117). *)
From Coq Require Import List Arith Bool.
Import ListNotations.

(** the repository: does rdiff-backup-data exist; does it hold a current_mirror marker; the inode of
    lock.yml; the next inode; the locks held: inode, process, exclusive *)
Record repo : Type := mk_repo {
  f_data : bool; f_marker : bool; f_lock : option nat; f_next : nat; f_held : list (nat * nat * bool) }.

(** how a process came to work on the repository *)
Inductive work : Type :=
| Locked (inode : nat)      (* _lock returned True *)
| Forced                    (* False, but --force was given *)
| NoLockFile.               (* None: a reader, and there is no lock file *)
(** where a process is *)
Inductive pstate : Type :=
| PStart                    (* nothing done yet *)
| PCreate (seen : bool)     (* 394: in _create; the data directory was there when looked at *)
| PCheckLock                (* 359: a failed initial backup was found *)
| PClean                    (* 384 *)
| PMkdir (need : bool)      (* 387 *)
| PLock                     (* 2090 *)
| POpen (exists_ : bool)    (* 2100 *)
| PFlock (inode : nat)      (* 2101 *)
| PWork (w : work)          (* setup is over *)
| PDone.                    (* ended: refused, finished or killed *)

Section Lock.
(** must_be_writable (so LOCK_EX), and --force, of each process *)
Variable writable force : nat -> bool.

(** flock(2) without blocking: another open file holds a lock of the inode, and one of both is exclusive *)
Definition conflicts (r : repo) (i p : nat) : bool :=
  existsb (fun '(j, q, ex) => Nat.eqb i j && negb (Nat.eqb p q) && (ex || writable p)) (f_held r).
(** closing the file gives up the lock (2112-2135, or the end of the process) *)
Definition release (p : nat) (r : repo) : repo :=
  mk_repo (f_data r) (f_marker r) (f_lock r) (f_next r) (filter (fun '(_, q, _) => negb (Nat.eqb p q)) (f_held r)).

(** the next step of process [p]: the label tells apart what is done *)
Inductive label : Type := LStep | LClean | LMarker | LEnd.
Inductive step (p : nat) : label -> repo -> pstate -> repo -> pstate -> Prop :=
(* 150-152: only a writing action creates *)
| S_start : forall r, step p LStep r PStart r (if writable p then PCreate (f_data r) else PLock)
(* 393-412: no marker in the directory; the directory is gone: OSError *)
| S_new : forall r, step p LStep r (PCreate false) r (PMkdir true)
| S_failed : forall r, step p LStep r (PCreate true) r
    (if f_data r then if f_marker r then PMkdir false else PCheckLock else PDone)
(* 359-379 *)
| S_check : forall r, step p LStep r PCheckLock r
    (match f_lock r with Some _ => if force p then PClean else PDone | None => PClean end)
(* 384, 414-421 *)
| S_clean : forall r, step p LClean r PClean (mk_repo false false None (f_next r) (f_held r)) (PMkdir true)
(* 387-399: mkdir of an existing directory fails *)
| S_mkdir : forall r, step p LStep r (PMkdir true)
    (if f_data r then r else mk_repo true false None (f_next r) (f_held r)) (if f_data r then PDone else PLock)
| S_nomkdir : forall r, step p LStep r (PMkdir false) r PLock
(* 2090-2099 *)
| S_lock : forall r, step p LStep r PLock r
    (match f_lock r with Some _ => POpen true | None => if writable p then POpen false else PWork NoLockFile end)
(* 2101: open with "r+" or "r" *)
| S_open : forall r, step p LStep r (POpen true) r (match f_lock r with Some i => PFlock i | None => PDone end)
(* 2101: open with "w" *)
| S_creat : forall r, step p LStep r (POpen false)
    (match f_lock r with
     | None => if f_data r then mk_repo true (f_marker r) (Some (f_next r)) (S (f_next r)) (f_held r) else r
     | Some _ => r end)
    (if f_data r then match f_lock r with Some i => PFlock i | None => PFlock (f_next r) end else PDone)
(* 2102-2113, 161-176 *)
| S_flock : forall r i, step p LStep r (PFlock i)
    (if conflicts r i p then r else mk_repo (f_data r) (f_marker r) (f_lock r) (f_next r) ((i, p, writable p) :: f_held r))
    (if conflicts r i p then if force p then PWork Forced else PDone else PWork (Locked i))
(* touch_current_mirror of the first backup *)
| S_marker : forall r w, writable p = true -> step p LMarker r (PWork w) (mk_repo (f_data r) true (f_lock r) (f_next r) (f_held r)) (PWork w)
(* 256-260 exit, after the work or after an error; or a crash at any point *)
| S_end : forall r s, step p LEnd r s (release p r) PDone.

(** all processes together *)
Definition world : Type := repo * (nat -> pstate).
Definition upd (st : nat -> pstate) (p : nat) (s : pstate) : nat -> pstate := fun q => if Nat.eqb p q then s else st q.
Inductive run : world -> list label -> world -> Prop :=
| R_nil : forall w, run w [] w
| R_step : forall w ls r st p l r' s', run w ls (r, st) -> step p l r (st p) r' s' -> run w (ls ++ [l]) (r', upd st p s').
End Lock.
