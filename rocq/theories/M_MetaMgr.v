(** * Metadata files and session markers in rdiff-backup-data

    Models src/rdiffbackup/meta_mgr.py (Manager, PatchDiffMan) and the parts of
    src/rdiffbackup/locations/_repo_shadow.py and actions/backup.py dealing with
    the rdiff-backup-data directory: current_mirror markers, needs_regress,
    _regress_rbdir.  The records of a metadata file are abstract here, their
    text form is the subject of M_Meta. *)
From Coq Require Import List ZArith Bool Lia.
From Verif Require Import Base M_Iter.
From Verif Require M_Core.
Import List ListNotations.
Local Open Scope Z_scope.

Section MetaMgr.
Context {D : Type}.
(** exact comparison of the data dictionaries (meta_mgr.py:305) *)
Variable deq : D -> D -> bool.

(** A record: path and data; [None] is a record of type None, i.e. an object
    whose lstat() is false (rpath.RORPath(index) has data {'type': None}). *)
Local Notation mrec := (idx * option D)%type.
Inductive mkind := KSnap | KDiff.

(** mirror_metadata.<time>.<kind>.gz *)
Record mfile : Type := mk_mf { mf_time : Z; mf_kind : mkind; mf_recs : list mrec }.

Definition is_snap (f : mfile) : bool := match mf_kind f with KSnap => true | KDiff => false end.

(** sortlist.sort(reverse=True, key=time): stable, newest first (meta_mgr.py:242-246) *)
Fixpoint ins_desc (x : mfile) (l : list mfile) : list mfile :=
  match l with
  | [] => [x]
  | y :: l' => if mf_time y <=? mf_time x then x :: l else y :: ins_desc x l'
  end.
Fixpoint sort_desc (l : list mfile) : list mfile :=
  match l with [] => [] | x :: l' => ins_desc x (sort_desc l') end.

(** meta_mgr.py:248-273: duplicate times are fatal (without
    --allow-duplicate-timestamps) *)
Fixpoint has_dup (l : list Z) : bool :=
  match l with
  | [] => false
  | x :: l' => existsb (Z.eqb x) l' || has_dup l'
  end.

(** meta_mgr.py:229-267 sorted_prefix_inclist(b"mirror_metadata", min_time); [None]:
    FatalError *)
Definition sorted_inclist (min_time : Z) (files : list mfile) : option (list mfile) :=
  let l := sort_desc files in
  if has_dup (map mf_time l) then None
  else Some (filter (fun f => min_time <=? mf_time f) l).

(** meta_mgr.py:288-297 _get_diffiter *)
Definition odeq (x y : option D) : bool :=
  match x, y with
  | Some a, Some b => deq a b
  | None, None => true
  | _, _ => false
  end.
Definition diff_step (p : option mrec * option mrec) : list mrec :=
  match p with
  | (Some n, None) => [(fst n, None)]
  | (None, Some o) => [o]
  | (Some n, Some o) => if odeq (snd n) (snd o) then [] else [o]
  | (None, None) => []
  end.
Definition diffiter (new old : list mrec) : list mrec :=
  flat_map diff_step (collate2 fst fst new old).

Definition max_diff_chain : nat := 9.   (* meta_mgr.py:230 *)

(** meta_mgr.py:299-323 _check_needs_diff; [limit] is [max_diff_chain].  [None]: exception
    or fatal error. *)
Fixpoint diff_run (l : list mfile) : nat :=
  match l with
  | f :: l' => if is_snap f then 0%nat else S (diff_run l')
  | [] => 0%nat
  end.
Definition check_needs_diff (limit : nat) (files : list mfile) : option (option (mfile * mfile)) :=
  match sorted_inclist 0 files with
  | None => None
  | Some [] => None
  | Some [_] => Some None
  | Some (new :: old :: rest) =>
      if is_snap new && is_snap old then
        if Nat.leb limit (1 + diff_run rest) then Some None
        else Some (Some (new, old))
      else None
  end.

(** A directory entry is identified by its name, i.e. time and kind *)
Definition same_name (t : Z) (k : mkind) (f : mfile) : bool :=
  (mf_time f =? t) && match k, mf_kind f with KSnap, KSnap | KDiff, KDiff => true | _, _ => false end.
Definition del_file (t : Z) (k : mkind) (files : list mfile) : list mfile :=
  filter (fun f => negb (same_name t k f)) files.
(** create or overwrite *)
Definition put_file (f : mfile) (files : list mfile) : list mfile :=
  del_file (mf_time f) (mf_kind f) files ++ [f].

(** Reading the metadata of a time.
    meta_mgr.py:339-356 _relevant_meta_main_incs: from the nearest snapshot at or
    after the time down to the time; [acc]: what was passed already (older). *)
Fixpoint back_to_snap (l : list mfile) (acc : list mfile) : option (list mfile) :=
  match l with     (* l: from the oldest to the newest *)
  | [] => None
  | f :: l' => if is_snap f then Some (f :: acc) else back_to_snap l' (f :: acc)
  end.
Inductive rd (A : Type) := RdNone | RdFail | RdOk (x : A).
Definition relevant_incs (time : Z) (files : list mfile) : rd (list mfile) :=
  match sorted_inclist time files with
  | None => RdFail _
  | Some [] => RdNone _
  | Some l =>
      match rev l with
      | oldest :: _ =>
          if mf_time oldest =? time then
            match back_to_snap (rev l) [] with Some x => RdOk _ x | None => RdFail _ end
          else RdFail _                        (* AssertionError *)
      | [] => RdFail _
      end
  end.

(** meta_mgr.py:358-374 _iterate_patched_attr: the last entry of the row wins *)
Fixpoint last_some (row : list (option mrec)) : option mrec :=
  match row with
  | [] => None
  | x :: row' => match last_some row' with Some y => Some y | None => x end
  end.
Definition patched (ls : list (list mrec)) : list mrec :=
  flat_map (fun r => match last_some (snd r) with
                     | Some (i, Some d) => [(i, Some d)]
                     | _ => []
                     end) (collate fst ls).

(** reading with a restriction to a path (get_objects(restrict_index)); what the
    file reader yields is the subject of M_Meta *)
Definition restrict (p : idx) (l : list mrec) : list mrec :=
  filter (fun r => is_prefix p (fst r)) l.

(** meta_mgr.py:325-337 _get_meta_main_at_time *)
Definition meta_at_time (time : Z) (p : idx) (files : list mfile) : rd (list mrec) :=
  match relevant_incs time files with
  | RdNone _ => RdNone _
  | RdFail _ => RdFail _
  | RdOk _ [f] => RdOk _ (restrict p (mf_recs f))
  | RdOk _ fs => RdOk _ (patched (map (fun f => restrict p (mf_recs f)) fs))
  end.

(** The objects of a snapshot are those of existing files
    (_repo_shadow.py:2444-2452 writes only if lstat()). *)
Definition recs_of (listing : list (idx * D)) : list mrec :=
  map (fun x => (fst x, Some (snd x))) listing.

(** ** Atomic changes of the data directory *)
Record ddir : Type := mk_dd {
  markers : list Z;          (* current_mirror.<time>.data *)
  mfiles : list mfile;
  others : list Z;           (* times of error_log, statistics, ACL, EA files *)
  incs_used : bool }.        (* the increments directory isn't empty *)

Inductive dop : Type :=
| DTouch (t : Z)                     (* marker *)
| DUnmark (t : Z)
| DPut (f : mfile)                   (* also a half-written file *)
| DDel (t : Z) (k : mkind)
| DOther (t : Z)                     (* some other file of the session *)
| DDelOther (t : Z)
| DInc                               (* an increment is written *)
| DIncUndo (b : bool).               (* increments deleted: is the directory empty again? *)

Definition run_dop (o : dop) (d : ddir) : ddir :=
  match o with
  | DTouch t => mk_dd (t :: filter (fun x => negb (x =? t)) (markers d)) (mfiles d) (others d) (incs_used d)
  | DUnmark t => mk_dd (filter (fun x => negb (x =? t)) (markers d)) (mfiles d) (others d) (incs_used d)
  | DPut f => mk_dd (markers d) (put_file f (mfiles d)) (others d) (incs_used d)
  | DDel t k => mk_dd (markers d) (del_file t k (mfiles d)) (others d) (incs_used d)
  | DOther t => mk_dd (markers d) (mfiles d) (t :: others d) (incs_used d)
  | DDelOther t => mk_dd (markers d) (mfiles d) (filter (fun x => negb (x =? t)) (others d)) (incs_used d)
  | DInc => mk_dd (markers d) (mfiles d) (others d) true
  | DIncUndo b => mk_dd (markers d) (mfiles d) (others d) b
  end.
Fixpoint run_dops (l : list dop) (d : ddir) : ddir :=
  match l with [] => d | o :: l' => run_dops l' (run_dop o d) end.

Definition empty_dd : ddir := mk_dd [] [] [] false.

(** What isn't fixed by the program: the contents of the files while they are
    being written; whether files are changed, so that increments get written.  The limit
    of diffs in a row is left open too (it is [max_diff_chain]): nothing depends on it. *)
Record dnoise : Type := mk_dn {
  dn_snap : list (list mrec);
  dn_diff : list (list mrec);
  dn_others : nat;
  dn_incs : bool;
  dn_limit : nat }.

(** A session at time [t] with previous time [prev] recording [listing]
    (actions/backup.py:128-160, _repo_shadow.py:2311-2330 CCPP.close,
    meta_mgr.py:269-286 convert_meta_main_to_diff).  The snapshot is written
    while the tree is processed.  [None]: assertion failure or fatal error.
    Simplification: CCPP.close also writes file statistics; the order of the
    other files doesn't matter here. *)
Definition session_dops (prev : option Z) (t : Z) (listing : list (idx * D)) (z : dnoise)
    (d : ddir) : option (list dop) :=
  let snap r := DPut (mk_mf t KSnap r) in
  let write_snap :=
    repeat (DOther t) (dn_others z) ++ (if dn_incs z then [DInc] else []) ++
    map snap (dn_snap z) ++ [snap (recs_of listing)] in
  match prev with
  | None => Some (write_snap ++ [DTouch t])
  | Some t1 =>
      let d1 := run_dops (DTouch t :: write_snap) d in
      match check_needs_diff (dn_limit z) (mfiles d1) with
      | None => None
      | Some None => Some (DTouch t :: write_snap ++ [DUnmark t1])
      | Some (Some (new, old)) =>
          let to := mf_time old in
          let diff r := DPut (mk_mf to KDiff r) in
          Some (DTouch t :: write_snap ++ map diff (dn_diff z) ++
                [diff (diffiter (mf_recs new) (mf_recs old)); DDel to KSnap; DUnmark t1])
      end
  end.

(** _repo_shadow.py:743-781 get_mirror_time(refresh=True): 0 no marker, -1 several *)
Definition mirror_time (d : ddir) : Z :=
  match markers d with
  | [] => 0
  | [t] => t
  | _ => -1
  end.

(** 741-779 get_mirror_time(must_exist=True), used by restore, list, ...: with two
    markers the first one in the order of the directory listing *)
Definition mirror_time_must (d : ddir) : option Z := hd_error (markers d).

(** _repo_shadow.py:1725-1751 force_regress (regress --force): pretends that the last
    session failed, by a marker for the second newest time.  [root_incs]: the times of
    the increments of the root directory.  The mirror time compared is the one cached
    by get_increment_times.  [None]: nothing is done (or fatal error, no marker). *)
Definition force_regress (root_incs : list Z) (d : ddir) : option ddir :=
  match mirror_time_must d with
  | None => None
  | Some m =>
      match rev (M_Core.get_increment_times m root_incs (map mf_time (mfiles d))) with
      | newest :: second :: _ =>
          if newest =? m then Some (run_dop (DTouch second) d) else None
      | _ => None
      end
  end.

(** _repo_shadow.py:1635-1690 needs_regress *)
Inductive nr := NRNew | NRNo | NRYes | NRFatal | NRAssert.
Definition needs_regress (d : ddir) (force pid_alive : bool) : nr :=
  if negb (incs_used d) then NRNew
  else match markers d with
       | [] => NRFatal
       | [_] => NRNo
       | [_; _] => if negb force && pid_alive then NRFatal else NRYes
       | _ => if negb force && pid_alive then NRFatal else NRAssert
       end.

(** the newest and the oldest of two markers *)
Definition two_markers (d : ddir) : option (Z * Z) :=
  match markers d with
  | [a; b] => if a =? b then None else Some (Z.max a b, Z.min a b)
  | _ => None
  end.

(** _repo_shadow.py:1693-1722 regress and 1866-1906 _regress_rbdir: the operations
    on the data directory; [used]: whether increments remain after the failed
    session's ones are deleted (this happens in the tree walk between _regress_rbdir
    and the removal of the marker).  [None]: exception.
    timerpmap[t] raises KeyError when no file has the time t, which can't happen
    since the marker has it. *)
Definition regress_dops (used : bool) (d : ddir) : option (list dop) :=
  match two_markers d with
  | None => None
  | Some (bad, good) =>
      let snaps := existsb (same_name good KSnap) (mfiles d) in
      let diffs := existsb (same_name good KDiff) (mfiles d) in
      let rest :=
        [DDel bad KSnap; DDel bad KDiff; DDelOther bad] ++
        (if diffs then [DDel good KDiff] else []) ++
        [DIncUndo used; DUnmark bad] in
      if diffs && negb snaps then
        match meta_at_time good [] (mfiles d) with
        | RdOk _ l => Some (DPut (mk_mf good KSnap l) :: rest)
        | _ => None
        end
      else Some rest
  end.

(** Attempts to regress, all interrupted but the last *)
Fixpoint regress_tries (used : bool) (att : list nat) (d : ddir) : option ddir :=
  match regress_dops used d with
  | None => None
  | Some l =>
      match att with
      | [] => Some (run_dops l d)
      | k :: att' =>
          (* interrupted before the marker goes *)
          regress_tries used att' (run_dops (firstn (Nat.min k (length l - 1)) l) d)
      end
  end.

(** actions/backup.py:107-126: what a call of backup does first *)
Inductive start := StBackup (prev : option Z) | StRegressFirst | StAbort.
Definition backup_start (now : Z) (force pid_alive : bool) (d : ddir) : start :=
  match needs_regress d force pid_alive with
  | NRFatal | NRAssert => StAbort
  | NRYes => StRegressFirst
  | _ =>
      let m := mirror_time d in
      if (m <? 0) || (now <=? m) then StAbort
      else StBackup (if m =? 0 then None else Some m)
  end.

(** _repo_shadow.py:415-444: remains of a failed first session; they are removed
    before anything else (one error log at most). *)
Definition failed_initial (d : ddir) : bool :=
  match markers d with [] => Nat.leb (length (mfiles d)) 1 | _ => false end.
Definition clean_initial (d : ddir) : ddir := if failed_initial d then empty_dd else d.

(** _repo_shadow.py:1206-1249 remove_increments_older_than in the data directory: every
    file with a time in its name counts as an increment, session markers included
    (increment.py:185-207).  [used]: whether increments remain.  The existence of an
    interrupted session isn't checked (actions/remove.py:152-165). *)
Definition remove_older_dd (rt : Z) (used : bool) (d : ddir) : ddir :=
  mk_dd (filter (fun t => negb (t <? rt)) (markers d))
        (filter (fun f => negb (mf_time f <? rt)) (mfiles d))
        (filter (fun t => negb (t <? rt)) (others d)) (incs_used d && used).
(** several calls *)
Definition removals_dd (l : list (Z * bool)) (d : ddir) : ddir :=
  fold_left (fun d x => remove_older_dd (fst x) (snd x) d) l d.
End MetaMgr.
Arguments RdNone {A}.
Arguments RdFail {A}.
Arguments RdOk {A}.
