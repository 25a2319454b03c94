(** * The whole repository: all paths and the data directory

    Puts together the files of every path (M_Core, M_Crash) and the
    rdiff-backup-data directory (M_MetaMgr).

    Models
    - src/rdiffbackup/actions/backup.py:107-160 (check, session)
    - src/rdiffbackup/locations/_repo_shadow.py: get_sigs / get_diffs / apply
      (250-300, 540-600), _CacheCollatedPostProcess (2259-2458): source listing
      collated with the metadata of the previous session
    - 909-996 restore: listing of the metadata of the time, content from the
      increments
    - 1693-1722 regress, 1208-1245 remove_increments_older_than. *)
From Coq Require Import List ZArith Bool Lia Sorting.Sorted.
From Verif Require Import Base M_Core M_Crash M_Iter M_MetaMgr.
Import List ListNotations.
Local Open Scope Z_scope.

Section Global.
Context {attr : Type}.
Variable delta : bytes -> bytes -> bytes.
Variable patch : bytes -> bytes -> option bytes.
Variable sha1 : attr -> bytes -> option bytes.
Variable same : attr -> attr -> bool.
Variable loose : attr -> attr -> bool.
(** exact comparison of metadata records (meta_mgr.py:305) *)
Variable deq : meta attr -> meta attr -> bool.

(** mirror file and increment files of a path *)
Definition pfiles : Type := (node attr * list (Z * inc attr))%type.

Record repo : Type := mk_repo {
  r_data : @ddir (meta attr);
  r_path : idx -> pfiles }.

Definition gempty : repo := mk_repo empty_dd (fun _ => (Absent, [])).

(** A source tree: the sorted listing of the selected files; a path not listed
    is absent. *)
Definition tree : Type := list (idx * node attr).
Definition node_at (l : tree) (p : idx) : node attr :=
  match find (fun x => idx_eqb (fst x) p) l with Some x => snd x | None => Absent end.

(** the record of a path in a listing of metadata *)
Definition find_md (p : idx) (l : list (idx * option (meta attr))) : option (meta attr) :=
  match find (fun x => idx_eqb (fst x) p) l with Some x => snd x | None => None end.

(** the files of the path with the record of the previous session, if any *)
Definition pst (prev : option Z) (md : option (meta attr)) (f : pfiles) : @pstate attr :=
  mk_ps (fst f) (snd f) (match prev with Some t1 => [(t1, md)] | None => [] end).
Definition files_of (ps : @pstate attr) : pfiles := (mirror ps, incs ps).

(** ** A session *)

(** _repo_shadow.py:380-412: the metadata of the mirror time, nothing in a first
    session *)
Definition old_listing (prev : option Z) (r : repo) : option (list (idx * option (meta attr))) :=
  match prev with
  | None => Some []
  | Some t1 =>
      match meta_at_time t1 [] (mfiles (r_data r)) with
      | RdOk l => Some l
      | _ => None
      end
  end.

Definition pair_path (x : option (idx * node attr) * option (idx * option (meta attr))) : idx :=
  match x with
  | (Some s, _) => fst s
  | (None, Some m) => fst m
  | (None, None) => []
  end.
Definition pair_src (x : option (idx * node attr) * option (idx * option (meta attr))) : node attr :=
  match fst x with Some s => snd s | None => Absent end.
Definition pair_md (x : option (idx * node attr) * option (idx * option (meta attr))) : option (meta attr) :=
  match snd x with Some m => snd m | None => None end.

(** The metadata written by a session: for each path of the collated listings the
    record of the processed entry, if it exists (2422-2452); [st md f]: the files [f]
    of a path and its record [md] *)
Definition listing_with (prev : option Z) (st : option (meta attr) -> pfiles -> @pstate attr)
    (old : list (idx * option (meta attr))) (src : tree)
    (o : idx -> outcome attr) (r : repo) : list (idx * meta attr) :=
  flat_map (fun x =>
      let p := pair_path x in
      match snd (update delta sha1 same prev (pair_src x) (o p) (st (pair_md x) (r_path r p))) with
      | Some m => [(p, m)]
      | None => []
      end)
    (collate2 fst fst src old).
Definition new_listing (prev : option Z) : list (idx * option (meta attr)) -> tree ->
    (idx -> outcome attr) -> repo -> list (idx * meta attr) :=
  listing_with prev (pst prev).

(** A session at time [t] which completes.  Every path is processed as in
    M_Core; a path in neither listing is left alone, which is what M_Core's
    update does with an absent source and no record.  [None]: the program
    refuses to start or fails. *)
Definition gsession (t : Z) (src : tree) (o : idx -> outcome attr) (zd : dnoise)
    (r : repo) : option repo :=
  match backup_start t false false (r_data r) with
  | StBackup prev =>
      match old_listing prev r with
      | Some old =>
          match session_dops deq prev t (new_listing prev old src o r) zd (r_data r) with
          | Some ops =>
              Some (mk_repo (run_dops ops (r_data r))
                (fun p => files_of (session delta sha1 same t (node_at src p) (o p)
                                      (pst prev (find_md p old) (r_path r p)))))
          | None => None
          end
      | None => None
      end
  | _ => None
  end.

(** A session (not the first) interrupted: [kd] operations on the data directory
    and [kp p] operations on the files of the path [p] happened.  The new marker
    is the first and the removal of the old one the last operation of the
    session, so that [0 < kd < length ops] unless nothing or everything happened.
    The order between the operations on different paths is left open; so every
    order is covered. *)
Definition gcrash (t : Z) (src : tree) (o : idx -> outcome attr) (z : idx -> noise attr)
    (zd : dnoise) (kd : nat) (kp : idx -> nat) (r : repo) : option repo :=
  match backup_start t false false (r_data r) with
  | StBackup (Some t1) =>
      match old_listing (Some t1) r with
      | Some old =>
          match session_dops deq (Some t1) t (new_listing (Some t1) old src o r) zd (r_data r) with
          | Some ops =>
              if Nat.ltb 0 kd && Nat.ltb kd (length ops) then
                Some (mk_repo (run_dops (firstn kd ops) (r_data r))
                  (fun p =>
                     let ps := pst (Some t1) (find_md p old) (r_path r p) in
                     files_of (crash t1 (kp p)
                       (session_prog delta sha1 same (node_at src p) (o p) (z p) ps) ps)))
              else None
          | None => None
          end
      | None => None
      end
  | _ => None
  end.

(** ** A first session in a directory which isn't empty

    _repo_shadow.py:524-544 _get_dest_select: without a previous session, what is
    collated with the source is the listing of the files found in the mirror:
    remains of an interrupted first session, or whatever was in the directory when
    backup --force was called (317-347 _is_writable).  [fa]: the attributes of a
    file as read from the file system; they don't include a hash. *)
Definition as_found (fa : attr -> attr) (n : node attr) : node attr :=
  match attr_of n with Some a => set_attr n (fa a) | None => n end.
Definition found_listing (fa : attr -> attr) (found : list idx) (r : repo)
    : list (idx * option (meta attr)) :=
  map (fun p => (p, meta_of sha1 (as_found fa (fst (r_path r p))))) found.
(** [found] lists the files of the mirror, in order *)
Definition scan_of (r : repo) (found : list idx) : Prop :=
  StronglySorted (fun p q => idx_cmp p q = Lt) found /\
  forall p, In p found <-> fst (r_path r p) <> Absent.
Definition found_ps (md : option (meta attr)) (f : pfiles) : @pstate attr :=
  mk_ps (fst f) (snd f) [(0, md)].

(** 350-414 _create: remains of an interrupted first session in the data directory
    are deleted (with the lock file only with --force), 268-284 apply: the mirror is
    patched without writing increments (_RepoPatchITRB) *)
Definition gfirst (fa : attr -> attr) (found : list idx) (t : Z) (src : tree) (o : idx -> outcome attr)
    (zd : dnoise) (r : repo) : option repo :=
  let d := clean_initial (r_data r) in
  match backup_start t false false d with
  | StBackup None =>
      let old := found_listing fa found r in
      match session_dops deq None t (listing_with None found_ps old src o r) zd d with
      | Some ops =>
          Some (mk_repo (run_dops ops d)
            (fun p => fst (update delta sha1 same None (node_at src p) (o p)
                             (found_ps (find_md p old) (r_path r p)))))
      | None => None
      end
  | _ => None
  end.

(** operations on the path in a first session: those on increments left out *)
Definition first_prog (src : node attr) (o : outcome attr) (z : noise attr) (ps : @pstate attr) : list (pop attr) :=
  filter (fun x => match x with SetMirror _ => true | _ => false end)
         (session_prog delta sha1 same src o z ps).

(** An interrupted first session: [kd] operations on the data directory and [kp p] on
    the path [p]; the marker is set last (actions/backup.py:137-153) *)
Record try : Type := mk_try {
  y_time : Z; y_src : tree; y_out : idx -> outcome attr; y_noise : idx -> noise attr;
  y_dnoise : @dnoise (meta attr); y_kd : nat; y_kp : idx -> nat }.
Definition first_crash (fa : attr -> attr) (found : list idx) (y : try) (r : repo) : option repo :=
  let d := clean_initial (r_data r) in
  match backup_start (y_time y) false false d with
  | StBackup None =>
      let old := found_listing fa found r in
      match session_dops deq None (y_time y) (listing_with None found_ps old (y_src y) (y_out y) r) (y_dnoise y) d with
      | Some ops =>
          if Nat.ltb (y_kd y) (length ops) then
            Some (mk_repo (run_dops (firstn (y_kd y) ops) d)
              (fun p =>
                 let ps := found_ps (find_md p old) (r_path r p) in
                 files_of (crash 0 (y_kp y p) (first_prog (node_at (y_src y) p) (y_out y p) (y_noise y p) ps) ps)))
          else None
      | None => None
      end
  | _ => None
  end.
(** the call is repeated as long as it gets interrupted *)
Fixpoint first_crashes (fa : attr -> attr) (l : list try) (r r' : repo) : Prop :=
  match l with
  | [] => r' = r
  | y :: l' => exists found rc, scan_of r found /\ first_crash fa found y r = Some rc /\ first_crashes fa l' rc r'
  end.
(** a directory with the files [m0], no repository yet *)
Definition plain_dir (m0 : tree) : repo := mk_repo empty_dd (fun p => (node_at m0 p, [])).

(** ** Regress *)

Definition ops_of (x : option (list (pop attr))) : list (pop attr) :=
  match x with Some l => l | None => [] end.

(** One run of regress up to the point where the tree is processed: [l] the
    operations on the data directory, [prog] those on the paths, [good] the time
    gone back to.  The metadata are read after the data directory was put in
    order (_regress_rbdir), i.e. without the last two operations, those on the
    increments directory and the marker.  The run doesn't stop with an exception
    on any path. *)
Definition regress_plan (used : bool) (z : idx -> noise attr) (r : repo)
    (good : Z) (l : list dop) (prog : idx -> option (list (pop attr))) : Prop :=
  exists bad recs,
    two_markers (r_data r) = Some (bad, good) /\
    regress_dops used (r_data r) = Some l /\
    meta_at_time good [] (mfiles (run_dops (firstn (length l - 2) l) (r_data r))) = RdOk recs /\
    prog = (fun p => regress_prog patch sha1 loose good bad (find_md p recs) (z p)
                       (pst (Some good) (find_md p recs) (r_path r p))) /\
    forall p, prog p <> None.

(** [kd] operations on the data directory (never the last one, the removal of the
    marker) and [kp p] on the path [p] *)
Definition regress_part (good : Z) (l : list dop) (prog : idx -> option (list (pop attr)))
    (kd : nat) (kp : idx -> nat) (r : repo) : repo :=
  mk_repo (run_dops (firstn (Nat.min kd (length l - 1)) l) (r_data r))
    (fun p => files_of (crash good (kp p) (ops_of (prog p)) (pst None None (r_path r p)))).
Definition regress_full (good : Z) (l : list dop) (prog : idx -> option (list (pop attr)))
    (r : repo) : repo :=
  mk_repo (run_dops l (r_data r))
    (fun p => files_of (run_pops good (ops_of (prog p)) (pst None None (r_path r p)))).

(** Attempts to regress, all interrupted but the last, turn [r] into [r'] *)
Fixpoint regresses (used : bool) (att : list ((idx -> noise attr) * nat * (idx -> nat)))
    (zlast : idx -> noise attr) (r r' : repo) : Prop :=
  match att with
  | [] => exists good l prog, regress_plan used zlast r good l prog /\ r' = regress_full good l prog r
  | (z, kd, kp) :: att' =>
      exists good l prog, regress_plan used z r good l prog /\
        regresses used att' zlast (regress_part good l prog kd kp r) r'
  end.

(** ** Removal and restore *)

(** remove_increments_older_than over the whole repository; [used] as in
    [remove_older_dd] *)
Definition gremove (rt : Z) (used : bool) (r : repo) : repo :=
  mk_repo (remove_older_dd rt used (r_data r))
    (fun p => files_of (remove_older rt (pst None None (r_path r p)))).
Definition gremoves (l : list (Z * bool)) (r : repo) : repo :=
  fold_left (fun r x => gremove (fst x) (snd x) r) l r.

(** _repo_shadow.py:1725-1751 force_regress: the increments of the root are those of
    the path [] *)
Definition gforce (r : repo) : option repo :=
  match force_regress (map fst (snd (r_path r []))) (r_data r) with
  | Some d => Some (mk_repo d (r_path r))
  | None => None
  end.

(** The entry of a record of the metadata: attributes from the record, content of
    a regular file from the increments; [None]: the restore fails. *)
Definition restore_rec (t mt : Z) (r : repo) (x : idx * option (meta attr)) : option (idx * node attr) :=
  match snd x with
  | None => None
  | Some (MDir a) => Some (fst x, Dir a)
  | Some (MSpec d a) => Some (fst x, Spec d a)
  | Some (MReg _ _ a) =>
      match restore_fp patch t mt (pst None None (r_path r (fst x))) with
      | ROk c => Some (fst x, Reg c a)
      | _ => None
      end
  end.

Fixpoint all_some {A} (l : list (option A)) : option (list A) :=
  match l with
  | [] => Some []
  | Some x :: l' => match all_some l' with Some r => Some (x :: r) | None => None end
  | None :: _ => None
  end.

(** What a restore at the session time [t] of the path [q] and everything below
    creates (into an empty place) *)
Definition restore_tree (t : Z) (q : idx) (r : repo) : option tree :=
  match mirror_time_must (r_data r) with
  | None => None
  | Some mt =>
      match meta_at_time t q (mfiles (r_data r)) with
      | RdOk recs => all_some (map (restore_rec t mt r) recs)
      | _ => None
      end
  end.

(** ** Histories *)

Inductive gevent : Type :=
| GSession (t : Z) (src : tree) (o : idx -> outcome attr) (zd : @dnoise (meta attr))
| GCrash (t : Z) (src : tree) (o : idx -> outcome attr) (z : idx -> noise attr)
         (zd : @dnoise (meta attr)) (kd : nat) (kp : idx -> nat)
         (rms : list (Z * bool))
         (used : bool) (att : list ((idx -> noise attr) * nat * (idx -> nat)))
         (zlast : idx -> noise attr)
| GRemove (rt : Z) (used : bool)
| GForced (used : bool) (att : list ((idx -> noise attr) * nat * (idx -> nat)))
          (zlast : idx -> noise attr)
| GFirst (m0 : tree) (fa : attr -> attr) (tries : list try)
         (t : Z) (src : tree) (o : idx -> outcome attr) (zd : @dnoise (meta attr)).

(** A completed session; an interrupted one, after which perhaps old increments are
    removed (at most up to the last completed session) and which is then detected and
    undone by regress; a removal keeping the mirror; regress --force of a repository
    which doesn't need it (actions/__init__.py:657-693 _operate_regress); a first session
    into a directory with the files [m0], after attempts which were interrupted. *)
Definition gstep (e : gevent) (r r' : repo) : Prop :=
  match e with
  | GSession t src o zd => gsession t src o zd r = Some r'
  | GCrash t src o z zd kd kp rms used att zlast =>
      exists rc, gcrash t src o z zd kd kp r = Some rc /\
        (forall rt b, In (rt, b) rms -> rt <= mirror_time (r_data r)) /\
        needs_regress (r_data (gremoves rms rc)) false false = NRYes /\
        regresses used att zlast (gremoves rms rc) r'
  | GRemove rt used => rt <= mirror_time (r_data r) /\ r' = gremove rt used r
  | GForced used att zlast =>
      exists rc, gforce r = Some rc /\ regresses used att zlast rc r'
  | GFirst m0 fa tries t src o zd =>
      r_data r = empty_dd /\ (forall p, r_path r p = (Absent, [])) /\
      exists rc found, first_crashes fa tries (plain_dir m0) rc /\ scan_of rc found /\
        gfirst fa found t src o zd rc = Some r'
  end.
End Global.
