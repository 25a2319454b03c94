(** * Core repository model: one path through the backup history

    Models (simplifications are stated at each definition)
    - src/rdiffbackup/locations/increment.py: make_increment, _make_*_increment
    - src/rdiffbackup/locations/_repo_shadow.py: _RepoPatchITRB,
      _RepoIncrementITRB, _CacheCollatedPostProcess._post_process,
      _RestoreFile, remove_increments_older_than, _get_removal_time,
      _set_restore_time, get_increment_times
    - src/rdiffbackup/locations/_dir_shadow.py: ReadDirShadow.get_diffs. *)
From Coq Require Import List ZArith Bool Lia.
From Verif Require Import Base.
Import List ListNotations.
Local Open Scope Z_scope.

(** What a path can be; [attr] stands for all attributes except type, size and
    content (rpath.py:1699-1816, the data dictionary), [d] in [Spec] for link
    name / device numbers / kind of special file. *)
Inductive node (attr : Type) : Type :=
| Absent
| Reg (content : bytes) (a : attr)
| Dir (a : attr)
| Spec (d : bytes) (a : attr).
Arguments Absent {attr}.
Arguments Reg {attr}.
Arguments Dir {attr}.
Arguments Spec {attr}.

(** A record of the metadata file (meta/stdattr.py): attributes, size and hash
    of regular files but no content. *)
Inductive meta (attr : Type) : Type :=
| MReg (size : nat) (sha1 : option bytes) (a : attr)
| MDir (a : attr)
| MSpec (d : bytes) (a : attr).
Arguments MReg {attr}.
Arguments MDir {attr}.
Arguments MSpec {attr}.

(** Types of increment files (increment.py:144-154, getinctype).  [ISnap] holds
    the copied file; the gzip layer is transparent. *)
Inductive inc (attr : Type) : Type :=
| IMissing
| IDir
| ISnap (n : node attr)
| IDiff (delta : bytes).
Arguments IMissing {attr}.
Arguments IDir {attr}.
Arguments ISnap {attr}.
Arguments IDiff {attr}.

(** How the update of one file ends, apart from crashes (which end the session
    and are the subject of M_Crash).
    - [OOk]: everything works;
    - [OPatchFail]: _patch_to_temp returns FAILED (error caught by
      check_common_error), _repo_shadow.py:2566-2660 (when _matches_cached_rorp,
      2664-2683, finds the source changing the session ends with an exception, a
      crash in the sense of M_Crash: see C67_changed_file_refuted);
    - [OListErr]: the source file cannot be read, the diff is zeroed
      (_dir_shadow.py:116-141), the mirror file gets deleted;
    - [OSpecialFail]: the special file can't be created and is replaced by an
      empty regular file (_repo_shadow.py:2685-2692);
    - [OIncFail part]: the error is caught while making the increment, after
      [part] was left on disk (_repo_shadow.py:2757-2762; robust.py:30-50);
    - [OFill]: as [OOk]; in addition, if the path is an unchanged directory,
      something below it changed, so that the directory is processed as well
      (rorpiter.py FillInIter, _repo_shadow.py:290-292, 2781-2797, 2718-2729);
    - [ORenameFail]: the final rename fails with a caught error
      (_repo_shadow.py:2767-2774). *)
Inductive outcome (attr : Type) : Type :=
| OOk
| OFill
| OPatchFail
| OListErr
| OSpecialFail (a : attr)
| OIncFail (part : option (inc attr))
| ORenameFail.
Arguments OOk {attr}.
Arguments OFill {attr}.
Arguments OPatchFail {attr}.
Arguments OListErr {attr}.
Arguments OSpecialFail {attr}.
Arguments OIncFail {attr}.
Arguments ORenameFail {attr}.

(** Result of a restore *)
Inductive rres (A : Type) : Type :=
| ROk (x : A)       (* restored *)
| RNoMeta           (* no metadata for this time *)
| RCrash.           (* assertion failure / unreadable increment *)
Arguments ROk {A}.
Arguments RNoMeta {A}.
Arguments RCrash {A}.

Section Core.

Context {attr : Type}.
(** librsync: delta and patch; SHA-1 (external code). *)
Variable delta : bytes -> bytes -> bytes.   (* delta basis new *)
Variable patch : bytes -> bytes -> option bytes.   (* patch basis delta *)
(** [sha1 a c]: the hash recorded for a file with attributes [a] and content [c]; [None] if
    it isn't known.  The hash is set in the same dictionary as the attributes when the content
    passes through a session (2295-2307); an entry obtained by looking at the file system has
    none (M_Global, first session). *)
Variable sha1 : attr -> bytes -> option bytes.
(** Equality of the attributes as used by RORPath.__eq__ (rpath.py:132-171),
    first argument the source; see M_Rorp for its definition. *)
Variable same : attr -> attr -> bool.

Definition is_reg (n : node attr) : bool :=
  match n with Reg _ _ => true | _ => false end.
Definition is_dir (n : node attr) : bool :=
  match n with Dir _ => true | _ => false end.

(** State of the repository for one path: the mirror file, the increment files
    in the order of the directory listing, the metadata per session, newest
    first (how this is stored is modelled in M_MetaMgr). *)
Record pstate : Type := mk_ps {
  mirror : node attr;
  incs : list (Z * inc attr);
  metas : list (Z * option (meta attr)) }.

Definition empty_ps : pstate := mk_ps Absent [] [].

(** increment.py:129-155 make_increment (and the helpers 221-292).  [new] is the
    temporary file or, for directories, the source entry. *)
Definition make_increment (new mirr : node attr) : inc attr :=
  match mirr with
  | Absent => IMissing
  | Dir _ => IDir
  | Reg c _ =>
      match new with
      | Reg c' _ => IDiff (delta c' c)
      | _ => ISnap mirr
      end
  | Spec _ _ => ISnap mirr
  end.

(** RORPath.__eq__ of the source entry and the recorded metadata, restricted to
    type, size and attributes (rpath.py:132-171; _repo_shadow.py:583-592 with
    hard links switched off). *)
Definition meta_same (src : node attr) (md : option (meta attr)) : bool :=
  match src, md with
  | Absent, None => true           (* not in the collated listing at all *)
  | Reg c a, Some (MReg sz _ b) => Nat.eqb (length c) sz && same a b
  | Dir a, Some (MDir b) => same a b
  | Spec d a, Some (MSpec d' b) => beq_bytes d d' && same a b
  | _, _ => false
  end.

(** Metadata of a source entry as written by the session
    (_repo_shadow.py:2295-2307 set_sha1, 2446-2447). *)
Definition meta_of (src : node attr) : option (meta attr) :=
  match src with
  | Absent => None
  | Reg c a => Some (MReg (length c) (sha1 a c) a)
  | Dir a => Some (MDir a)
  | Spec d a => Some (MSpec d a)
  end.

Definition cur_meta (ps : pstate) : option (meta attr) :=
  match metas ps with (_, m) :: _ => m | [] => None end.

(** The increment is only written when there was a previous session
    (_repo_shadow.py:281-288: _RepoIncrementITRB or _RepoPatchITRB). *)
Definition add_inc (prev : option Z) (i : inc attr) (l : list (Z * inc attr)) :=
  match prev with Some t => l ++ [(t, i)] | None => l end.

(** Contents equal according to the recorded hash
    (_repo_shadow.py:2295-2307, 2651-2655): only for diffs, i.e. when the
    mirror's metadata say regular file and the source is regular. *)
Definition hash_unchanged (src : node attr) (md : option (meta attr)) : bool :=
  match src, md with
  | Reg c a, Some (MReg _ (Some h) _) =>
      match sha1 a c with Some h' => beq_bytes h' h | None => false end
  | _, _ => false
  end.

Definition set_attr (n : node attr) (a : attr) : node attr :=
  match n with
  | Absent => Absent
  | Reg c _ => Reg c a
  | Dir _ => Dir a
  | Spec d _ => Spec d a
  end.

Definition attr_of (n : node attr) : option attr :=
  match n with
  | Absent => None | Reg _ a => Some a | Dir a => Some a | Spec _ a => Some a
  end.

(** copy_attribs to the mirror for unchanged content (_repo_shadow.py:2752-2755) *)
Definition copy_attribs (src m : node attr) : node attr :=
  match attr_of src with Some a => set_attr m a | None => m end.

(** One file in one session (_repo_shadow.py:567-595, 2503-2531, 2744-2805,
    2422-2452).  Returns mirror, increments and metadata record.

    Simplifications: one path at a time (directories are handled in one step,
    their position in the processing order is the subject of M_IterTree and
    M_Tree); hard links, long names, permission juggling are left out; the diff
    sent is correct, i.e. patching the mirror's file gives the source's
    content. *)
Definition update (prev : option Z) (src : node attr) (o : outcome attr)
    (ps : pstate) : node attr * list (Z * inc attr) * option (meta attr) :=
  let md := cur_meta ps in
  let m := mirror ps in
  if meta_same src md then
    match o, src with
    | OFill, Dir _ => (m, add_inc prev (make_increment src m) (incs ps), meta_of src)
    | _, _ => (m, incs ps, md)
    end
  else
    match o with
    | OPatchFail => (m, incs ps, md)
    | OListErr =>
        (* only regular files are opened; others behave as OOk *)
        match src with
        | Reg _ _ => (Absent, add_inc prev (make_increment Absent m) (incs ps), None)
        | _ => (src, add_inc prev (make_increment src m) (incs ps), meta_of src)
        end
    | OSpecialFail a =>
        match src with
        | Spec _ _ =>
            let new := Reg [] a in
            (new, add_inc prev (make_increment new m) (incs ps), meta_of src)
        | _ => (src, add_inc prev (make_increment src m) (incs ps), meta_of src)
        end
    | OOk | OFill =>
        if hash_unchanged src md then
          (copy_attribs src m, incs ps, meta_of src)
        else (src, add_inc prev (make_increment src m) (incs ps), meta_of src)
    | OIncFail part =>
        if hash_unchanged src md then
          (copy_attribs src m, incs ps, meta_of src)
        else
          (m, match part with Some i => add_inc prev i (incs ps) | None => incs ps end,
           md)
    | ORenameFail =>
        if hash_unchanged src md then
          (copy_attribs src m, incs ps, meta_of src)
        else (m, add_inc prev (make_increment src m) (incs ps), md)
    end.

(** A session of the path at time [t]; [prev] is the previous mirror time
    (actions/backup.py:110-126).*)
Definition last_time (ps : pstate) : option Z :=
  match metas ps with (t, _) :: _ => Some t | [] => None end.

Definition session (t : Z) (src : node attr) (o : outcome attr) (ps : pstate)
    : pstate :=
  let '(m, l, md) := update (last_time ps) src o ps in
  mk_ps m l ((t, md) :: metas ps).

(** A history: sessions oldest first *)
Fixpoint sessions (h : list (Z * node attr * outcome attr)) (ps : pstate) : pstate :=
  match h with
  | [] => ps
  | (t, src, o) :: h' => sessions h' (session t src o ps)
  end.

(** ** Restore *)

(** Insertion sort on the time (_repo_shadow.py:2965-2979 incpairs.sort()); the
    tie break by RPath comparison is not modelled ("this relies on no time being
    the same"). *)
Fixpoint insert_inc (x : Z * inc attr) (l : list (Z * inc attr)) :=
  match l with
  | [] => [x]
  | y :: l' => if fst x <=? fst y then x :: l else y :: insert_inc x l'
  end.
Fixpoint sort_incs (l : list (Z * inc attr)) :=
  match l with [] => [] | x :: l' => insert_inc x (sort_incs l') end.

(** _repo_shadow.py:2965-2979 get_newer_incs *)
Definition newer_incs (r : Z) (l : list (Z * inc attr)) : list (inc attr) :=
  map snd (sort_incs (filter (fun x => r <=? fst x) l)).

Definition is_diff (i : inc attr) : bool :=
  match i with IDiff _ => true | _ => false end.

(** the while loop and slice newer_incs[: i + 1] (2955-2962) *)
Fixpoint take_relevant (l : list (inc attr)) : list (inc attr) :=
  match l with
  | [] => []
  | i :: l' => if is_diff i then i :: take_relevant l' else [i]
  end.

(** element of relevant_incs: the mirror file counts as a snapshot (2947-2948) *)
Definition last_is_diff (l : list (inc attr)) : bool :=
  match rev l with i :: _ => is_diff i | [] => true end.

(** _repo_shadow.py:2940-2963 set_relevant_incs, newest first *)
Definition relevant_incs (r mirror_time : Z) (ps : pstate) : list (inc attr) :=
  match incs ps with
  | [] => [ISnap (mirror ps)]
  | _ =>
      if mirror_time <=? r then [ISnap (mirror ps)]
      else
        let l := take_relevant (newer_incs r (incs ps)) in
        if last_is_diff l then rev (l ++ [ISnap (mirror ps)])
        else rev l
  end.

(** The increment as a file: is it a regular file? (3035 isreg(); the files made
    by touch() for "missing" and "dir" are regular) *)
Definition inc_isreg (i : inc attr) : bool :=
  match i with ISnap n => is_reg n | _ => true end.

(** _repo_shadow.py:3085-3107 _get_first_fp *)
Definition first_fp (i : inc attr) : rres bytes :=
  match i with
  | ISnap (Reg c _) => ROk c
  | _ => RCrash
  end.

(** the patch loop (3004-3024) *)
Fixpoint apply_diffs (cur : bytes) (l : list (inc attr)) : rres bytes :=
  match l with
  | [] => ROk cur
  | IDiff d :: l' =>
      match patch cur d with
      | Some c => apply_diffs c l'
      | None => ROk []      (* librsyncError: substituting empty file, 3026-3033 *)
      end
  | _ :: _ => RCrash
  end.

(** _repo_shadow.py:2999-3048 get_restore_fp.  The last element of relevant_incs
    is the oldest increment; if it isn't a regular file, an empty file is
    substituted. *)
Definition restore_fp (r mirror_time : Z) (ps : pstate) : rres bytes :=
  let l := relevant_incs r mirror_time ps in
  match l with
  | [] => RCrash
  | first :: rest =>
      if negb (inc_isreg (last l IMissing)) then ROk []
      else match first_fp first with
           | ROk c => apply_diffs c rest
           | e => e
           end
  end.

Fixpoint meta_at (r : Z) (l : list (Z * option (meta attr)))
    : option (option (meta attr)) :=
  match l with
  | [] => None
  | (t, m) :: l' => if t =? r then Some m else meta_at r l'
  end.

(** Restore of one path at session time [r] (_repo_shadow.py:909-996 get_diffs and
    _dir_shadow.py:451-501 applied to an empty target): type and attributes
    come from the metadata, the content of regular files from the increments. *)
Definition restore (r : Z) (ps : pstate) : rres (node attr) :=
  match last_time ps with
  | None => RNoMeta
  | Some mt =>
      match meta_at r (metas ps) with
      | None => RNoMeta
      | Some None => ROk Absent
      | Some (Some (MDir a)) => ROk (Dir a)
      | Some (Some (MSpec d a)) => ROk (Spec d a)
      | Some (Some (MReg _ _ a)) =>
          match restore_fp r mt ps with
          | ROk c => ROk (Reg c a)
          | RNoMeta => RNoMeta
          | RCrash => RCrash
          end
      end
  end.

(** ** Removal of old increments *)

(** _repo_shadow.py:1208-1245: all increment files (also the metadata files) with
    a time before the removal time are deleted. *)
Definition remove_older (rt : Z) (ps : pstate) : pstate :=
  mk_ps (mirror ps)
        (filter (fun x => negb (fst x <? rt)) (incs ps))
        (filter (fun x => negb (fst x <? rt)) (metas ps)).

End Core.

(** _repo_shadow.py:1400-1467 _get_removal_time without show_sizes: [times] are
    the times of the increments of the root directory. *)
Inductive removal : Type :=
| RemRefuse            (* None: unparsable or too many without --force *)
| RemNothing           (* -1 *)
| RemBefore (t : Z).

Fixpoint zinsert (x : Z) (l : list Z) : list Z :=
  match l with [] => [x] | y :: l' => if x <=? y then x :: l else y :: zinsert x l' end.
Fixpoint zsort (l : list Z) : list Z :=
  match l with [] => [] | x :: l' => zinsert x (zsort l') end.

Definition get_removal_time (action_time : option Z) (force : bool) (times : list Z)
    : removal :=
  match action_time with
  | None => RemRefuse
  | Some at_ =>
      let older := filter (fun t => t <? at_) times in
      match older with
      | [] => RemNothing
      | _ =>
          let s := zsort older in
          if Nat.ltb 1 (length s) && negb force then RemRefuse
          else RemBefore (last s 0 + 1)
      end
  end.

(** _repo_shadow.py:803-823 get_increment_times: set of mirror time, times of the
    root increments and of the metadata files, sorted. *)
Fixpoint zmem (x : Z) (l : list Z) : bool :=
  match l with [] => false | y :: l' => (x =? y) || zmem x l' end.
Fixpoint zdedup (l : list Z) : list Z :=
  match l with
  | [] => []
  | x :: l' => if zmem x l' then zdedup l' else x :: zdedup l'
  end.
Definition get_increment_times (mirror_time : Z) (root_incs metafiles : list Z)
    : list Z :=
  zsort (zdedup (mirror_time :: root_incs ++ metafiles)).

Definition zmax_list (l : list Z) : option Z :=
  match l with [] => None | x :: l' => Some (fold_left Z.max l' x) end.
Definition zmin_list (l : list Z) : option Z :=
  match l with [] => None | x :: l' => Some (fold_left Z.min l' x) end.

(** _repo_shadow.py:924-945 _set_restore_time *)
Definition set_restore_time (restore_to : Z) (inctimes : list Z) : option Z :=
  match zmax_list (filter (fun t => t <=? restore_to) inctimes) with
  | Some t => Some t
  | None => zmin_list inctimes
  end.
