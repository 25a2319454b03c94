(** * A session and a regress as sequences of file-system operations on a path

    Refines M_Core: what happens to the files of one path (mirror file and
    increment of the session) in a session, operation by operation, so that a
    crash can be put between any two operations, and the same for the regress
    which follows.

    Models
    - _repo_shadow.py:2744-2805 _RepoIncrementITRB, 2533-2564, 2694-2729
    - _repo_shadow.py:3246-3402 _RegressFile, _RepoRegressITRB
    - rpath.py:1550-1586 copy_attribs as a sequence of writes.

    Simplifications: operations reach the disk in program order (the code calls
    fsync on an increment before the mirror file is touched); temporary files are
    paths of their own, see [regress_prog] for paths without metadata. *)
From Coq Require Import List ZArith Bool Lia.
From Verif Require Import Base M_Core.
Import List ListNotations.
Local Open Scope Z_scope.

(** Atomic operations on the files of the path: replace (rename over, create,
    delete, change attributes of) the mirror file; create or overwrite the
    increment of the running session; delete this increment. *)
Inductive pop (attr : Type) : Type :=
| SetMirror (n : node attr)
| SetInc (i : inc attr)
| DelInc.
Arguments SetMirror {attr}.
Arguments SetInc {attr}.
Arguments DelInc {attr}.

(** What isn't determined by the program: states of the increment file while it
    is being written, attributes of the mirror file while they are being set,
    attributes a new file gets, how far a file has been written. *)
Record noise (attr : Type) : Type := mk_noise {
  n_incs : list (inc attr);
  n_attrs : list attr;
  n_fresh : attr;
  n_written : list nat }.
Arguments mk_noise {attr}.
Arguments n_incs {attr}.
Arguments n_attrs {attr}.
Arguments n_fresh {attr}.
Arguments n_written {attr}.

Section Crash.
Context {attr : Type}.
Variable delta : bytes -> bytes -> bytes.
Variable patch : bytes -> bytes -> option bytes.
Variable sha1 : attr -> bytes -> option bytes.
Variable same : attr -> attr -> bool.
(** attributes equal according to RORPath.equal_loose (rpath.py:218-270), first
    argument the recorded attributes *)
Variable loose : attr -> attr -> bool.

Definition run_pop (t1 : Z) (o : pop attr) (ps : @pstate attr) : @pstate attr :=
  match o with
  | SetMirror n => mk_ps n (incs ps) (metas ps)
  | SetInc i =>
      mk_ps (mirror ps) (filter (fun x => negb (fst x =? t1)) (incs ps) ++ [(t1, i)]) (metas ps)
  | DelInc => mk_ps (mirror ps) (filter (fun x => negb (fst x =? t1)) (incs ps)) (metas ps)
  end.

Fixpoint run_pops (t1 : Z) (l : list (pop attr)) (ps : @pstate attr) : @pstate attr :=
  match l with [] => ps | o :: l' => run_pops t1 l' (run_pop t1 o ps) end.

(** rpath.py:1550-1586 copy_attribs: chown, chmod, EAs, ACLs, mtime one after
    the other *)
Definition attr_writes (n : node attr) (z : noise attr) (a : attr) : list (pop attr) :=
  map (fun x => SetMirror (set_attr n x)) (n_attrs z) ++ [SetMirror (set_attr n a)].

(** the increment file is created, written and its attributes set *)
Definition inc_writes (z : noise attr) (i : inc attr) : list (pop attr) :=
  map SetInc (n_incs z) ++ [SetInc i].

(** _repo_shadow.py:2767-2777 (rename or delete), 2718-2729 _prepare_dir with 2546-2564
    end_process_directory *)
Definition replace_mirror (z : noise attr) (m new : node attr) : list (pop attr) :=
  match new with
  | Dir a =>
      (if is_dir m then []
       else match m with Absent => [] | _ => [SetMirror Absent] end
            ++ [SetMirror (Dir (n_fresh z))])
      ++ attr_writes (Dir (n_fresh z)) z a
  | Absent => [SetMirror Absent]
  | _ => if is_dir m then [SetMirror Absent; SetMirror new] else [SetMirror new]
  end.

(** The operations of one session on the path (compare M_Core.update) *)
Definition session_prog (src : node attr) (o : outcome attr) (z : noise attr)
    (ps : @pstate attr) : list (pop attr) :=
  let md := cur_meta ps in
  let m := mirror ps in
  if meta_same same src md then
    match o, src with
    | OFill, Dir _ =>
        inc_writes z (make_increment delta src m) ++
        match attr_of m with Some a => attr_writes m z a | None => [] end
    | _, _ => []
    end
  else
    let update_to new :=
      inc_writes z (make_increment delta new m) ++ replace_mirror z m new in
    let unchanged_content :=
      match attr_of src with Some a => attr_writes m z a | None => [] end in
    match o with
    | OPatchFail =>
        (* for a directory: the replacement is a copy of the directory, 2708-2716 *)
        if is_dir m && negb (is_dir src) then [SetMirror Absent; SetMirror m] else []
    | OListErr => match src with Reg _ _ => update_to Absent | _ => update_to src end
    | OSpecialFail a => match src with Spec _ _ => update_to (Reg [] a) | _ => update_to src end
    | OOk | OFill =>
        if hash_unchanged sha1 src md then unchanged_content else update_to src
    | OIncFail part =>
        if hash_unchanged sha1 src md then unchanged_content
        else match part with None => [] | Some i => inc_writes z i end
    | ORenameFail =>
        if hash_unchanged sha1 src md then unchanged_content
        else inc_writes z (make_increment delta src m)
    end.

(** rpath.py:218-270 equal_loose of a metadata record ([None]: no record, type
    None) and the mirror file.  The special case "special file replaced by an
    empty regular file" is left out (only sockets and fifos can meet it); the
    theorems exclude such fallbacks. *)
Definition loose_eq (md : option (meta attr)) (m : node attr) : bool :=
  match md, m with
  | None, Absent => true
  | Some (MReg sz _ a), Reg c b => Nat.eqb (length c) sz && loose a b
  | Some (MDir a), Dir b => loose a b
  | Some (MSpec d a), Spec d' b => beq_bytes d d' && loose a b
  | _, _ => false
  end.

(** rpath.py:1105-1119 write_from_fileobj followed by copy_attribs: the file
    grows, then gets its attributes *)
Definition write_reg (z : noise attr) (c : bytes) (a : attr) : list (pop attr) :=
  map (fun k => SetMirror (Reg (firstn k c) (n_fresh z))) (n_written z) ++
  SetMirror (Reg c (n_fresh z)) :: attr_writes (Reg c (n_fresh z)) z a.

Definition delete_mirror (m : node attr) : list (pop attr) :=
  match m with Absent => [] | _ => [SetMirror Absent] end.

(** the hash of the content against the one recorded with the attributes [a] *)
Definition hash_matches (a : attr) (c : bytes) (sha : option bytes) : bool :=
  match sha, sha1 a c with Some h, Some h' => beq_bytes h h' | _, _ => false end.

Definition last_attr (z : noise attr) (a : attr) : attr := last (n_attrs z) a.

(** _repo_shadow.py:3288-3402 _RepoRegressITRB for one path: [md] the metadata of the
    time to go back to, [t1] this time, [t2] the time of the failed session.
    [None]: the regress stops with an exception. *)
Definition regress_prog (t1 t2 : Z) (md : option (meta attr)) (z : noise attr)
    (ps : @pstate attr) : option (list (pop attr)) :=
  let m := mirror ps in
  let fix_ :=
    match md with
    | Some (MReg sz sha a) =>
        if loose_eq md m then Some []
        else
          match m with
          | Reg c' _ =>
              if Nat.eqb (length c') sz && hash_matches a c' sha
              then Some (attr_writes m z a)
              else match restore_fp patch t1 t2 ps with
                   | ROk c => Some [SetMirror (Reg c a)]      (* temporary file renamed *)
                   | _ => None
                   end
          | _ =>
              match restore_fp patch t1 t2 ps with
              | ROk c => Some (delete_mirror m ++ write_reg z c a)
              | _ => None
              end
          end
    | Some (MDir a) =>
        let start :=
          (if is_dir m then [] else delete_mirror m ++ [SetMirror (Dir (n_fresh z))]) in
        (* chmod at the start, changes by what happens inside the directory *)
        let touched := map (fun x => SetMirror (Dir x)) (n_attrs z) in
        let cur := last_attr z (match m with Dir b => b | _ => n_fresh z end) in
        Some (start ++ touched ++ (if loose a cur then [] else [SetMirror (Dir a)]))
    | Some (MSpec d a) =>
        if loose_eq md m then Some []
        else Some (delete_mirror m ++
                   SetMirror (Spec d (n_fresh z)) :: attr_writes (Spec d (n_fresh z)) z a)
    | None => Some (delete_mirror m)
    end in
  match fix_ with
  | Some l => Some (l ++ [DelInc])
  | None => None
  end.

(** A crash: only the first [k] operations happened. *)
Definition crash (t1 : Z) (k : nat) (prog : list (pop attr)) (ps : @pstate attr) :=
  run_pops t1 (firstn k prog) ps.

(** Attempts to regress, all interrupted but the last *)
Fixpoint regress_attempts (t1 t2 : Z) (md : option (meta attr))
    (att : list (noise attr * nat)) (zlast : noise attr) (ps : @pstate attr)
    : option (@pstate attr) :=
  match att with
  | [] =>
      match regress_prog t1 t2 md zlast ps with
      | Some l => Some (run_pops t1 l ps)
      | None => None
      end
  | (z, k) :: att' =>
      match regress_prog t1 t2 md z ps with
      | Some l => regress_attempts t1 t2 md att' zlast (crash t1 k l ps)
      | None => None
      end
  end.

(** Events in the life of the path: a completed session, or a session
    interrupted after [k] operations and followed by a regress with some
    interrupted attempts.  A crash of the very first session is outside this
    model (the repository is removed and created anew,
    _repo_shadow.py:415-444). *)
Inductive event : Type :=
| EvSession (t : Z) (src : node attr) (o : outcome attr)
| EvCrash (t : Z) (src : node attr) (o : outcome attr) (z : noise attr) (k : nat)
          (att : list (noise attr * nat)) (zlast : noise attr).

Definition run_event (e : event) (ps : @pstate attr) : option (@pstate attr) :=
  match e with
  | EvSession t src o => Some (session delta sha1 same t src o ps)
  | EvCrash t src o z k att zlast =>
      match last_time ps with
      | None => None
      | Some t1 =>
          regress_attempts t1 t (cur_meta ps) att zlast
            (crash t1 k (session_prog src o z ps) ps)
      end
  end.

Fixpoint run_events (l : list event) (ps : @pstate attr) : option (@pstate attr) :=
  match l with
  | [] => Some ps
  | e :: l' => match run_event e ps with Some ps' => run_events l' ps' | None => None end
  end.
End Crash.
