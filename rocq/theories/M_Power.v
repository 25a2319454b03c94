(** * Power failures

    What has been written reaches the disk in any order, unless it is forced to it:
    - src/rdiff_backup/rpath.py:1156-1209 fsync, fsync_open, fsync_with_dir
    - src/rdiffbackup/locations/_repo_shadow.py:655-677 touch_current_mirror,
      681-699 remove_current_mirror, 2744-2811 _RepoIncrementITRB (what is done with one file
      or directory during a backup), 1692-1722 regress, 3310-3328, 3373-3402 _RepoRegressITRB
    - src/rdiffbackup/locations/increment.py:130-153 make_increment (which increments)
    - src/rdiffbackup/run.py:185 (--fsync), singletons/generics.py:111-135

    Simplifications: no hard links (each file has its own data); the attributes compared by
    equal_loose are one number, and a file just written has the attribute [now]; metadata
    files are those of the last complete session, with check sums; directories of the
    mirror are only looked at as far as files in them are (a file in a directory which is
    not there isn't there; a file replaced by a directory isn't looked at); two files changed in different order on the disk are independent
    of each other, as are the two names changed by a rename. *)
From Coq Require Import List NArith Bool Ascii Arith.
From Verif Require Import Base.
Import List ListNotations.

(** ** Disks *)
(** a place on the disk: its value, and what may be found there after a power failure *)
Record cell (A : Type) : Type := mk_cell { cur : A; poss : A -> Prop }.
Arguments mk_cell {A}. Arguments cur {A}. Arguments poss {A}.
Definition push {A} (v : A) (c : cell A) : cell A := mk_cell v (fun x => poss c x \/ x = v).
Definition settle {A} (c : cell A) : cell A := mk_cell (cur c) (fun x => x = cur c).

(** what is in files: data, increments (made of the data before, or of the difference
    from the data after to the data before), marks without data, special files *)
Inductive content : Type :=
| Reg (b : bytes) | Snap (b : bytes) | Diff (basis result : bytes) | Mark | Special (k : N).
(** data not forced to the disk can be anything *)
Definition like (c x : content) : Prop :=
  match c, x with
  | Reg _, Reg _ | Snap _, Snap _ | Diff _ _, Diff _ _ => True
  | Mark, Mark => True
  | Special k, Special k' => k = k'
  | _, _ => False
  end.

Definition path : Type := list bytes.
Definition path_eqb (a b : path) : bool := if list_eq_dec (list_eq_dec Ascii.ascii_dec) a b then true else false.
(** the directory a path is in; the root is in none *)
Definition parent (p : path) : option path := match p with [] => None | _ => Some (removelast p) end.
Definition opath_eqb (a b : option path) : bool :=
  match a, b with None, None => true | Some x, Some y => path_eqb x y | _, _ => false end.
(** the names belonging to a path: in the mirror, a temporary file beside it, the increment
    of the session, the directory of increments *)
Inductive name : Type := NMirror | NTemp | NInc | NIncDir.
Definition name_eqb (a b : name) : bool :=
  match a, b with NMirror, NMirror | NTemp, NTemp | NInc, NInc | NIncDir, NIncDir => true | _, _ => false end.
(** names have files, files have data and attributes *)
Record pstate : Type := mk_p { ent : name -> cell (option nat); dat : nat -> cell content; att : nat -> cell N; nxt : nat }.
Record st : Type := mk_st { old_marker : cell bool; new_marker : cell bool; files : path -> pstate }.

Inductive dir : Type := DMirror (d : option path) | DInc (d : option path) | DData.
Inductive op : Type :=
| Create (p : path) (n : name) (c : content) | SetAttr (p : path) (n : name) (a : N)
| Fsync (p : path) (n : name) | Rename (p : path) (* the temporary file to the mirror *)
| Unlink (p : path) (n : name) | Mkdir (p : path)
| FsyncDir (d : dir) | Sync
| TouchNew | RemoveOld | RemoveNew.

Section Disk.
(** does a rename force the data of the file renamed to the disk first? *)
Variable safe : bool.
Variable now : N.

Definition set_ent (n : name) (v : option nat) (f : pstate) : pstate :=
  mk_p (fun m => if name_eqb m n then push v (ent f m) else ent f m) (dat f) (att f) (nxt f).
Definition on_file (n : name) (g : nat -> pstate -> pstate) (f : pstate) : pstate :=
  match cur (ent f n) with Some i => g i f | None => f end.
Definition create (n : name) (c : content) (f : pstate) : pstate :=
  let i := nxt f in
  set_ent n (Some i)
    (mk_p (ent f) (fun j => if j =? i then mk_cell c (like c) else dat f j)
       (fun j => if j =? i then mk_cell now (fun x => x = now) else att f j) (S i)).
Definition set_attr (a : N) (i : nat) (f : pstate) : pstate :=
  mk_p (ent f) (dat f) (fun j => if j =? i then push a (att f j) else att f j) (nxt f).
Definition fsync (i : nat) (f : pstate) : pstate :=
  mk_p (ent f) (fun j => if j =? i then settle (dat f j) else dat f j)
       (fun j => if j =? i then settle (att f j) else att f j) (nxt f).
Definition flush (i : nat) (f : pstate) : pstate :=
  if safe then mk_p (ent f) (fun j => if j =? i then settle (dat f j) else dat f j) (att f) (nxt f) else f.
Definition rename (f : pstate) : pstate :=
  match cur (ent f NTemp) with
  | Some i => set_ent NTemp None (set_ent NMirror (Some i) (flush i f))
  | None => f
  end.
Definition settle_names (l : list name) (f : pstate) : pstate :=
  mk_p (fun m => if existsb (name_eqb m) l then settle (ent f m) else ent f m) (dat f) (att f) (nxt f).
Definition settle_all (f : pstate) : pstate :=
  mk_p (fun m => settle (ent f m)) (fun j => settle (dat f j)) (fun j => settle (att f j)) (nxt f).

Definition upd (p : path) (g : pstate -> pstate) (s : st) : st :=
  mk_st (old_marker s) (new_marker s) (fun q => if path_eqb q p then g (files s q) else files s q).
Definition all_files (g : path -> pstate -> pstate) (s : st) : st :=
  mk_st (old_marker s) (new_marker s) (fun q => g q (files s q)).
Definition run1 (s : st) (o : op) : st :=
  match o with
  | Create p n c => upd p (create n c) s
  | SetAttr p n a => upd p (on_file n (set_attr a)) s
  | Fsync p n => upd p (on_file n fsync) s
  | Rename p => upd p rename s
  | Unlink p n => upd p (set_ent n None) s
  | Mkdir p => upd p (create NIncDir Mark) s
  | FsyncDir (DMirror d) => all_files (fun q f => if opath_eqb (parent q) d then settle_names [NMirror; NTemp] f else f) s
  | FsyncDir (DInc d) => all_files (fun q f => if opath_eqb (parent q) d then settle_names [NInc; NIncDir] f else f) s
  | FsyncDir DData => mk_st (settle (old_marker s)) (settle (new_marker s)) (files s)
  | Sync => mk_st (settle (old_marker s)) (settle (new_marker s)) (fun q => settle_all (files s q))
  | TouchNew => mk_st (old_marker s) (push true (new_marker s)) (files s)
  | RemoveOld => mk_st (push false (old_marker s)) (new_marker s) (files s)
  | RemoveNew => mk_st (old_marker s) (push false (new_marker s)) (files s)
  end.
Definition run (s : st) (l : list op) : st := fold_left run1 l s.

(** ** A session *)
(** --fsync / --no-fsync (do_fsync), and whether directories can be forced to the disk
    (fsync_directories) *)
Variables (do_fsync fsync_dirs : bool).
Definition f_file (p : path) (n : name) : list op := if do_fsync then [Fsync p n] else [].
Definition f_dir (d : dir) : list op := if do_fsync && fsync_dirs then [FsyncDir d] else [].
(** rpath.py:1205-1209 fsync_with_dir *)
Definition fsync_with_dir (p : path) (n : name) : list op :=
  f_file p n ++ f_dir (match n with NInc | NIncDir => DInc (parent p) | _ => DMirror (parent p) end).

(** what a file was and is to be *)
Inductive version : Type := VNone | VReg (b : bytes) (a : N) | VOther (k : N) (a : N).
Inductive item : Type :=
| File (p : path) (old new : version)
| Directory (p : path) (have : bool)     (* to be a directory; is there a directory of increments yet? *)
| DirGone (p : path) (have : bool).      (* a directory to be replaced by something else *)
Definition beq (a b : bytes) : bool := if list_eq_dec Ascii.ascii_dec a b then true else false.

(** _repo_shadow.py:2744-2780 fast_process_file; the temporary file is written first,
    then the increment, which is forced to the disk if it's a regular file *)
Definition temp_ops (p : path) (new : version) : list op :=
  match new with
  | VReg b a => [Create p NTemp (Reg b); SetAttr p NTemp a]
  | VOther k a => [Create p NTemp (Special k); SetAttr p NTemp a]
  | VNone => []
  end.
Definition inc_ops (p : path) (old new : version) : list op :=
  match old, new with
  | VNone, _ => Create p NInc Mark :: fsync_with_dir p NInc
  | VReg b _, VReg b' _ => Create p NInc (Diff b' b) :: fsync_with_dir p NInc
  | VReg b _, _ => Create p NInc (Snap b) :: fsync_with_dir p NInc
  | VOther k _, _ => [Create p NInc (Special k)]
  end.
Definition unchanged (old new : version) : bool :=
  match old, new with VReg b _, VReg b' _ => beq b b' | _, _ => false end.
Definition attr_of (v : version) : N := match v with VNone => 0%N | VReg _ a | VOther _ a => a end.
Definition file_ops (p : path) (old new : version) : list op :=
  if unchanged old new then temp_ops p new ++ [SetAttr p NMirror (attr_of new); Unlink p NTemp]
  else temp_ops p new ++ inc_ops p old new ++ (match new with VNone => [Unlink p NMirror] | _ => [Rename p] end).
(** 2782-2811 start_process_directory; increment.py:142 (the directory of increments) *)
Definition dir_ops (p : path) (have : bool) : list op := (if have then [] else [Mkdir p]) ++ [Create p NInc Mark].
Definition item_ops (i : item) : list op :=
  match i with
  | File p old new => file_ops p old new
  | Directory p have => dir_ops p have ++ fsync_with_dir p NInc
  | DirGone p have => dir_ops p have
  end.
Definition session (items : list item) : list op :=
  TouchNew :: f_dir DData ++ flat_map item_ops items ++ (if do_fsync then [Sync] else []) ++ [RemoveOld].

(** ** Going back *)
Definition view (f : pstate) (n : name) : option (content * N) :=
  match cur (ent f n) with Some i => Some (cur (dat f i), cur (att f i)) | None => None end.
Definition ancestors (p : path) : list path := map (fun n => firstn n p) (seq 0 (length p)).
Definition reach (s : st) (p : path) : bool :=
  forallb (fun q => match cur (ent (files s q) NIncDir) with Some _ => true | None => false end) (ancestors p).
(** 3006-3049 get_restore_fp: the data made of the increment and the mirror *)
Definition restored (inc mirror : option (content * N)) : bytes :=
  match inc with
  | Some (Snap b, _) => b
  | Some (Diff n o, _) => match mirror with Some (Reg d, _) => if beq d n then o else [] | _ => [] end
  | Some _ => []
  | None => match mirror with Some (Reg d, _) => d | _ => [] end
  end.
(** 3309-3328 fast_process_file, 3373-3402 _restore_orig_regfile *)
Definition regress_one (rch : bool) (f : pstate) (p : path) (old : version) : list op :=
  let mirror := view f NMirror in
  let inc := if rch then view f NInc else None in
  let there := match mirror with Some _ => true | None => false end in
  (match old with
   | VReg b a =>
       match mirror with
       | Some (Reg d, a') =>
           if (a' =? a)%N then []
           else (if beq d b then [SetAttr p NMirror a]
                 else Create p NTemp (Reg (restored inc mirror)) :: fsync_with_dir p NTemp
                      ++ [SetAttr p NTemp a; Rename p])
                ++ f_dir (DMirror (parent p))
       | _ => (if there then [Unlink p NMirror] else [])
              ++ [Create p NMirror (Reg (restored inc mirror)); SetAttr p NMirror a]
              ++ f_dir (DMirror (parent p))
       end
   | VOther k a =>
       match mirror with
       | Some (Special k', a') => if (k' =? k)%N && (a' =? a)%N then [] else [Unlink p NMirror; Create p NMirror (Special k); SetAttr p NMirror a]
       | _ => (if there then [Unlink p NMirror] else []) ++ [Create p NMirror (Special k); SetAttr p NMirror a]
       end
   | VNone => if there then [Unlink p NMirror] else []
   end)
  ++ match inc with Some _ => [Unlink p NInc] | None => [] end.
Definition regress_path (s : st) (p : path) (old : version) : list op := regress_one (reach s p) (files s p) p old.
(** 1692-1722 regress *)
Fixpoint regress_files (s : st) (l : list (path * version)) : list op :=
  match l with
  | [] => []
  | (p, v) :: r => let o := regress_path s p v in o ++ regress_files (run s o) r
  end.
Definition regress (s : st) (l : list (path * version)) : list op :=
  regress_files s l ++ (if do_fsync then [Sync] else []) ++ [RemoveNew].
End Disk.

(** ** Power failures *)
Definition lost {A} (c c' : cell A) : Prop := poss c (cur c') /\ forall x, poss c' x <-> x = cur c'.
Definition plost (f f' : pstate) : Prop :=
  (forall n, lost (ent f n) (ent f' n)) /\ (forall i, lost (dat f i) (dat f' i)) /\ (forall i, lost (att f i) (att f' i)) /\ nxt f' = nxt f.
Definition power_failure (s s' : st) : Prop :=
  lost (old_marker s) (old_marker s') /\ lost (new_marker s) (new_marker s') /\ forall p, plost (files s p) (files s' p).
