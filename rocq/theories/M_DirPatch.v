(** * Changing a directory into what is to be restored

    Models src/rdiffbackup/locations/_dir_shadow.py:372-391 WriteDirShadow.apply, 393-530
    _DirPatchITRB, src/rdiff_backup/rorpiter.py:92-196 IterTreeReducer as it calls it,
    398-440 FillInIter, and _repo_shadow.py:907-990 get_diffs.

    Simplifications: diffs are snapshots, as they are on a restore; hard links are the
    subject of M_Hardlinks; the check of the hash only logs. *)
From Coq Require Import List ZArith Bool Ascii.
From Verif Require Import Base M_Iter M_TreeFs.
Import List ListNotations.
Local Open Scope Z_scope.

(** an entry of a listing (mirror metadata or directory): index and description *)
Definition entry : Type := (idx * node)%type.
(** a diff: index, and what shall be there, nothing if it shall be deleted *)
Definition item : Type := (idx * option node)%type.

Section Diffs.
(** RORPath.__eq__ (M_Rorp) *)
Variable same : node -> node -> bool.

(** _repo_shadow.py:951-990 _get_diffs_from_collated, _get_diff *)
Definition diff_of (p : option entry * option entry) : list item :=
  match p with
  | (Some (i, m), Some (_, t)) => if same m t then [] else [(i, Some m)]
  | (Some (i, m), None) => [(i, Some m)]
  | (None, Some (i, _)) => [(i, None)]
  | (None, None) => []
  end.
(** 908-922 get_diffs *)
Definition get_diffs (mirror target : list entry) : list item :=
  flat_map diff_of (collate2 fst fst mirror target).
End Diffs.

Section Patch.
Variable root : bool.
Variable now : idx -> Z.

(** what a branch remembers until the directory is done: self.dir_update, self.dir_replacement *)
Inductive what : Type := Update (a : attr) | Replace.

(** _dir_shadow.py:504-511 _prepare_dir *)
Definition prepare_dir (i : idx) (base : option node) (t : tree) : option tree :=
  match base with
  | Some (NDir _) => chmod700 root i t
  | Some (NOther _ _) =>
      match unlink root now i t with
      | None => None
      | Some t1 => match mkdir root now i t1 with None => None | Some t2 => chmod700 root i t2 end
      end
  | None => match mkdir root now i t with None => None | Some t2 => chmod700 root i t2 end
  end.

(** 519-530 _set_dir_replacement *)
Definition set_dir_replacement (i : idx) (new : option node) (base : option node) (t : tree)
  : option tree :=
  match (match new with None => Some t | Some n => write_temp root now i n t end) with
  | None => None
  | Some t1 => if is_dir base then chmod700 root i t1 else Some t1
  end.

(** 430-444 start_process_directory *)
Definition start_dir (x : item) (t : tree) : option (what * tree) :=
  let '(i, new) := x in
  match stat root i t with
  | None => None
  | Some base =>
      if is_dir new || is_dir base || idx_eqb i [] then
        match new with
        | Some (NDir a) =>
            match prepare_dir i base t with None => None | Some t1 => Some (Update a, t1) end
        | _ =>
            match set_dir_replacement i new base t with
            | None => None
            | Some t1 => Some (Replace, t1)
            end
        end
      else None
  end.

(** 442-453 end_process_directory *)
Definition end_dir (i : idx) (w : what) (t : tree) : option tree :=
  match w with
  | Update a => set_attribs root i a t
  | Replace =>
      match rmdir root now i t with
      | None => None
      | Some t1 =>
          match get i (temps t1) with
          | Some _ => rename_temp root now i t1
          | None => Some t1
          end
      end
  end.

(** 417-420 can_fast_process; [None]: the file can't be reached *)
Definition can_fast (x : item) (t : tree) : option bool :=
  match stat root (fst x) t with
  | None => None
  | Some base => Some (negb (is_dir (snd x)) && negb (is_dir base))
  end.

(** 422-428 fast_process_file: a file to temp and renamed; nothing to temp, and rename deletes *)
Definition fast_file (x : item) (t : tree) : option tree :=
  match snd x with
  | Some n => match write_temp root now (fst x) n t with None => None | Some t1 => rename_temp root now (fst x) t1 end
  | None => unlink root now (fst x) t
  end.

(** IterTreeReducer with its branches (innermost first) and the tree.  A root which is processed at once
    gets no branch here: in the code it does, but nothing else follows. *)
Record run : Type := mk_run {
  r_last : option idx;
  r_brs : list (idx * what);
  r_fast : bool;
  r_tree : tree }.

(** rorpiter.py:169-189 _finish_branches *)
Fixpoint finish (i : idx) (brs : list (idx * what)) (t : tree) : option (list (idx * what) * tree) :=
  match brs with
  | [] => Some ([], t)
  | (b, w) :: brs' =>
      if is_prefix b i then Some (brs, t)
      else match end_dir b w t with
           | None => None
           | Some t1 => finish i brs' t1
           end
  end.

(** rorpiter.py:111-154 __call__ *)
Definition call (x : item) (r : run) : option run :=
  let i := fst x in
  match r_last r with
  | None =>
      match can_fast x (r_tree r) with
      | None => None
      | Some true =>
          match fast_file x (r_tree r) with
          | None => None
          | Some t1 => Some (mk_run (Some i) [] true t1)
          end
      | Some false =>
          match start_dir x (r_tree r) with
          | None => None
          | Some (w, t1) => Some (mk_run (Some i) [(i, w)] false t1)
          end
      end
  | Some last =>
      match idx_cmp i last with
      | Eq => Some r
      | Lt => None
      | Gt =>
          match finish i (r_brs r) (r_tree r) with
          | None => None
          | Some ([], _) => None          (* out of the tree of the first index *)
          | Some (brs, t1) =>
              match can_fast x t1 with
              | None => None
              | Some true =>
                  match fast_file x t1 with
                  | None => None
                  | Some t2 => Some (mk_run (Some i) brs (r_fast r) t2)
                  end
              | Some false =>
                  match start_dir x t1 with
                  | None => None
                  | Some (w, t2) => Some (mk_run (Some i) ((i, w) :: brs) (r_fast r) t2)
                  end
              end
          end
      end
  end.

(** rorpiter.py:156-167 finish_processing *)
Fixpoint end_all (brs : list (idx * what)) (t : tree) : option tree :=
  match brs with
  | [] => Some t
  | (b, w) :: brs' => match end_dir b w t with None => None | Some t1 => end_all brs' t1 end
  end.
Definition finish_run (r : run) : option tree :=
  match r_last r with
  | None => Some (r_tree r)
  | Some _ => if r_fast r then Some (r_tree r) else end_all (r_brs r) (r_tree r)
  end.

(** rorpiter.py:398-440: a path filled in is described as it is found at that moment.  The code makes
    up a description for what isn't a directory; here the run stops, and the theorems say it doesn't. *)
Definition filled (e : item + idx) (t : tree) : option item :=
  match e with
  | inl x => Some x
  | inr p =>
      match stat root p t with
      | Some (Some (NDir a)) => Some (p, Some (NDir a))
      | _ => None
      end
  end.

Fixpoint run_items (l : list (item + idx)) (r : run) : option run :=
  match l with
  | [] => Some r
  | e :: l' =>
      match filled e (r_tree r) with
      | None => None
      | Some x => match call x r with None => None | Some r' => run_items l' r' end
      end
  end.

(** _dir_shadow.py:372-391 apply; [None]: it stops with an exception *)
Definition apply (diffs : list item) (t : tree) : option tree :=
  match run_items (fill_in fst diffs) (mk_run None [] false t) with
  | None => None
  | Some r => finish_run r
  end.
End Patch.
