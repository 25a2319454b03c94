(** * Changing the mirror into the state of the source

    Models src/rdiffbackup/locations/_repo_shadow.py:2469-2730 _RepoPatchITRB and
    _RepoIncrementITRB, driven as in 260-300 RepoShadow.apply by rorpiter.py's IterTreeReducer (92-196) and
    FillInIter (398-440), and what it tells the cache (_CacheCollatedPostProcess.flag_success,
    flag_deleted).

    Simplifications: what becomes of writing a file is a parameter [made], see there; the increments
    written meanwhile are the subject of M_Core and M_Crash, here they only can fail;
    errors which aren't caught stop the run; hard links are the subject of M_Hardlinks, long
    names of M_LongNames. *)
From Coq Require Import List ZArith Bool Ascii.
From Verif Require Import Base M_Iter M_TreeFs M_DirPatch.
Import List ListNotations.
Local Open Scope Z_scope.

Section Patch.
Variable root : bool.                       (* specifics.process_uid == 0 *)
Variable now : idx -> Z.
(** _RepoIncrementITRB (true) or _RepoPatchITRB *)
Variable increments : bool.
(** CCPP.get_mirror_rorp: the description of the mirror file in the metadata of the last session *)
Variable mir : idx -> option node.
(** CCPP.in_cache *)
Variable cached : idx -> bool.
(** What comes out of 2567-2605 _patch_to_temp (and, with increments, make_increment, and the rename)
    for a file or deletion: [None] - an error was caught, FAILED; else what is in the temporary file then: the
    new file (DONE), for a special file which can't be created an empty file (SPECIAL), for an unchanged
    content (UNCHANGED) the old file with new attributes, which has the same content. *)
Variable made : idx -> option node -> option (option node).

(** 2501-2504 can_fast_process *)
Definition rp_can_fast (x : item) : bool := negb (is_dir (snd x) || is_dir (mir (fst x))).

Definition flag : Type := (idx * nat)%type.     (* 1: flag_success, 2: flag_deleted *)

(** 2506-2534, 2744-2780 fast_process_file; temporary files of failed updates are deleted at the end *)
Definition rp_fast (x : item) (t : tree) : option (list flag * tree) :=
  let '(i, new) := x in
  match stat root i t with
  | None => None
  | Some base =>
      if is_dir base then None
      else
        match made i new with
        | None => Some ([], touch now i t)
        | Some (Some n) =>
            match write_temp root now i n t with
            | None => None
            | Some t1 =>
                match rename_temp root now i t1 with
                | None => None
                | Some t2 => Some ([(i, 1%nat)], t2)
                end
            end
        | Some None =>
            match base with
            | Some _ => match unlink root now i t with None => None | Some t1 => Some ([(i, 2%nat)], t1) end
            | None => Some ([], t)
            end
        end
  end.

(** 2718-2730 _prepare_dir *)
Definition rp_prepare_dir (i : idx) (base : option node) (t : tree) : option (list flag * tree) :=
  match base with
  | Some (NDir _) => Some (if cached i then [(i, 1%nat)] else [], t)
  | Some (NOther _ _) =>
      match unlink root now i t with
      | None => None
      | Some t1 => match mkdir root now i t1 with None => None | Some t2 => Some ([(i, 1%nat)], t2) end
      end
  | None => match mkdir root now i t with None => None | Some t2 => Some ([(i, 1%nat)], t2) end
  end.

(** 2694-2716 _set_dir_replacement: the new file, or, after an error, the directory as it was *)
Definition rp_set_replacement (i : idx) (new : option node) (t : tree) : option (list flag * tree) :=
  let write o := match o with None => Some t | Some n => write_temp root now i n t end in
  match made i new with
  | Some r =>
      match write r with
      | None => None
      | Some t1 => Some ([(i, if increments then 1%nat else match new with Some _ => 1%nat | None => 2%nat end)], t1)
      end
  | None => match write (mir i) with None => None | Some t1 => Some ([], t1) end
  end.

(** 2536-2549, 2782-2805 start_process_directory *)
Definition rp_start (x : item) (t : tree) : option (list flag * what * tree) :=
  let '(i, new) := x in
  match stat root i t with
  | None => None
  | Some base =>
      if is_dir new || is_dir base then
        match new with
        | Some (NDir a) =>
            match rp_prepare_dir i base t with
            | None => None
            | Some (f, t1) => Some (f, Update a, t1)
            end
        | _ =>
            match rp_set_replacement i new t with
            | None => None
            | Some (f, t1) => Some (f, Replace, t1)
            end
        end
      else None
  end.

(** perms % 0o1000 < 0o700 *)
Definition low (p : Z) : bool := p mod 512 <? 448.

(** 2551-2568 end_process_directory *)
Definition rp_end (i : idx) (w : what) (t : tree) : option tree :=
  match w with
  | Update a =>
      match set_attribs root i a t with
      | None => None
      | Some t1 => if negb root && low (a_perms a) then chmod root (Z.lor 448 (a_perms a)) i t1 else Some t1
      end
  | Replace =>
      match rmdir root now i t with
      | None => None
      | Some t1 =>
          match get i (temps t1) with
          | Some _ => rename_temp root now i t1
          | None => Some t1
          end
      end
  end.

(** IterTreeReducer as in M_DirPatch *)
Record prun : Type := mk_prun {
  p_last : option idx;
  p_brs : list (idx * what);
  p_fast : bool;
  p_flags : list flag;
  p_tree : tree }.

Fixpoint rp_finish (i : idx) (brs : list (idx * what)) (t : tree) : option (list (idx * what) * tree) :=
  match brs with
  | [] => Some ([], t)
  | (b, w) :: brs' =>
      if is_prefix b i then Some (brs, t)
      else match rp_end b w t with
           | None => None
           | Some t1 => rp_finish i brs' t1
           end
  end.

Definition rp_call (x : item) (r : prun) : option prun :=
  let i := fst x in
  match p_last r with
  | None =>
      if rp_can_fast x then
        match rp_fast x (p_tree r) with
        | None => None
        | Some (f, t1) => Some (mk_prun (Some i) [] true (p_flags r ++ f) t1)
        end
      else
        match rp_start x (p_tree r) with
        | None => None
        | Some (f, w, t1) => Some (mk_prun (Some i) [(i, w)] false (p_flags r ++ f) t1)
        end
  | Some last =>
      match idx_cmp i last with
      | Eq => Some r
      | Lt => None
      | Gt =>
          match rp_finish i (p_brs r) (p_tree r) with
          | None => None
          | Some ([], _) => None
          | Some (brs, t1) =>
              if rp_can_fast x then
                match rp_fast x t1 with
                | None => None
                | Some (f, t2) => Some (mk_prun (Some i) brs (p_fast r) (p_flags r ++ f) t2)
                end
              else
                match rp_start x t1 with
                | None => None
                | Some (f, w, t2) => Some (mk_prun (Some i) ((i, w) :: brs) (p_fast r) (p_flags r ++ f) t2)
                end
          end
      end
  end.

Fixpoint rp_end_all (brs : list (idx * what)) (t : tree) : option tree :=
  match brs with
  | [] => Some t
  | (b, w) :: brs' => match rp_end b w t with None => None | Some t1 => rp_end_all brs' t1 end
  end.
Definition rp_finish_run (r : prun) : option tree :=
  match p_last r with
  | None => Some (p_tree r)
  | Some _ => if p_fast r then Some (p_tree r) else rp_end_all (p_brs r) (p_tree r)
  end.

Fixpoint rp_items (l : list (item + idx)) (r : prun) : option prun :=
  match l with
  | [] => Some r
  | e :: l' =>
      match filled root e (p_tree r) with
      | None => None
      | Some x => match rp_call x r with None => None | Some r' => rp_items l' r' end
      end
  end.

(** 273-296 apply; [None]: it stops with an exception; else what was told the cache, and the mirror *)
Definition rp_apply (diffs : list item) (t : tree) : option (list flag * tree) :=
  match rp_items (fill_in fst diffs) (mk_prun None [] false [] t) with
  | None => None
  | Some r => match rp_finish_run r with None => None | Some t' => Some (p_flags r, t') end
  end.
End Patch.
