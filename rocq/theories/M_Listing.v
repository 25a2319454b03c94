(** * What `list files` and `list increments` print

    Models src/rdiffbackup/locations/_repo_shadow.py: list_files_changed_since,
    list_files_at_time, get_increments, _get_inc_type, _get_file_type, and
    src/rdiffbackup/actions/list_.py: _list_increments, _list_files_*.

    Not modelled: decoding of the names to text (convert.to_safe_str, which
    replaces bytes which aren't UTF-8), the layout of the dates. *)
From Coq Require Import List ZArith Bool.
From Verif Require Import Base M_Iter M_Core M_MetaMgr.
Import List ListNotations.
Local Open Scope Z_scope.

(** ** Files *)
Section Files.
Context {D : Type}.
(** RORPath.__eq__ of two records of the same path (rpath.py:132-171, M_Rorp) *)
Variable req : D -> D -> bool.

(** _repo_shadow.py:1013-1020: the three words *)
Inductive change := CNew | CDeleted | CChanged.

(** the loop body (_repo_shadow.py:1012-1022): word and path *)
Definition change_step (p : option (idx * option D) * option (idx * option D))
    : list (change * idx) :=
  match p with
  | (None, Some c) => [(CNew, fst c)]
  | (Some o, None) => [(CDeleted, fst o)]
  | (Some o, Some c) =>
      if match snd o, snd c with
         | Some x, Some y => req x y
         | None, None => true
         | _, _ => false
         end
      then [] else [(CChanged, fst o)]
  | (None, None) => []
  end.

(** The session shown: _repo_shadow.py:803-823, 924-945 with the marker found
    (764-800) and the files of the data directory; [root_incs] are the times of
    the increments.<time>.* files. *)
Definition shown_time (r : Z) (root_incs : list Z) (d : @ddir D) : option (Z * Z) :=
  match mirror_time_must d with
  | None => None                      (* FatalError *)
  | Some mt =>
      match set_restore_time r (get_increment_times mt root_incs (map mf_time (mfiles d))) with
      | None => None
      | Some t => Some (t, mt)
      end
  end.

(** _repo_shadow.py:996-1024 list_files_changed_since for the path [p] of the
    repository.  [None]: FatalError or exception.  An empty iterator is not the
    same as none: generators are always true. *)
Definition list_changed (r : Z) (root_incs : list Z) (p : idx) (d : @ddir D)
    : option (list (change * idx)) :=
  match shown_time r root_incs d with
  | None => None
  | Some (t, mt) =>
      match meta_at_time t p (mfiles d), meta_at_time mt p (mfiles d) with
      | RdOk old, RdOk cur => Some (flat_map change_step (collate2 fst fst old cur))
      | _, _ => None
      end
  end.

(** _repo_shadow.py:1026-1041 list_files_at_time; no selection is set for list.
    Simplification: the fallback to the file system when there is no metadata
    (860-864) is not modelled. *)
Definition list_at (r : Z) (root_incs : list Z) (p : idx) (d : @ddir D) : option (list idx) :=
  match shown_time r root_incs d with
  | None => None
  | Some (t, _) =>
      match meta_at_time t p (mfiles d) with
      | RdOk l => Some (map fst l)
      | _ => None
      end
  end.

(** "%-7s %s" (_repo_shadow.py:1023) and get_indexpath (rpath.py:410-418), as
    bytes.  Simplification: path_join of the components is joining with "/". *)
Definition change_word (c : change) : bytes :=
  match c with CNew => bs "new    " | CDeleted => bs "deleted" | CChanged => bs "changed" end.
Fixpoint join_slash (i : idx) : bytes :=
  match i with
  | [] => []
  | [x] => x
  | x :: i' => x ++ bs "/" ++ join_slash i'
  end.
Definition indexpath (i : idx) : bytes := match i with [] => bs "." | _ => join_slash i end.
Definition change_line (x : change * idx) : bytes :=
  change_word (fst x) ++ bs " " ++ indexpath (snd x).
End Files.

(** ** Increments of a path *)
Inductive ftype := TMissing | TDirectory | TRegular | TSpecial.

(** _repo_shadow.py:2154-2164 _get_file_type *)
Definition file_type {attr} (n : node attr) : ftype :=
  match n with
  | Absent => TMissing
  | Dir _ => TDirectory
  | Reg _ _ => TRegular
  | Spec _ _ => TSpecial
  end.

(** _repo_shadow.py:2136-2152 _get_inc_type; the fifth case, an unknown type, is
    not in the model *)
Definition inc_type {attr} (i : inc attr) : ftype :=
  match i with
  | IDir => TDirectory
  | IDiff _ => TRegular
  | IMissing => TMissing
  | ISnap n => file_type n
  end.

(** sorted(incs, key=time), stable (1070) *)
Fixpoint tinsert {A} (x : Z * A) (l : list (Z * A)) : list (Z * A) :=
  match l with
  | [] => [x]
  | y :: l' => if fst x <=? fst y then x :: l else y :: tinsert x l'
  end.
Fixpoint tsort {A} (l : list (Z * A)) : list (Z * A) :=
  match l with [] => [] | x :: l' => tinsert x (tsort l') end.

(** _repo_shadow.py:1043-1070 get_increments: times and types; the field "base"
    (the file's name) is left out. *)
Definition get_increments {attr} (ps : @pstate attr) : option (list (Z * ftype)) :=
  match last_time ps with
  | None => None                        (* FatalError *)
  | Some mt =>
      Some (tsort (map (fun x => (fst x, inc_type (snd x))) (incs ps)
                   ++ [(mt, file_type (mirror ps))]))
  end.

(** list_.py:181-205: the number announced and the entries printed as increments;
    the last entry is printed as the current mirror *)
Definition printed_increments {A} (l : list (Z * A)) : nat * list (Z * A) * option (Z * A) :=
  ((length l - 1)%nat, removelast l, hd_error (rev l)).
