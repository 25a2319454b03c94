(** * Which repository a path given by the user belongs to.

    /repo/src/rdiffbackup/locations/_repo_shadow.py:447-522 (_get_repository_dirs),
    with RPath.normalize, dirsplit and get_parent_rp (rpath.py:990-1040),
    get_path_as_list (rpath.py:1324-1328) and StoredRPath.isincfile
    (increment.py:55-80).

    Simplified: an RPath is its path (the locations of the command line have no
    index, SetConnections.py:116); the directory listing of a path is a parameter
    ([None]: nothing there, or not a directory); messages to the log are left out. *)
From Coq Require Import List ZArith Bool Ascii Arith.
From Verif Require Import Base M_Time M_IncName M_Security.
Import List ListNotations.

Definition data_name : bytes := bs "rdiff-backup-data".
Definition incs_name : bytes := bs "increments".

(** list.index: the first place of an element *)
Fixpoint index_of (x : bytes) (l : list bytes) : option nat :=
  match l with
  | [] => None
  | y :: r => if beq_bytes y x then Some 0%nat
              else match index_of x r with Some n => Some (S n) | None => None end
  end.

(** rpath.py:1011-1027 RORPath.dirsplit: the name of the directory *)
Definition dirname (p : bytes) : bytes :=
  let normed := normalize p in
  if mem_byte slash normed then join_with [slash] (removelast (split_on slash normed))
  else M_Security.dot.
(** rpath.py:1029-1037 RPath.get_parent_rp, without index *)
Definition get_parent (p : bytes) : bytes :=
  match dirname p with [] => [slash] | d => d end.

(** the result: the base directory and the index in it, for the types 'base',
    'subpath' and 'inc' (with the time of the increment, inc_time, which
    restore.py:171 takes), or None as type *)
Inductive found : Type :=
| FBase (base : bytes)
| FSub (base : bytes) (index : list bytes)
| FInc (base : bytes) (index : list bytes) (time : Z)
| FNone.

Section Listing.
Variable listing : bytes -> option (list bytes).

(** 501-505 and 511-515: it is there, a directory, and lists rdiff-backup-data *)
Definition has_data (p : bytes) : bool :=
  match listing p with Some l => existsb (beq_bytes data_name) l | None => false end.

(** 508-516: the loop over the parents; [n] elements to go *)
Fixpoint search (n element : nat) (parent : bytes) (path_list : list bytes) : found :=
  match n with
  | O => FNone
  | S n' =>
      let parent := get_parent parent in
      if has_data parent then FSub parent (skipn (List.length path_list - element) path_list)
      else search n' (S element) parent path_list
  end.

(** 474-485: where "increments" is in the path, and the index *)
Definition inc_place (path_list : list bytes) (inc_basestr : bytes) : option (nat * list bytes) :=
  match index_of incs_name path_list with
  | Some inc_idx =>
      Some (inc_idx, removelast (skipn (inc_idx + 1) path_list)
                     ++ [last (split_on slash inc_basestr) []])
  | None =>
      if starts_with (bs "increments.") (last path_list [])
      then Some (List.length path_list - 1, [])%nat else None
  end.

(** 447-522 _get_repository_dirs *)
Definition repo_dirs (path : bytes) : found :=
  let path_list := split_on slash path in
  match parse_increment_name path with
  | Some (_, _, inc_time, _, inc_basestr) =>
      match index_of data_name path_list with
      | None => FNone
      | Some data_idx =>
          match inc_place path_list inc_basestr with
          | Some (inc_idx, base_index) =>
              if (inc_idx =? data_idx + 1)%nat
              then FInc (join_with [slash] (firstn data_idx path_list)) base_index inc_time
              else FNone
          | None => FNone
          end
      end
  | None =>
      if has_data path then FBase path
      else search (List.length path_list - 1) 1 path path_list
  end.
End Listing.

(** SetConnections.py:116: the location is normalised first *)
Definition locate (listing : bytes -> option (list bytes)) (location : bytes) : found :=
  repo_dirs listing (normalize location).
