(** * The sizes of mirror and increments (src/rdiffbackup/locations/_repo_shadow.py:1074-1142
    get_increments_sizes).

    Simplifications: what is listed - the files of the mirror without rdiff-backup-data, and the files in the
    increments directory with those of the increments of the path itself - is given with sizes (the listing
    is C17's); the time of the mirror is that of the marker (C06). *)
From Coq Require Import List ZArith Bool Ascii.
From Verif Require Import Base M_IncName.
Import List ListNotations.
Local Open Scope Z_scope.

(** 1083-1088 get_total *)
Definition get_total (sizes : list Z) : Z := fold_left Z.add sizes 0.

(** 1090-1100 get_time_dict: isincfile, getinctime of the name (increment.py:91-107) *)
Definition inc_time (name : bytes) : option Z :=
  match parse_increment_name name with Some (_, _, t, _, _) => Some t | None => None end.
Fixpoint add_size (t s : Z) (d : list (Z * Z)) : list (Z * Z) :=
  match d with
  | [] => [(t, s)]
  | (t', s') :: r => if Z.eqb t t' then (t', s' + s) :: r else (t', s') :: add_size t s r
  end.
Definition get_time_dict (incs : list (bytes * Z)) : list (Z * Z) :=
  fold_left (fun d '(n, s) => match inc_time n with Some t => add_size t s d | None => d end) incs [].

(** Python's sort: stable *)
Section Sort.
Context {A : Type}.
Variable key : A -> Z.
Fixpoint insert_by (x : A) (l : list A) : list A :=
  match l with
  | [] => [x]
  | y :: r => if key x <=? key y then x :: l else y :: insert_by x r
  end.
Fixpoint sort_by (l : list A) : list A := match l with [] => [] | x :: r => insert_by x (sort_by r) end.
End Sort.

Record triple : Type := mk_triple { tr_time : Z; tr_size : Z; tr_total : Z }.
(** 1118-1137 get_summary_triples *)
Fixpoint cumulate (total : Z) (times : list Z) (d : list (Z * Z)) : list triple :=
  match times with
  | [] => []
  | t :: r =>
      let s := match find (fun x => Z.eqb (fst x) t) d with Some x => snd x | None => 0 end in
      mk_triple t s (total + s) :: cumulate (total + s) r d
  end.
Definition summary_triples (mirror_time total : Z) (d : list (Z * Z)) : list triple :=
  mk_triple mirror_time total total :: cumulate total (rev (sort_by (fun t => t) (map fst d))) d.
(** 1139-1142 *)
Definition get_increments_sizes (mirror_time : Z) (mirror : list Z) (incs : list (bytes * Z)) : list triple :=
  sort_by tr_time (summary_triples mirror_time (get_total mirror) (get_time_dict incs)).
