(** * The sessions used by "calculate statistics"

    src/rdiffbackup/locations/_repo_shadow.py:1148-1202, src/rdiffbackup/actions/calculate.py:143-171.
    Reading a file is a parameter: [read_s] gives the attributes of a session_statistics file,
    [read_f] the lines of a file_statistics file (uncompressed). *)
From Coq Require Import List ZArith QArith Qround Bool Ascii.
From Verif Require Import Base M_IncName M_Iter M_Meta M_Stats M_Average M_FileStats.
Import List ListNotations.
Local Open Scope Z_scope.

(** increment.py:51-53 sorted(inc_list, key=inc_time): stable *)
Fixpoint by_time_insert (x : bytes * Z) (l : list (bytes * Z)) : list (bytes * Z) :=
  match l with
  | [] => [x]
  | y :: r => if snd x <=? snd y then x :: l else y :: by_time_insert x r
  end.
Definition by_time (l : list (bytes * Z)) : list (bytes * Z) := fold_right by_time_insert [] l.

(** 1168-1173: a dictionary from times to increments, a later entry replaces an earlier one *)
Definition at_time (t : Z) (l : list (bytes * Z)) : option bytes :=
  option_map fst (find (fun x => snd x =? t) (rev l)).
(** the keys of such a dictionary, sorted (1175) *)
Fixpoint key_insert (t : Z) (l : list Z) : list Z :=
  match l with
  | [] => [t]
  | u :: r => if t <? u then t :: l else if t =? u then l else u :: key_insert t r
  end.
Definition keys (l : list (bytes * Z)) : list Z := fold_right key_insert [] (map snd l).
(** 1166-1178 _get_combined_pairs *)
Definition combined_pairs (l1 l2 : list (bytes * Z)) : list (bytes * bytes) :=
  flat_map (fun t => match at_time t l1, at_time t l2 with Some a, Some b => [(a, b)] | _, _ => [] end) (keys l1).

(** 1180-1187 _get_session_average: the cutoffs; [None]: an assertion of get_cutoff fails *)
Definition cutoffs (ratio : Q) (ss : list attrs) : option (list (Q * Q * Q)) :=
  option_all (map (get_cutoff ratio) ss).
(** fstats.py:250 FileStat((), *cutoff): counts are whole numbers, so being at least the cutoff
    is being at least its ceiling *)
Definition cut_stat (c : Q * Q * Q) : fstat :=
  let '(a, b, i) := c in mk_fstat [] (Qceiling a) (Qceiling b) (Qceiling i).
Definition cut_add (a b : Q * Q * Q) : Q * Q * Q :=
  let '(x, y, z) := a in let '(x', y', z') := b in (x + x', y + y', z + z')%Q.
(** fstats.py:265-275 __iadd__, __add__ *)
Definition tree_add (a : option ((Q * Q * Q) * ftree)) (b : (Q * Q * Q) * ftree) : option ((Q * Q * Q) * ftree) :=
  match a with
  | Some (c, t) => option_map (fun m => (cut_add c (fst b), m)) (merge_trees t (snd b))
  | None => None
  end.
(** 1189-1202 _get_files_sum: sum(file_stats[1:], file_stats[0]) *)
Definition files_sum (l : list (list bytes)) (cs : list (Q * Q * Q)) : option ((Q * Q * Q) * ftree) :=
  match option_all (map (fun lc => option_map (fun t => (snd lc, t)) (make_tree (cut_stat (snd lc)) (fst lc))) (combine l cs)) with
  | Some (x :: r) => fold_left tree_add r (Some x)
  | _ => None
  end.

Inductive stats_result :=
| NoSession
| StatsFailed
| Statistics (average : averages) (count : nat) (files : (Q * Q * Q) * ftree).

(** 1148-1164 get_statistics; [names]: the rdiff-backup-data directory *)
Definition get_statistics (ratio : Q) (read_s : bytes -> attrs) (read_f : bytes -> list bytes)
    (begin end_ : option Z) (names : list bytes) : stats_result :=
  let ss := by_time (incfiles_list (bs "session_statistics") begin end_ names) in
  let fs := by_time (incfiles_list (bs "file_statistics") begin end_ names) in
  match combined_pairs ss fs with
  | [] => NoSession
  | common =>
      let sess := map (fun x => read_s (fst x)) common in
      match cutoffs ratio sess with
      | None => StatsFailed
      | Some cs =>
          match files_sum (map (fun x => read_f (snd x)) common) cs with
          | Some f => Statistics (calc_average sess) (length sess) f
          | None => StatsFailed
          end
      end
  end.

(** calculate.py:143-171; an exception ends the action with 1 *)
Definition calculate_code (r : stats_result) : Z :=
  match r with NoSession => 2 | StatsFailed => 1 | Statistics _ _ _ => 0 end.
