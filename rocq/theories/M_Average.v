(** * Averages of session statistics, sizes for humans

    src/rdiffbackup/singletons/sstats.py:152-195 calc_average, get_cutoff;
    src/rdiffbackup/actions/calculate.py:128-142; src/rdiffbackup/utils/convert.py:26-86.

    Numbers are exact (rational): floats of Python are, up to 2^53 and their rounding. *)
From Coq Require Import List ZArith NArith QArith Bool Ascii.
From Verif Require Import Base M_Stats.
Import List ListNotations.

(** ** convert.py:54-86 to_human_size_str *)
(** 26-36 BYTES_ABBREVS *)
Definition units : list bytes :=
  [bs "B"; bs "KiB"; bs "MiB"; bs "GiB"; bs "TiB"; bs "PiB"; bs "EiB"; bs "ZiB"; bs "YiB"].
(** 70-75: while bytes_num >= 1024 and bytes_log < 8; the size is divided by 1024^k *)
Fixpoint log_loop (fuel : nat) (n k : N) : N :=
  match fuel with
  | O => k
  | S fuel' => if (1024 * 1024 ^ k <=? n)%N && (k <? 8)%N then log_loop fuel' n (k + 1) else k
  end.
(** 77-84: the precision *)
Definition precision (n k : N) : N :=
  if (100 * 1024 ^ k <=? n)%N then 0 else if (10 * 1024 ^ k <=? n)%N then 1 else 2.
(** "{:.{p}f}": rounded to the nearest, half to even *)
Definition round_half_even (a b : N) : N :=
  let q := (a / b)%N in let r := (a mod b)%N in
  if (2 * r <? b)%N then q else if (b <? 2 * r)%N then (q + 1)%N else if N.even q then q else (q + 1)%N.
(** digits, number of digits after the point, unit *)
Definition human_parts (n : N) : N * N * N :=
  if (n <? 1024)%N then (n, 0, 0)%N
  else let k := log_loop 8 n 1 in let p := precision n k in
       (round_half_even (n * 10 ^ p) (1024 ^ k), p, k).
Definition to_human_size_str (z : Z) : bytes :=
  let '(m, p, k) := human_parts (Z.abs_N z) in
  (if (z <? 0)%Z then bs "-" else []) ++ dec (m / 10 ^ p) ++
  (if (p =? 0)%N then [] else bs "." ++ dec_pad (N.to_nat p) (m mod 10 ^ p)) ++
  bs " " ++ nth (N.to_nat k) units [].

(** ** sstats.py:152-176 calc_average *)
Definition value (v : num) : Q := to_cents v # 100.
Definition add_attr (acc : option Q) (v : option num) : option Q :=
  match v, acc with
  | None, _ => None
  | Some x, Some s => Some (value x + s)
  | Some _, None => None
  end.
Definition averages := bytes -> option Q.
Definition calc_average (l : list attrs) : averages := fun a =>
  if beq_bytes a (bs "StartTime") || beq_bytes a (bs "EndTime") then None
  else match fold_left add_attr (map (fun o => o a) l) (Some 0) with
       | Some s => Some (s / inject_Z (Z.of_nat (length l)))
       | None => None
       end.
(** 197-216 of the averages *)
Definition average_change (o : averages) : option Q :=
  match o (bs "NewFileSize"), o (bs "ChangedSourceSize"), o (bs "IncrementFileSize"),
        o (bs "DeletedFileSize"), o (bs "ChangedMirrorSize") with
  | Some n, Some s, Some i, Some d, Some m => Some (n + s + i - (d + m))
  | _, _, _, _, _ => None
  end.
(** int() of a float *)
Definition trunc (q : Q) : Z := Z.quot (Qnum q) (Zpos (Qden q)).
(** 246-295: what is shown; times are shown with two digits, sizes also for humans (not
    repeated here), errors as a whole number (292-294, "%d") *)
Definition shown (o : averages) : list (bytes * Q) :=
  (match o (bs "ElapsedTime") with Some v => [(bs "ElapsedTime", v)] | None => [] end) ++
  flat_map (fun a => match o a with Some v => [(a, v)] | None => [] end) file_attrs ++
  (match average_change o with Some v => [(bs "TotalDestinationSizeChange", v)] | None => [] end) ++
  (match o (bs "Errors") with Some v => [(bs "Errors", inject_Z (trunc v))] | None => [] end).

(** 178-195 get_cutoff: changed files, source size, increment size; [None]: assertion *)
Definition get_cutoff (ratio : Q) (o : attrs) : option (Q * Q * Q) :=
  match o (bs "NewFiles"), o (bs "ChangedFiles"), o (bs "NewFiles"), o (bs "SourceFileSize"), o (bs "IncrementFileSize") with
  | Some n, Some c, Some n', Some s, Some i =>
      Some (ratio * (value n + value c + value n'), ratio * value s, ratio * value i)
  | _, _, _, _, _ => None
  end.
