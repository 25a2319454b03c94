(** * Session statistics (src/rdiffbackup/singletons/sstats.py)

    An object is a map from attribute names to values.  Simplifications: floats are only
    modelled as far as they occur: whole numbers, and times with two digits; time.time() is
    taken as rounded to 1/100 s, which is how it is written; the texts in parentheses
    (convert.to_human_size_str, Time.timetopretty, Time.inttopretty) are parameters. *)
From Coq Require Import List ZArith Bool Ascii.
From Verif Require Import Base M_Iter M_CCPP.
Import List ListNotations.
Local Open Scope Z_scope.

(** a Python number: whole, or (a float) hundredths which are not whole *)
Inductive num : Type := Whole (z : Z) | Cents (c : Z).
Definition to_cents (v : num) : Z := match v with Whole z => z * 100 | Cents c => c end.
Definition of_cents (c : Z) : num := if Z.rem c 100 =? 0 then Whole (Z.quot c 100) else Cents c.

Definition attrs := bytes -> option num.
Definition no_attrs : attrs := fun _ => None.
Definition upd (a : bytes) (v : option num) (o : attrs) : attrs := fun b => if beq_bytes a b then v else o b.

(** 75-131 the attributes *)
Definition file_pairs : list (bytes * bool) :=
  [ (bs "SourceFiles", false); (bs "SourceFileSize", true);
    (bs "MirrorFiles", false); (bs "MirrorFileSize", true);
    (bs "NewFiles", false); (bs "NewFileSize", true);
    (bs "DeletedFiles", false); (bs "DeletedFileSize", true);
    (bs "ChangedFiles", false); (bs "ChangedSourceSize", true);
    (bs "ChangedMirrorSize", true);
    (bs "IncrementFiles", false); (bs "IncrementFileSize", true) ].
Definition file_attrs : list bytes := map fst file_pairs.
Definition time_attrs : list bytes := [bs "StartTime"; bs "EndTime"; bs "ElapsedTime"].
Definition misc_attrs : list bytes := [bs "Errors"; bs "TotalDestinationSizeChange"].
Definition stat_attrs : list bytes := time_attrs ++ misc_attrs ++ file_attrs.

(** 336-345 SessionStatsTracker.__init__ *)
Definition tracker (start : num) : attrs :=
  upd (bs "Errors") (Some (Whole 0)) (upd (bs "StartTime") (Some start)
    (fold_left (fun o a => upd a (Some (Whole 0)) o) file_attrs no_attrs)).
(** [self.X += n]; TypeError on None isn't modelled: a tracker has all of them *)
Definition incr (a : bytes) (n : Z) (o : attrs) : attrs :=
  match o a with Some (Whole z) => upd a (Some (Whole (z + n))) o | _ => o end.
Definition reg_size (r : crorp) : Z := if q_reg r then q_size r else 0.
(** 347-357 *)
Definition add_source_file (r : crorp) (o : attrs) : attrs := incr (bs "SourceFileSize") (reg_size r) (incr (bs "SourceFiles") 1 o).
Definition add_dest_file (r : crorp) (o : attrs) : attrs := incr (bs "MirrorFileSize") (reg_size r) (incr (bs "MirrorFiles") 1 o).
(** 359-374 *)
Definition add_changed (s d : option crorp) (o : attrs) : attrs :=
  match s, d with
  | Some s, Some d =>
      if q_there s && q_there d
      then incr (bs "ChangedMirrorSize") (reg_size d) (incr (bs "ChangedSourceSize") (reg_size s) (incr (bs "ChangedFiles") 1 o))
      else if q_there s then incr (bs "NewFileSize") (reg_size s) (incr (bs "NewFiles") 1 o)
      else if q_there d then incr (bs "DeletedFileSize") (reg_size d) (incr (bs "DeletedFiles") 1 o)
      else o
  | Some s, None => if q_there s then incr (bs "NewFileSize") (reg_size s) (incr (bs "NewFiles") 1 o) else o
  | None, Some d => if q_there d then incr (bs "DeletedFileSize") (reg_size d) (incr (bs "DeletedFiles") 1 o) else o
  | None, None => o
  end.
(** 376-392 *)
Definition add_increment (r : crorp) (o : attrs) : attrs := incr (bs "IncrementFileSize") (reg_size r) (incr (bs "IncrementFiles") 1 o).
Definition add_error (o : attrs) : attrs := incr (bs "Errors") 1 o.
(** 394-400 finish *)
Definition finish (end_time : num) (o : attrs) : attrs := upd (bs "EndTime") (Some end_time) o.

(** what happens to the statistics during a backup: what comes from the cache (M_CCPP),
    increments (increment.py:153) and errors (robust.py:114) *)
Inductive sevent : Type := FromCache (e : event) | Increment (r : crorp) | Error.
Definition sstep (o : attrs) (e : sevent) : attrs :=
  match e with
  | FromCache (StatSource r) => add_source_file r o
  | FromCache (StatDest r) => add_dest_file r o
  | FromCache (StatChanged s d) => add_changed s d o
  | FromCache _ => o
  | Increment r => add_increment r o
  | Error => add_error o
  end.
Definition session (start : num) (l : list sevent) : attrs := fold_left sstep l (tracker start).

(** ** As a string *)
Section Strings.
Variable human : Z -> bytes.      (* convert.to_human_size_str *)
Variable pretty : num -> bytes.   (* Time.timetopretty *)
Variable ipretty : num -> bytes.  (* Time.inttopretty *)

(** "%.2f" *)
Definition fmt2 (c : Z) : bytes :=
  (if c <? 0 then bs "-" else []) ++ dec (Z.to_N (Z.abs c / 100)) ++ bs "." ++ dec_pad 2 (Z.to_N (Z.abs c mod 100)).
(** "%s" of a number *)
Definition str_num (v : num) : bytes := match v with Whole z => dec_Z z | Cents c => fmt2 c end.
Definition int_num (v : num) : Z := match v with Whole z => z | Cents c => Z.quot c 100 end.

Definition sp : bytes := bs " ".
Definition paren (s : bytes) : bytes := bs " (" ++ s ++ bs ")".
Definition time_line (a : bytes) (v : num) (s : bytes) : bytes := a ++ sp ++ fmt2 (to_cents v) ++ paren s ++ [nl].
Definition sub_num (a b : num) : num := of_cents (to_cents a - to_cents b).
(** 246-266: the object is changed, too *)
Definition elapsed (o : attrs) : option num :=
  match o (bs "ElapsedTime"), o (bs "StartTime"), o (bs "EndTime") with
  | Some v, _, _ => Some v
  | None, Some s, Some e => Some (sub_num e s)
  | None, _, _ => None
  end.
Definition time_string (o : attrs) : bytes :=
  match o (bs "StartTime") with Some v => time_line (bs "StartTime") v (pretty v) | None => [] end ++
  match o (bs "EndTime") with Some v => time_line (bs "EndTime") v (pretty v) | None => [] end ++
  match elapsed o with Some v => time_line (bs "ElapsedTime") v (ipretty v) | None => [] end.
(** 268-282 *)
Definition file_line (o : attrs) (p : bytes * bool) : bytes :=
  match o (fst p) with
  | None => []
  | Some v => if snd p then fst p ++ sp ++ str_num v ++ paren (human (int_num v)) ++ [nl]
              else fst p ++ sp ++ str_num v ++ [nl]
  end.
Definition file_string (o : attrs) : bytes := concat (map (file_line o) file_pairs).
(** 197-216 *)
Definition add_num (a b : num) : num := of_cents (to_cents a + to_cents b).
Definition total_change (o : attrs) : option num :=
  match o (bs "NewFileSize"), o (bs "ChangedSourceSize"), o (bs "IncrementFileSize"),
        o (bs "DeletedFileSize"), o (bs "ChangedMirrorSize") with
  | Some n, Some s, Some i, Some d, Some m =>
      Some (sub_num (add_num (add_num n s) i) (add_num d m))
  | _, _, _, _, _ => None
  end.
(** 284-295 *)
Definition misc_string (o : attrs) : bytes :=
  match total_change o with
  | Some v => bs "TotalDestinationSizeChange" ++ sp ++ str_num v ++ paren (human (int_num v)) ++ [nl]
  | None => []
  end ++
  match o (bs "Errors") with
  | Some v => bs "Errors" ++ sp ++ dec_Z (int_num v) ++ [nl]
  | None => []
  end.
(** 238-244 *)
Definition stats_string (o : attrs) : bytes := time_string o ++ file_string o ++ misc_string o.
End Strings.

(** ** Reading *)
(** str.split() *)
Definition is_space (c : ascii) : bool :=
  let n := N_of_ascii c in ((9 <=? n) && (n <=? 13) || (28 <=? n) && (n <=? 32))%N.
Fixpoint words_from (cur : bytes) (s : bytes) : list bytes :=
  match s with
  | [] => match cur with [] => [] | _ => [rev cur] end
  | c :: r => if is_space c then match cur with [] => words_from [] r | _ => rev cur :: words_from [] r end
              else words_from (c :: cur) r
  end.
Definition words (s : bytes) : list bytes := words_from [] s.
(** the double next to a whole number (half to even) *)
Definition to_double (n : Z) : Z :=
  let a := Z.abs n in
  if a <=? 2 ^ 53 then n
  else let u := 2 ^ (Z.log2 a - 52) in
       let q := a / u in let r := a mod u in
       let q' := if (2 * r <? u) || ((2 * r =? u) && Z.even q) then q else q + 1 in
       Z.sgn n * (q' * u).
(** float(s), then an int if whole.  Only the notations [-]ddd and [-]ddd.dd are modelled,
    anything else is an error (float() accepts more) *)
Definition split_sign (a : bytes) : bool * bytes :=
  match a with c :: r => if Ascii.eqb c (chr 45) then (true, r) else (false, a) | [] => (false, a) end.
Definition parse_num (s : bytes) : option num :=
  match break_on (chr 46) s with
  | (a, None) => option_map (fun z => Whole (to_double z)) (parse_Z a)
  | (a, Some f) =>
      let '(neg, d) := split_sign a in
      if Nat.eqb (length f) 2
      then match parse_N d, parse_N f with
           | Some n, Some m =>
               let c := Z.of_N n * 100 + Z.of_N m in
               match of_cents (if neg then - c else c) with
               | Whole z => Some (Whole (to_double z))
               | Cents c => Some (Cents c)
               end
           | _, _ => None
           end
      else None
  end.
Definition mem_attr (a : bytes) : bool := existsb (beq_bytes a) stat_attrs.
(** 297-320 _set_stats_from_string.  [None]: StatsException *)
Definition read_line (line : bytes) (o : attrs) : option attrs :=
  match line with
  | [] => Some o
  | _ => match words line with
         | a :: v :: _ => if mem_attr a then match parse_num v with Some n => Some (upd a (Some n) o) | None => None end else None
         | _ => None
         end
  end.
Fixpoint read_lines (ls : list bytes) (o : attrs) : option attrs :=
  match ls with
  | [] => Some o
  | l :: r => match read_line l o with Some o' => read_lines r o' | None => None end
  end.
Definition read_string (s : bytes) : option attrs := read_lines (split_on nl s) no_attrs.
