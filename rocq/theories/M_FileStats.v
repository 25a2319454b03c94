(** * File statistics: writing and reading of lines (src/rdiffbackup/utils/buffer.py), the
    lines (src/rdiffbackup/singletons/fstats.py:80-140) and the tree of directories made of
    them (fstats.py:150-420), used by `rdiff-backup calculate`. *)
From Coq Require Import List ZArith Bool Ascii.
From Verif Require Import Base M_Quoting M_Iter M_Rorp M_Meta M_CCPP.
Import List ListNotations.
Local Open Scope Z_scope.

(** ** LinesBuffer, writing (buffer.py:55-71): [write] and [close].  State: what is in the
    file, the lines in the buffer *)
Definition flush_lines (sep : ascii) (st : bytes * list bytes) : bytes * list bytes :=
  match snd st with
  | [] => st
  | b => (fst st ++ join_with [sep] b ++ [sep], [])
  end.
Definition write_line (max_lines : nat) (sep : ascii) (st : bytes * list bytes) (l : bytes) : bytes * list bytes :=
  let b := snd st ++ [l] in
  if Nat.leb max_lines (length b) then flush_lines sep (fst st, b) else (fst st, b).
Definition write_all (max_lines : nat) (sep : ascii) (ls : list bytes) : bytes :=
  fst (flush_lines sep (fold_left (write_line max_lines sep) ls ([], []))).

(** ** LinesBuffer, reading (buffer.py:48-54, 73-90): the blocks returned by read(), none of
    them empty; all lines yielded *)
Definition glue (rest : bytes) (l : list bytes) : list bytes := match l with x :: xs => (rest ++ x) :: xs | [] => [rest] end.
Fixpoint read_blocks (sep : ascii) (rest : bytes) (blocks : list bytes) : list bytes :=
  match blocks with
  | [] => match rest with [] => [] | _ => [rest] end
  | b :: r =>
      let split := glue rest (split_on sep b) in
      removelast split ++ read_blocks sep (last split []) r
  end.

(** ** The lines (fstats.py:95-136) *)
Definition size_text (o : option crorp) : bytes :=
  match o with
  | None => bs "NA"
  | Some r => if q_reg r then dec_Z (q_size r) else bs "0"
  end.
Definition stat_line (i : idx) (changed : bool) (src dst inc : option crorp) : bytes :=
  join_with (bs " ") [quote_path (index_path i); if changed then bs "1" else bs "0"; size_text src; size_text dst; size_text inc].
Definition header : list bytes :=
  [bs "# Format of each line in file statistics file:"; bs "# Filename Changed SourceSize MirrorSize IncrementSize"].

(** FileStat (147-222) without children *)
Record fstat : Type := mk_fstat { f_name : idx; f_changed : Z; f_src : Z; f_inc : Z }.

(** _yield_fs_objs (367-406).  The regular expression
    wants a name (anything without newline), a number and three sizes (a number or NA),
    separated by spaces: the last four fields, as none of them has a space; a line has no
    separator anymore *)
Definition is_num (s : bytes) : bool := match s with [] => false | _ => forallb is_digit s end.
Definition is_size (s : bytes) : bool := is_num s || beq_bytes s (bs "NA").
Definition num_of (s : bytes) : Z := match parse_N s with Some n => Z.of_N n | None => 0 end.
Definition size_of (s : bytes) : Z := if beq_bytes s (bs "NA") then 0 else num_of s.
Definition parse_stat (line : bytes) : option fstat :=
  match rev (split_on (chr 32) line) with
  | inc :: mir :: src :: ch :: n :: rest =>
      let name := join_with (bs " ") (rev (n :: rest)) in
      if is_num ch && is_size src && is_size mir && is_size inc && negb (mem_byte nl name)
      then Some (mk_fstat (if beq_bytes name (bs ".") then [] else split_on (chr 47) name)
                          (num_of ch) (size_of src) (size_of inc))
      else None
  | _ => None
  end.
Definition yield_fs (lines : list bytes) : list fstat :=
  flat_map (fun l => if starts_with (bs "#") l then [] else match parse_stat l with Some f => [f] | None => [] end) lines.

(** ** Trees: a FileStat with its children *)
Inductive ftree : Type := FNode (f : fstat) (children : list ftree).
Definition root_of (t : ftree) : fstat := match t with FNode f _ => f end.
Definition kids (t : ftree) : list ftree := match t with FNode _ c => c end.

(** 174-184 is_child, is_brother *)
Definition is_child (x parent : fstat) : bool :=
  match f_name x with [] => false | n => idx_eqb (removelast n) (f_name parent) end.
Definition is_brother (x y : fstat) : bool :=
  match f_name x, f_name y with [], _ | _, [] => false | n, m => idx_eqb (removelast n) (removelast m) end.
(** 210-222 *)
Definition fs_add (x y : fstat) : fstat := mk_fstat (f_name x) (f_changed x + f_changed y) (f_src x + f_src y) (f_inc x + f_inc y).
Definition fs_sub (x y : fstat) : fstat := mk_fstat (f_name x) (f_changed x - f_changed y) (f_src x - f_src y) (f_inc x - f_inc y).
(** 202-208 [>=] *)
Definition fs_ge (x c : fstat) : bool := (f_changed c <=? f_changed x) || (f_src c <=? f_src x) || (f_inc c <=? f_inc x).

(** _accumulate_fs (408-452).  The stack has its top first; [fuel]: each round pushes or
    pops an object *)
Fixpoint acc_loop (fuel : nat) (stack : list fstat) (it : list fstat) : list fstat :=
  match fuel, stack with
  | S n, top :: below =>
      match it with
      | x :: it' => if is_child x top then acc_loop n (x :: stack) it' else
          top :: match below with [] => [] | t2 :: b => acc_loop n (fs_add t2 top :: b) it end
      | [] => top :: match below with [] => [] | t2 :: b => acc_loop n (fs_add t2 top :: b) it end
      end
  | _, _ => []
  end.
(** [None]: no root (StopIteration, RuntimeError) *)
Definition accumulate (l : list fstat) : option (list fstat) :=
  match l with
  | [] => None
  | r :: it => match f_name r with
               | [] => Some (acc_loop (2 * length l) [r] it)
               | _ => None
               end
  end.

(** _make_tree_one_level (468-500), after its first next(); objects have no children at first.  [None]: StopIteration *)
Fixpoint level_loop (fuel : nat) (children : list ftree) (first : fstat) (fs : ftree) (it : list fstat) : option (ftree * list fstat) :=
  match fuel with
  | O => None
  | S n =>
      if is_child first (root_of fs) then Some (FNode (root_of fs) children, it)
      else match it with
           | [] => None
           | x :: it' =>
               if is_brother first (root_of fs) then level_loop n (children ++ [fs]) first (FNode x []) it'
               else match level_loop n [fs] (root_of fs) (FNode x []) it' with
                    | None => None
                    | Some (fs2, it2) => level_loop n children first fs2 it2
                    end
           end
  end.
Definition make_level (fs : ftree) (it : list fstat) : option (ftree * list fstat) :=
  match it with
  | [] => None
  | x :: it' => level_loop (S (length it)) [fs] (root_of fs) (FNode x []) it'
  end.
(** _make_root_tree (454-466) *)
Fixpoint root_loop (fuel : nat) (fs : ftree) (it : list fstat) : option ftree :=
  match f_name (root_of fs) with
  | [] => Some fs
  | _ => match fuel with
         | O => None
         | S n => match make_level fs it with Some (fs', it') => root_loop n fs' it' | None => None end
         end
  end.
Definition make_root (l : list fstat) : option ftree :=
  match l with [] => None | x :: it => root_loop (length l) (FNode x []) it end.

(** FileStatsTree.make (237-263).  [None]: an error *)
Definition make_tree (cutoff : fstat) (lines : list bytes) : option ftree :=
  match accumulate (yield_fs lines) with
  | Some l => make_root (filter (fun x => fs_ge x cutoff) l)
  | None => None
  end.

(** merge_tree (277-312).  [None]: RuntimeError.  Children with the same name occur once
    in a tree; [fuel]: the depth *)
Definition get_kid (n : idx) (l : list ftree) : option ftree := find (fun t => idx_eqb (f_name (root_of t)) n) l.
Fixpoint option_all {T} (l : list (option T)) : option (list T) :=
  match l with
  | [] => Some []
  | Some x :: r => option_map (cons x) (option_all r)
  | None :: _ => None
  end.
Fixpoint merge (fuel : nat) (my other : ftree) : option ftree :=
  match fuel with
  | O => None
  | S n =>
      if idx_eqb (f_name (root_of my)) (f_name (root_of other)) then
        let my0 := fold_left (fun f c => fs_sub f (root_of c)) (kids my) (root_of my) in
        let other0 := fold_left (fun f c => fs_sub f (root_of c)) (kids other) (root_of other) in
        let mine := map (fun c => match get_kid (f_name (root_of c)) (kids other) with
                                  | Some o => merge n c o | None => Some c end) (kids my) in
        let others := filter (fun c => match get_kid (f_name (root_of c)) (kids my) with Some _ => false | None => true end) (kids other) in
        match option_all mine with
        | Some m =>
            let cs := m ++ others in
            Some (FNode (fs_add (fold_left (fun f c => fs_add f (root_of c)) cs my0) other0) cs)
        | None => None
        end
      else None
  end.

Fixpoint height (t : ftree) : nat := match t with FNode _ cs => S (fold_right (fun c m => Nat.max (height c) m) O cs) end.
Definition merge_trees (my other : ftree) : option ftree := merge (height my) my other.

(** get_top_fs (314-346) *)
Fixpoint top_helper (v : fstat -> Z) (cut : Z) (t : ftree) : list (fstat * Z) * Z :=
  match t with
  | FNode f cs =>
      if v f <=? cut then ([], 0)
      else
        let rs := map (top_helper v cut) cs in
        let top := concat (map fst rs) in
        let excluded := fold_left Z.add (map snd rs) 0 in
        let cur := v f - excluded in
        if cut <=? cur then ((f, cur) :: top, v f) else (top, excluded)
  end.
Definition get_top (v : fstat -> Z) (cutoff : fstat) (t : ftree) : list (fstat * Z) := fst (top_helper v (v cutoff) t).
