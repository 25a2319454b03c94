(** * Trees of file statistics (specification for C42) *)
From Coq Require Import List ZArith Bool Ascii.
From Verif Require Import Base M_Quoting M_Iter M_Rorp M_Meta S_Meta M_CCPP M_FileStats.
Import List ListNotations.
Local Open Scope Z_scope.

(** depth first: a directory before (after) what is in it *)
Fixpoint preorder (t : ftree) : list fstat := match t with FNode f cs => f :: flat_map preorder cs end.
Fixpoint postorder (t : ftree) : list fstat := match t with FNode f cs => flat_map postorder cs ++ [f] end.

(** the names are paths: [n] is the path of the root *)
Fixpoint named (n : idx) (t : ftree) : Prop :=
  match t with FNode f cs =>
    f_name f = n /\ (fix all l := match l with [] => True | c :: r => (exists x, named (n ++ [x]) c) /\ all r end) cs
  end.

(** sums over all the files of a tree *)
Definition total (v : fstat -> Z) (t : ftree) : Z := fold_right (fun x s => v x + s) 0 (preorder t).

(** the tree with directories standing for all that is in them *)
Fixpoint cumulate (t : ftree) : ftree :=
  match t with FNode f cs =>
    FNode (mk_fstat (f_name f) (total f_changed t) (total f_src t) (total f_inc t)) (map cumulate cs)
  end.

(** only what reaches one of the limits *)
Fixpoint prune (cutoff : fstat) (t : ftree) : ftree :=
  match t with FNode f cs =>
    FNode f (flat_map (fun c => if fs_ge (root_of c) cutoff then [prune cutoff c] else []) cs)
  end.

Definition nonneg (f : fstat) : Prop := 0 <= f_changed f /\ 0 <= f_src f /\ 0 <= f_inc f.

(** [s] is [t] or a directory or file somewhere in it *)
Inductive subtree (s : ftree) : ftree -> Prop :=
| sub_refl : subtree s s
| sub_kid : forall f cs c, In c cs -> subtree s c -> subtree s (FNode f cs).

(** no directory has two entries of the same name *)
Fixpoint distinct (t : ftree) : Prop :=
  match t with FNode f cs =>
    NoDup (map (fun c => f_name (root_of c)) cs) /\
    (fix all l := match l with [] => True | c :: r => distinct c /\ all r end) cs
  end.

(** the value of a directory is not negative, and at least the sum of those of its entries *)
Fixpoint dominated (v : fstat -> Z) (t : ftree) : Prop :=
  match t with FNode f cs =>
    0 <= v f /\ fold_right (fun c s => v (root_of c) + s) 0 cs <= v f /\
    (fix all l := match l with [] => True | c :: r => dominated v c /\ all r end) cs
  end.

(** the sum of the values in a report *)
Definition sum_snd (l : list (fstat * Z)) : Z := fold_right (fun x s => snd x + s) 0 l.
(** those about the directory [n] and what is in it *)
Definition reported_in (n : idx) (l : list (fstat * Z)) : list (fstat * Z) :=
  filter (fun p => idx_eqb (firstn (length n) (f_name (fst p))) n) l.

(** the value the tree [t] has for the path [n] (0: not in it) *)
Definition value_at (v : fstat -> Z) (n : idx) (t : ftree) : Z :=
  fold_right (fun x s => (if idx_eqb (f_name x) n then v x else 0) + s) 0 (preorder t).

(** what was written about one file, and what is read back (names stay quoted) *)
Record written : Type := mk_written { w_index : idx; w_changed : bool; w_src : option crorp; w_dst : option crorp; w_inc : option crorp }.
Definition size_or_0 (o : option crorp) : Z := match o with Some r => if q_reg r then q_size r else 0 | None => 0 end.
Definition read_as (w : written) : fstat :=
  mk_fstat (map quote_path (w_index w)) (if w_changed w then 1 else 0) (size_or_0 (w_src w)) (size_or_0 (w_inc w)).
Definition sized (o : option crorp) : Prop := match o with Some r => 0 <= q_size r | None => True end.
Definition good_entry (w : written) : Prop :=
  good_path (w_index w) /\ sized (w_src w) /\ sized (w_dst w) /\ sized (w_inc w) /\
  starts_with (bs "#") (index_path (w_index w)) = false.
Definition line_of (w : written) : bytes := stat_line (w_index w) (w_changed w) (w_src w) (w_dst w) (w_inc w).
