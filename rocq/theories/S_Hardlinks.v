(** * What hard links should become *)
From Coq Require Import List ZArith Bool Ascii Lia.
From Verif Require Import Base M_Iter M_Hardlinks.
Import List ListNotations.
Local Open Scope Z_scope.

(** [x] and [y] are names of one regular file with several names *)
Definition partner (x y : lfile) : bool :=
  f_reg x && f_reg y && (2 <=? f_nlinks x) && (2 <=? f_nlinks y) &&
  (fst (f_key x) =? fst (f_key y)) && (snd (f_key x) =? snd (f_key y)).
(** A listing in which link counts are right: nobody changed links meanwhile.
    There may be names outside of the listing. *)
Record consistent (files : list lfile) : Prop := mk_consistent {
  co_paths : NoDup (map f_index files);
  co_nonreg : forall x, In x files -> 1 <= f_nlinks x /\ (f_reg x = false -> f_nlinks x = 1);
  co_count : forall x y, In x files -> In y files -> partner x y = true -> f_nlinks y = f_nlinks x;
  co_names : forall x, In x files -> f_reg x = true -> 2 <= f_nlinks x ->
               Z.of_nat (length (filter (partner x) files)) <= f_nlinks x }.
Definition sources (l : list (option lfile * option lfile)) : list lfile :=
  flat_map (fun p => match fst p with Some x => [x] | None => [] end) l.
(** What to do with a list of files, apart from leaving them as they are: the first name is
    written, later ones are linked to it.  [pre]: the files before. *)
Fixpoint expected (pre : list lfile) (l : list (option lfile * option lfile)) : list what :=
  match l with
  | [] => []
  | (None, _) :: r => Gone :: expected pre r
  | (Some x, _) :: r =>
      match find (partner x) pre with Some y => LinkTo (f_index y) | None => Fresh end
      :: expected (pre ++ [x]) r
  end.
(** leaving a file as it is: only if it compares equal (but for a checksum) *)
Definition may_stay (same : lfile -> lfile -> bool) (p : option lfile * option lfile) : Prop :=
  exists x d h, p = (Some x, Some d) /\
    same x (mk_lfile (f_index d) (f_reg d) (f_nlinks d) (f_key d) h) = true.
