(** * Iterators over sorted listings

    Models src/rdiff_backup/rorpiter.py: CollateIterators, Collate2Iters,
    IterTreeReducer, FillInIter.  Python generators are modelled by the lists
    of what they yield. *)
From Coq Require Import List Bool NArith Ascii Lia.
From Verif Require Import Base.
Import List ListNotations.

(** Index of a file: tuple of path components (rpath.py:108-128). *)
Definition idx := list bytes.

(** Python's comparison of sequences: lexicographic *)
Fixpoint lex_cmp {T} (cmp : T -> T -> comparison) (x y : list T) : comparison :=
  match x, y with
  | [], [] => Eq
  | [], _ => Lt
  | _, [] => Gt
  | a :: x', b :: y' =>
      match cmp a b with
      | Eq => lex_cmp cmp x' y'
      | c => c
      end
  end.

(** bytes objects (unsigned) *)
Definition byte_cmp (a b : ascii) : comparison := N.compare (N_of_ascii a) (N_of_ascii b).
Definition bytes_cmp : bytes -> bytes -> comparison := lex_cmp byte_cmp.
(** tuples of bytes *)
Definition idx_cmp : idx -> idx -> comparison := lex_cmp bytes_cmp.

Definition idx_eqb (x y : idx) : bool :=
  match idx_cmp x y with Eq => true | _ => false end.
Definition idx_ltb (x y : idx) : bool :=
  match idx_cmp x y with Lt => true | _ => false end.

(** [base_index == index[: len(base_index)]] *)
Definition is_prefix (b i : idx) : bool := idx_eqb b (firstn (length b) i).

Section Collate.
Context {A B : Type}.
Variable keyA : A -> idx.
Variable keyB : B -> idx.

(** rorpiter.py:355-395 Collate2Iters *)
Fixpoint collate2 (l1 : list A) : list B -> list (option A * option B) :=
  fix aux (l2 : list B) : list (option A * option B) :=
    match l1, l2 with
    | [], _ => map (fun y => (None, Some y)) l2
    | _ :: _, [] => map (fun x => (Some x, None)) l1
    | x :: l1', y :: l2' =>
        match idx_cmp (keyA x) (keyB y) with
        | Lt => (Some x, None) :: collate2 l1' l2
        | Eq => (Some x, Some y) :: collate2 l1' l2'
        | Gt => (None, Some y) :: aux l2'
        end
    end.
End Collate.

Section CollateN.
Context {A : Type}.
Variable key : A -> idx.

(** heads of the iterators (rorps after setrorps, rorpiter.py:317-325) *)
Definition heads (ls : list (list A)) : list (option A) :=
  map (fun l => match l with x :: _ => Some x | [] => None end) ls.

(** 327-329 getleastindex *)
Definition idx_min (x y : idx) : idx := if idx_ltb y x then y else x.
Fixpoint least (hs : list (option A)) : option idx :=
  match hs with
  | [] => None
  | None :: hs' => least hs'
  | Some x :: hs' =>
      match least hs' with
      | None => Some (key x)
      | Some i => Some (idx_min (key x) i)
      end
  end.

(** 331-346 yield_tuples: [take] is what is yielded, [drop] what remains *)
Definition take_at (i : idx) (l : list A) : option A :=
  match l with x :: _ => if idx_eqb (key x) i then Some x else None | [] => None end.
Definition drop_at (i : idx) (l : list A) : list A :=
  match l with x :: l' => if idx_eqb (key x) i then l' else l | [] => [] end.

Fixpoint collate_loop (fuel : nat) (ls : list (list A)) : list (idx * list (option A)) :=
  match fuel with
  | O => []
  | S fuel' =>
      match least (heads ls) with
      | None => []
      | Some i => (i, map (take_at i) ls) :: collate_loop fuel' (map (drop_at i) ls)
      end
  end.

(** The number of rounds is bounded by the total length. *)
Definition collate (ls : list (list A)) : list (idx * list (option A)) :=
  collate_loop (S (length (concat ls))) ls.
End CollateN.

(** ** IterTreeReducer (rorpiter.py:92-196) *)
Section ITR.
Context {A : Type}.
Variable key : A -> idx.
(** can_fast_process of the branch *)
Variable fast : A -> bool.

(** calls made on the branch objects *)
Inductive itr_event : Type :=
| Start (x : A)        (* start_process_directory *)
| Fast (x : A)         (* fast_process_file *)
| End (i : idx).       (* end_process_directory of the branch with base_index i *)

(** [st_index]: last index; [branches]: base indices, innermost first *)
Record itr : Type := mk_itr {
  st_index : option idx;
  branches : list idx;
  root_fast : bool }.

Definition itr_init : itr := mk_itr None [] false.

(** 169-189 _finish_branches: ends, remaining branches *)
Fixpoint finish_branches (i : idx) (bs : list idx) : list itr_event * list idx :=
  match bs with
  | [] => ([], [])
  | b :: bs' =>
      if is_prefix b i then ([], bs)
      else let '(ev, r) := finish_branches i bs' in (End b :: ev, r)
  end.

Inductive itr_res : Type :=
| IOk (more : bool) (ev : list itr_event) (s : itr)   (* return value of __call__ *)
| IBadOrder                                           (* ValueError *)
| ICrash.                                             (* called again after False *)

(** 111-154 __call__ *)
Definition itr_call (x : A) (s : itr) : itr_res :=
  let i := key x in
  match st_index s with
  | None =>
      if fast x then IOk true [Fast x] (mk_itr (Some i) [i] true)
      else IOk true [Start x] (mk_itr (Some i) [i] false)
  | Some last =>
      match idx_cmp i last with
      | Eq => IOk true [] (mk_itr (Some i) (branches s) (root_fast s))
      | Lt => IBadOrder
      | Gt =>
          match branches s with
          | [] => ICrash
          | _ =>
              let '(ev, bs) := finish_branches i (branches s) in
              match bs with
              | [] => IOk false ev (mk_itr (Some last) [] (root_fast s))
              | _ =>
                  if fast x then IOk true (ev ++ [Fast x]) (mk_itr (Some i) bs (root_fast s))
                  else IOk true (ev ++ [Start x]) (mk_itr (Some i) (i :: bs) (root_fast s))
              end
          end
      end
  end.

(** 156-167 finish_processing *)
Definition itr_finish (s : itr) : list itr_event :=
  match st_index s with
  | None => []
  | Some _ => if root_fast s then [] else map End (branches s)
  end.

(** The loop `for x in iter: ITR(x.index, x)` followed by finish_processing, as
    used by the callers (e.g. _repo_shadow.py:281-296); [None]: exception. *)
Fixpoint itr_run (l : list A) (s : itr) : option (list itr_event) :=
  match l with
  | [] => Some (itr_finish s)
  | x :: l' =>
      match itr_call x s with
      | IOk _ ev s' =>
          match itr_run l' s' with Some ev' => Some (ev ++ ev') | None => None end
      | _ => None
      end
  end.
End ITR.
Arguments Start {A}.
Arguments Fast {A}.
Arguments End {A}.
Arguments IOk {A}.
Arguments IBadOrder {A}.
Arguments ICrash {A}.

(** ** FillInIter (rorpiter.py:398-440): yields indices; [inl]: element of the
    input, [inr]: path filled in. *)
Section Fill.
Context {A : Type}.
Variable key : A -> idx.

(** cur_index[:-1] *)
Definition idx_parent (i : idx) : idx := removelast i.

(** the fillers for [i] in range(1, len(cur)) with cur[:i] != old[:i] *)
Definition fillers (old cur : idx) : list idx :=
  if idx_eqb (idx_parent cur) (idx_parent old) then []
  else
    filter (fun p => negb (idx_eqb p (firstn (length p) old)))
           (map (fun i => firstn i cur) (seq 1 (length cur - 1))).

Fixpoint fill_rest (old : idx) (l : list A) : list (A + idx) :=
  match l with
  | [] => []
  | x :: l' => map inr (fillers old (key x)) ++ inl x :: fill_rest (key x) l'
  end.

Definition fill_in (l : list A) : list (A + idx) :=
  match l with
  | [] => []
  | x :: l' =>
      map (fun i => inr (firstn i (key x))) (seq 0 (length (key x)))
      ++ inl x :: fill_rest (key x) l'
  end.
End Fill.
