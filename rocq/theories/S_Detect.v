(** * What is to be said about file systems *)
From Coq Require Import List NArith Bool Ascii.
From Verif Require Import Base M_Detect.
Import List ListNotations.

(** a file system which distinguishes capitals, or doesn't distinguish those of ASCII *)
Definition usual (f : fs) : Prop := f_case f = Exact \/ f_case f = AsciiCase.

(** directories in a tree *)
Inductive inside : node -> fs -> list (bytes * node) -> Prop :=
| in_here f l : inside (Dir f l) f l
| in_below f l n sub f' l' : In (n, sub) l -> inside sub f' l' -> inside (Dir f l) f' l'.

(** the listing of a directory as the file system [f] would have it: names it takes and
    shows, no two of which are the same for it *)
Definition listing_of (f : fs) (l : list bytes) : Prop :=
  NoDup l /\ (forall n, In n l -> takes f n = true /\ shown f n = n) /\
  (forall a b, In a l -> In b l -> same f a b = true -> a = b).
(** a source on one file system *)
Definition source_on (f : fs) (t : node) : Prop :=
  exists l, t = Dir f l /\ forall f' l', inside t f' l' -> f' = f /\ listing_of f (map fst l').

Definition is_letter (c : ascii) : Prop :=
  (65 <= N_of_ascii c <= 90)%N \/ (97 <= N_of_ascii c <= 122)%N.


(** the names directly in the directory backed up *)
Definition top (t : node) : list bytes := match t with Leaf => [] | Dir _ l => map fst l end.
