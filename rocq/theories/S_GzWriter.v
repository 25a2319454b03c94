(** * Specification: what a writer of the data directory leaves. *)
From Coq Require Import List Bool Ascii Arith.
From Verif Require Import Base M_GzWriter.
Import List ListNotations.

(** the file besides [p], compressed *)
Definition with_gz (p : path) : path := removelast p ++ [last p [] ++ bs ".gz"].

(** the records which come in full hundreds *)
Definition full_hundreds (records : list bytes) : list bytes :=
  firstn (100 * (List.length records / 100)) records.

(** nothing but [p] differs *)
Definition only (d d' : dir) (p : path) : Prop := forall q, q <> p -> d' q = d q.
