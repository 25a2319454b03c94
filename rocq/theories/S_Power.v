(** * What is to be said about power failures *)
From Coq Require Import List NArith Bool.
From Verif Require Import Base M_Power.
Import List ListNotations.

(** the file of this version is in the mirror *)
Definition holds (v : version) (f : pstate) : Prop :=
  view f NMirror = match v with VNone => None | VReg b a => Some (Reg b, a) | VOther k a => Some (Special k, a) end.

(** everything is on the disk, and the files of the session about to begin are what the
    session thinks they are *)
Definition certain {A} (c : cell A) : Prop := forall x, poss c x <-> x = cur c.
Definition on_disk (f : pstate) : Prop :=
  (forall n, certain (ent f n)) /\ (forall i, certain (dat f i)) /\ (forall i, certain (att f i)) /\
  (forall n i, cur (ent f n) = Some i -> i < nxt f).
Definition files_of (items : list item) : list (path * version * version) :=
  flat_map (fun i => match i with File p o n => [(p, o, n)] | _ => [] end) items.
Definition item_path (i : item) : path := match i with File p _ _ | Directory p _ | DirGone p _ => p end.
Definition has_inc_dir (s : st) (p : path) : Prop := cur (ent (files s p) NIncDir) <> None.
Definition before (s : st) (items : list item) : Prop :=
  cur (old_marker s) = true /\ cur (new_marker s) = false /\ certain (old_marker s) /\ certain (new_marker s) /\
  (forall p, on_disk (files s p)) /\
  (forall p o n, In (p, o, n) (files_of items) -> holds o (files s p)) /\
  (forall p h, In (Directory p h) items \/ In (DirGone p h) items -> h = true -> has_inc_dir s p).

(** directories come before what is in them, and nothing comes twice *)
Definition in_order (s : st) (items : list item) : Prop :=
  NoDup (map item_path items) /\
  forall l1 p o n l2, items = l1 ++ File p o n :: l2 ->
    forall q, In q (ancestors p) -> has_inc_dir s q \/ exists h, In (Directory q h) l1.

Definition regular (v : version) : Prop := exists b a, v = VReg b a.
(** the attributes tell versions apart, also from those of files just being written *)
Definition told_apart (now : N) (o n : version) : Prop :=
  (o <> n) /\ attr_of o <> now /\ attr_of n <> now /\ (regular o -> regular n -> attr_of o <> attr_of n).

(** what the metadata of the last session list: the files changed, and others *)
Definition listed (s : st) (items : list item) (l : list (path * version)) : Prop :=
  NoDup (map fst l) /\
  (forall p o n, In (p, o, n) (files_of items) -> In (p, o) l) /\
  (forall p v, In (p, v) l -> (exists n, In (p, v, n) (files_of items)) \/ (~ In p (map item_path items) /\ holds v (files s p))).

(** going back, interrupted by power failures any number of times *)
Inductive interrupted (safe : bool) (now : N) (l : list (path * version)) : st -> st -> Prop :=
| never s : interrupted safe now l s s
| again s s1 s2 k : cur (new_marker s) = true ->
    power_failure (run safe now s (firstn k (regress safe now true true s l))) s1 ->
    interrupted safe now l s1 s2 -> interrupted safe now l s s2.
