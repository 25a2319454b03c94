(** * What a directory is to become *)
From Coq Require Import List ZArith Bool Ascii.
From Verif Require Import Base M_Iter M_TreeFs M_DirPatch.
Import List ListNotations.

(** every entry but the root lies in a directory *)
Definition a_tree (l : list entry) : Prop :=
  forall d c n, get (d ++ [c]) l = Some n -> exists a, get d l = Some (NDir a).

(** a path of the tree [f] which the listing [l] doesn't show *)
Definition unlisted (f l : list entry) (i : idx) : Prop := get i f <> None /\ get i l = None.

(** what shall be at a path: what is asked for, unless the entry listed there counts as the
    same; nothing, if something is listed but not asked for; what isn't listed stays. *)
Definition wanted (same : node -> node -> bool) (f asked listed : list entry) (i : idx) : option node :=
  match get i asked, get i listed with
  | Some m, Some t => if same m t then Some t else Some m
  | Some m, None => Some m
  | None, Some _ => None
  | None, None => get i f
  end.
