(** * Specification of the listings (C53, C54) *)
From Coq Require Import List ZArith Bool.
From Verif Require Import Base M_Iter M_Core M_Listing.
Import List ListNotations.
Local Open Scope Z_scope.

(** The session meant by "as of [r]": the last one which isn't later, or the
    oldest one held if all are later. *)
Definition session_as_of {A} (r : Z) (h : list (Z * A)) (t : Z) (l : A) : Prop :=
  In (t, l) h /\
  ((t <= r /\ forall u m, In (u, m) h -> u <= r -> u <= t) \/
   (r < t /\ forall u m, In (u, m) h -> t <= u)).

(** the newest session *)
Definition newest {A} (h : list (Z * A)) (t : Z) (l : A) : Prop :=
  In (t, l) h /\ forall u m, In (u, m) h -> u <= t.

(** What a user has to be told about the path [i], given what was stored for it
    in the old and in the new session. *)
Inductive tells {D} (req : D -> D -> bool) (old new : list (idx * D)) (i : idx) : change -> Prop :=
| tells_new y : (forall x, ~ In (i, x) old) -> In (i, y) new -> tells req old new i CNew
| tells_deleted x : In (i, x) old -> (forall y, ~ In (i, y) new) -> tells req old new i CDeleted
| tells_changed x y : In (i, x) old -> In (i, y) new -> req x y = false -> tells req old new i CChanged.

(** Reading a list of (time, type), oldest first: the type at the time of a
    session is the one of the first entry which isn't older. *)
Fixpoint type_as_of (t : Z) (l : list (Z * ftype)) : option ftype :=
  match l with
  | [] => None
  | (u, x) :: l' => if t <=? u then Some x else type_as_of t l'
  end.
