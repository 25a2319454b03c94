(** * Specification: the repository a path belongs to.
    [tree] gives the names in the directory at a place ([None] when no directory is
    there); places and paths as in S_Security. *)
From Coq Require Import List ZArith Bool Ascii.
From Verif Require Import Base S_Security.
Import List ListNotations.

(** a directory is (the base of) a repository when it lists rdiff-backup-data *)
Definition repository_at (tree : list bytes -> option (list bytes)) (d : list bytes) : Prop :=
  exists names, tree d = Some names /\ In (bs "rdiff-backup-data") names.

(** what the process sees from its current directory, symbolic links aside *)
Definition sees (cwd : list bytes) (tree : list bytes -> option (list bytes))
  (listing : bytes -> option (list bytes)) : Prop :=
  forall p, listing p = tree (place cwd p).

(** [d] is the nearest repository holding the place [w], which is [idx] in it *)
Definition nearest (tree : list bytes -> option (list bytes)) (w d idx : list bytes) : Prop :=
  w = d ++ idx /\ repository_at tree d /\
  forall a b, idx = a ++ b -> a <> [] -> ~ repository_at tree (d ++ a).

(** a name as a component of a path *)
Definition plain_name (x : bytes) : Prop :=
  x <> [] /\ x <> bs "." /\ x <> bs ".." /\ ~ In "/"%char x.

(** the path of the parts [l] (from the root, the first part is empty) *)
Definition path_of (l : list bytes) : bytes := join_with (bs "/") l.

(** the file name of an increment of [name]: its time [label], its type, and .gz *)
Definition inc_file (name label ty : bytes) (gz : bool) : bytes :=
  name ++ bs "." ++ label ++ bs "." ++ ty ++ (if gz then bs ".gz" else []).
