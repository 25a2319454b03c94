(** * Which mode of a server is enough for which action (docs: --restrict-mode)

    read-only is enough to read a directory or a repository, update-only to back up to
    a repository, read-write for everything. *)
From Coq Require Import List Bool Ascii.
From Verif Require Import Base M_Security M_Requests.
Import List ListNotations.

Inductive need : Type := NRead | NUpdate | NWrite | NAny.
Definition needs (a : act) (r : role) : need :=
  match a, r with
  | QBackup _ _ false, RRepo => NUpdate
  | QBackup _ _ true, RRepo => NWrite              (* has to regress first *)
  | QBackup _ _ _, RDir => NRead
  | QRestore _, RRepo => NRead
  | QRestore _, RDir => NWrite
  | QRemoveIncrements, _ | QRemoveFile, _ | QRegress _ _ _, _ => NWrite
  | QTest, _ => NAny
  | _, _ => NRead
  end.
Definition enough (n : need) (lv : level) : bool :=
  match n, lv with
  | _, LMinimal => false
  | _, LReadWrite | _, LOverride => true
  | NRead, LReadOnly | NAny, LReadOnly => true
  | NUpdate, LUpdateOnly | NAny, LUpdateOnly => true
  | _, _ => false
  end.

(** a name a file can have (not one with a meaning of its own) *)
Definition file_name (x : bytes) : Prop := x <> [] /\ ~ In slash x /\ x <> bs "." /\ x <> bs "..".

(** the directory an administrator restricts a server to: a path without "..", absolute or
    at least not the current directory itself *)
Definition good_dir (r : bytes) : Prop :=
  ~ In (bs "..") (split_on slash r) /\ (starts_slash r = true \/ exists x, In x (split_on slash r) /\ x <> [] /\ x <> bs ".").
