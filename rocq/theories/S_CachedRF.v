(** * What finding data and changing permissions have to do *)
From Coq Require Import List ZArith Bool Ascii Lia Sorted.
From Verif Require Import Base M_Iter L_Iter M_IncName M_CachedRF.
Import List ListNotations.
Local Open Scope Z_scope.

(** an increments file of [n] (C08 tells what its name looks like), of any type but data *)
Definition inc_file_of (name n : bytes) : Prop :=
  exists c ts t ty, parse_increment_name name = Some (c, ts, t, ty, n) /\ ty <> bs "data".

(** the repository has data about the file [x]: an entry of its name in the mirror directory, or
    an increment of it, or a directory of its name among the increments *)
Definition has_data (mirror : idx -> list bytes) (incs : idx -> list (bytes * bool)) (x : idx) : Prop :=
  exists d n, x = d ++ [n] /\ ((In n (mirror d) /\ x <> [bs "rdiff-backup-data"])
    \/ exists name isdir, In (name, isdir) (incs d)
         /\ (inc_file_of name n \/ (isdir = true /\ name = n /\ forall m, ~ inc_file_of name m))).

(** a file of the same directory *)
Definition sibling (x y : idx) : Prop := exists d a b, x = d ++ [a] /\ y = d ++ [b].

(** requests come in the order of the paths, and not for the root *)
Definition in_order (js : list idx) : Prop := StronglySorted idx_lt js /\ ~ In [] js.

(** what is there can be read by its owner: files read, directories entered and listed *)
Definition usable (o : option (pkind * Z)) : Prop :=
  match o with
  | Some (PReg, p) => readable p = true
  | Some (PDir, p) => executable p = true /\ readable p = true
  | _ => True
  end.
(** the path and every directory on the way can be used *)
Definition accessible (fs : mirror_fs) (i : idx) : Prop := forall q, prefix q i -> usable (fs q).

(** the files form a tree, the owner can use its root *)
Definition a_tree (fs : mirror_fs) : Prop :=
  (forall d n, fs (d ++ [n]) <> None -> exists p, fs d = Some (PDir, p))
  /\ (exists p, fs [] = Some (PDir, p)) /\ usable (fs []).
