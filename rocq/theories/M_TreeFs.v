(** * A directory tree with permissions and modification times

    What the system calls used while patching a tree do (rpath.py: 822-866 chmod, mkdir, rmdir,
    949-971 delete, 1471-1517 copy, 1550-1586 copy_attribs, 1642-1700 rename, and get_temp_rpath with
    sibling=True), for root, or a process which owns the files.

    Simplifications: an entry which is no directory (regular file, link, device, ...) is its type and
    content in one byte string; owner, ACL and extended attributes are one byte string [a_rest]; every
    temporary file belongs to the path it is going to replace, has a name of its own in the same
    directory, and there's one at a time for a path; what is above the root of the tree can be
    written to; the disk isn't full. *)
From Coq Require Import List ZArith Bool Ascii.
From Verif Require Import Base M_Iter.
Import List ListNotations.
Local Open Scope Z_scope.

Record attr : Type := mk_attr { a_perms : Z; a_mtime : Z; a_rest : bytes }.

Inductive node : Type :=
| NDir (a : attr)
| NOther (data : bytes) (a : attr).

Definition is_dir (n : option node) : bool :=
  match n with Some (NDir _) => true | _ => false end.

(** files by path, and temporary files by the path they belong to *)
Definition fs : Type := list (idx * node).
Record tree : Type := mk_tree { files : fs; temps : fs }.

Fixpoint get (i : idx) (f : fs) : option node :=
  match f with
  | [] => None
  | (j, n) :: f' => if idx_eqb j i then Some n else get i f'
  end.
Definition del (i : idx) (f : fs) : fs := filter (fun e => negb (idx_eqb (fst e) i)) f.
Definition put (i : idx) (n : node) (f : fs) : fs := (i, n) :: del i f.

(** [d] has an entry in [f] *)
Definition has_entry (d : idx) (f : fs) : bool :=
  existsb (fun e => match fst e with [] => false | _ => idx_eqb (removelast (fst e)) d end) f.

Section Ops.
(** the process may do everything *)
Variable root : bool.

(** all directories above [i] can be searched: needed to reach [i] *)
Definition reachable (i : idx) (t : tree) : bool :=
  forallb (fun k => match get (firstn k i) (files t) with
                    | Some (NDir a) => root || Z.testbit (a_perms a) 6
                    | _ => false
                    end) (seq 0 (length i)).
(** ... and the one it is in can be written to: needed to create, rename or remove [i] *)
Definition changeable (i : idx) (t : tree) : bool :=
  reachable i t
  && match i with
     | [] => true
     | _ => match get (removelast i) (files t) with
            | Some (NDir a) => root || Z.testbit (a_perms a) 7
            | _ => false
            end
     end.

(** the clock: the time at which an entry of a directory is changed *)
Variable now : idx -> Z.

(** the modification time of a directory changes when its entries do *)
Definition touch (i : idx) (t : tree) : tree :=
  match i with
  | [] => t
  | _ =>
      let p := removelast i in
      match get p (files t) with
      | Some (NDir a) =>
          mk_tree (put p (NDir (mk_attr (a_perms a) (now p) (a_rest a))) (files t)) (temps t)
      | _ => t
      end
  end.

(** lstat: [None] if it fails *)
Definition stat (i : idx) (t : tree) : option (option node) :=
  if reachable i t then Some (get i (files t)) else None.

(** copy and copy_attribs into a new temporary file *)
Definition write_temp (i : idx) (n : node) (t : tree) : option tree :=
  if changeable i t then
    match get i (temps t) with
    | Some _ => None
    | None => Some (touch i (mk_tree (files t) (put i n (temps t))))
    end
  else None.

(** os.rename of the temporary file *)
Definition rename_temp (i : idx) (t : tree) : option tree :=
  if changeable i t then
    match get i (temps t) with
    | None => None
    | Some n =>
        if is_dir (get i (files t)) then None
        else Some (touch i (mk_tree (put i n (files t)) (del i (temps t))))
    end
  else None.

(** os.unlink *)
Definition unlink (i : idx) (t : tree) : option tree :=
  if changeable i t then
    match get i (files t) with
    | Some (NOther _ _) => Some (touch i (mk_tree (del i (files t)) (temps t)))
    | _ => None
    end
  else None.

(** os.mkdir under the umask 0o77 *)
Definition mkdir (i : idx) (t : tree) : option tree :=
  if changeable i t then
    match get i (files t) with
    | None => Some (touch i (mk_tree (put i (NDir (mk_attr 448 (now i) [])) (files t)) (temps t)))
    | Some _ => None
    end
  else None.

(** os.chmod of a directory *)
Definition chmod (p : Z) (i : idx) (t : tree) : option tree :=
  if reachable i t then
    match get i (files t) with
    | Some (NDir a) =>
        Some (mk_tree (put i (NDir (mk_attr p (a_mtime a) (a_rest a))) (files t)) (temps t))
    | _ => None
    end
  else None.
(** to 0o700 *)
Definition chmod700 : idx -> tree -> option tree := chmod 448.

(** copy_attribs onto a directory: permissions, owner, time *)
Definition set_attribs (i : idx) (a : attr) (t : tree) : option tree :=
  if reachable i t then
    match get i (files t) with
    | Some (NDir _) => Some (mk_tree (put i (NDir a) (files t)) (temps t))
    | _ => None
    end
  else None.

(** rpath.py:851-858 rmdir: chmod 0o700, then os.rmdir, which needs an empty directory *)
Definition rmdir (i : idx) (t : tree) : option tree :=
  match chmod700 i t with
  | None => None
  | Some t1 =>
      if changeable i t1 then
        if has_entry i (files t1) || has_entry i (temps t1) then None
        else Some (touch i (mk_tree (del i (files t1)) (temps t1)))
      else None
  end.
End Ops.
