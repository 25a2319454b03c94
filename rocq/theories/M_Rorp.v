(** * File descriptions (RORPath) and their comparison

    Models src/rdiff_backup/rpath.py: class RORPath (index and data dictionary),
    get_rpath_data, __eq__, equal_loose. *)
From Coq Require Import List ZArith Bool Lia.
From Verif Require Import Base M_Iter.
Import List ListNotations.
Local Open Scope Z_scope.

(** The keys of the data dictionary used anywhere in the program.  "linked",
    "filetype" and "linknum" are the transient marks set by flaglinked,
    set_attached_filetype and on signatures. *)
Inductive key :=
| KType | KSize | KPerms | KUid | KGid | KInode | KDevloc | KNlink | KUname | KGname
| KMtime | KAtime | KCtime | KLinkname | KDevnums | KSha1 | KMirrorname | KIncname
| KEa | KAcl | KWinAcl | KResourcefork | KCarbonfile | KFiletype | KLinked.
Definition key_eqb (a b : key) : bool :=
  match a, b with
  | KType, KType | KSize, KSize | KPerms, KPerms | KUid, KUid | KGid, KGid
  | KInode, KInode | KDevloc, KDevloc | KNlink, KNlink | KUname, KUname
  | KGname, KGname | KMtime, KMtime | KAtime, KAtime | KCtime, KCtime
  | KLinkname, KLinkname | KDevnums, KDevnums | KSha1, KSha1
  | KMirrorname, KMirrorname | KIncname, KIncname | KEa, KEa | KAcl, KAcl
  | KWinAcl, KWinAcl | KResourcefork, KResourcefork | KCarbonfile, KCarbonfile
  | KFiletype, KFiletype | KLinked, KLinked => true
  | _, _ => false
  end.
Definition all_keys : list key :=
  [KType; KSize; KPerms; KUid; KGid; KInode; KDevloc; KNlink; KUname; KGname;
   KMtime; KAtime; KCtime; KLinkname; KDevnums; KSha1; KMirrorname; KIncname;
   KEa; KAcl; KWinAcl; KResourcefork; KCarbonfile; KFiletype; KLinked].

(** Values: None, integers, strings (of bytes), device numbers.  ACL and EA
    objects are opaque byte strings here. *)
Inductive val := VNone | VInt (z : Z) | VStr (s : bytes) | VDev (c : bytes) (major minor : Z).
Definition val_eq_dec (a b : val) : {a = b} + {a <> b}.
Proof. repeat decide equality. Defined.
Definition val_eqb (a b : val) : bool := if val_eq_dec a b then true else false.

(** A data dictionary: the value of each key, or None if the key is absent. *)
Definition dict := key -> option val.
Definition empty_dict : dict := fun _ => None.
Definition set (d : dict) (k : key) (v : val) : dict :=
  fun k' => if key_eqb k k' then Some v else d k'.
Definition has (d : dict) (k : key) : bool := match d k with Some _ => true | None => false end.

Record rorp : Type := mk_rorp { r_index : idx; r_data : dict }.

(** file types (rpath.py:277-288) *)
Definition is_type (t : bytes) (d : dict) : bool :=
  match d KType with Some (VStr s) => beq_bytes s t | _ => false end.
Definition isreg := is_type (bs "reg").       (* 292-294 *)
Definition isdir := is_type (bs "dir").
Definition issym := is_type (bs "sym").       (* 296-298 *)
Definition isspecial (d : dict) : bool :=     (* 320-323 *)
  is_type (bs "dev") d || is_type (bs "sock") d || is_type (bs "fifo") d || is_type (bs "sym") d.
(** lstat() is true: the file exists (277-288) *)
Definition exists_ (d : dict) : bool :=
  match d KType with Some (VStr (_ :: _)) => true | _ => false end.
(** 378-383 getnumlinks *)
Definition getnumlinks (d : dict) : val := match d KNlink with Some v => v | None => VInt 1 end.

(** global settings consulted (singletons/generics.py) *)
Record settings : Type := mk_set {
  g_eas_write : bool; g_acls_write : bool; g_win_acls_write : bool;
  g_rforks_write : bool; g_carbonfile_write : bool;
  g_compare_inode : bool; g_preserve_hardlinks : bool; g_change_ownership : bool }.

(** 86-101 _global_ignored_keys.  When resource forks aren't written the name
    "resource_forks" is ignored, which is no key of the dictionary (the key is
    "resourcefork"), hence nothing. *)
Definition global_ignored (g : settings) (k : key) : bool :=
  match k with
  | KAtime => true
  | KEa => negb (g_eas_write g)
  | KAcl => negb (g_acls_write g)
  | KWinAcl => negb (g_win_acls_write g)
  | KCarbonfile => negb (g_carbonfile_write g)
  | _ => false
  end.

(** other.isreg() and other.getsize() == 0.  Simplification: a regular file
    without "size" (KeyError in Python) counts as not empty; every source of
    dictionaries sets it. *)
Definition empty_reg (d : dict) : bool :=
  isreg d && match d KSize with Some (VInt 0) => true | _ => false end.

(** 132-151: the keys ignored by __eq__ *)
Definition eq_ignored (g : settings) (a b : dict) (k : key) : bool :=
  global_ignored g k ||
  match k with
  | KCtime | KNlink => true
  | KInode | KDevloc =>
      negb (isreg a) || val_eqb (getnumlinks a) (VInt 1)
      || negb (g_compare_inode g) || negb (g_preserve_hardlinks g)
  | KSize => negb (isreg a)
  | KUid | KGid | KUname | KGname => issym a
  | KType => isspecial a && empty_reg b
  | _ => false
  end.

(** 161-168: one key of self *)
Definition eq_key (a b : dict) (k : key) : bool :=
  match a k with
  | None => true
  | Some v =>
      match k with
      | KUname | KGname =>
          match b k with
          | Some (VStr (c :: s)) =>
              if beq_bytes (c :: s) (bs "None") then true else val_eqb (VStr (c :: s)) v
          | _ => true
          end
      | _ => match b k with Some w => val_eqb v w | None => false end
      end
  end.

(** 132-169 __eq__; 171-172 __ne__ is its negation *)
Definition data_eq (g : settings) (a b : dict) : bool :=
  forallb (fun k => eq_ignored g a b k || eq_key a b k) all_keys.
Definition rorp_eq (g : settings) (x y : rorp) : bool :=
  idx_eqb (r_index x) (r_index y) && data_eq g (r_data x) (r_data y).

(** 218-270 equal_loose.  [owner] is map_owners.map_rpath_owner (None: KeyError). *)
Definition loose_ignored (g : settings) (a b : dict) (k : key) : bool :=
  global_ignored g k ||
  match k with
  | KUid | KGid | KUname | KGname | KCtime | KInode | KMirrorname | KIncname
  | KDevloc | KNlink | KSha1 => true
  | KSize => negb (isreg a)
  | KType => isspecial a && empty_reg b
  | _ => false
  end.
Definition loose_key (a b : dict) (k : key) : bool :=
  match a k with
  | None => true
  | Some v => match b k with Some w => val_eqb v w | None => false end
  end.
Definition equal_loose (g : settings) (owner : dict -> option (val * val)) (a b : dict) : bool :=
  forallb (fun k => loose_ignored g a b k || loose_key a b k) all_keys &&
  (if exists_ a && negb (issym a) && g_change_ownership g then
     match owner a, b KUid, b KGid with
     | Some (u, v), Some u', Some v' => val_eqb u u' && val_eqb v v'
     | _, _, _ => false
     end
   else true).

(** rpath.py:1699-1773 get_rpath_data, on POSIX, without the optional metadata of
    _add_rpath_metadata (ACLs, EAs, macOS data): the dictionary of an existing
    file, from what lstat, readlink and the user database say. *)
Inductive ftype := TReg | TDir | TDev (c : bytes) (major minor : Z) | TFifo | TSym (target : bytes) | TSock.
Record statb : Type := mk_stat {
  st_type : ftype; st_size : Z; st_perms : Z; st_uid : Z; st_gid : Z; st_ino : Z;
  st_dev : Z; st_nlink : Z; st_mtime : Z; st_atime : Z; st_ctime : Z;
  st_uname : option bytes; st_gname : option bytes }.
Definition type_name (t : ftype) : bytes :=
  match t with
  | TReg => bs "reg" | TDir => bs "dir" | TDev _ _ _ => bs "dev"
  | TFifo => bs "fifo" | TSym _ => bs "sym" | TSock => bs "sock"
  end.
Definition val_of_name (n : option bytes) : val := match n with Some s => VStr s | None => VNone end.
Definition stat_dict (s : statb) : dict := fun k =>
  match k with
  | KType => Some (VStr (type_name (st_type s)))
  | KSize => Some (VInt (st_size s))
  | KPerms => Some (VInt (st_perms s))
  | KUid => Some (VInt (st_uid s))
  | KGid => Some (VInt (st_gid s))
  | KInode => Some (VInt (st_ino s))
  | KDevloc => Some (VInt (st_dev s))
  | KNlink => Some (VInt (st_nlink s))
  | KUname => Some (val_of_name (st_uname s))
  | KGname => Some (val_of_name (st_gname s))
  | KMtime => match st_type s with TSym _ | TDev _ _ _ => None | _ => Some (VInt (st_mtime s)) end
  | KAtime => match st_type s with TSym _ | TDev _ _ _ => None | _ => Some (VInt (st_atime s)) end
  | KCtime => match st_type s with TSym _ | TDev _ _ _ => None | _ => Some (VInt (st_ctime s)) end
  | KLinkname => match st_type s with TSym t => Some (VStr t) | _ => None end
  | KDevnums => match st_type s with TDev c a b => Some (VDev c a b) | _ => None end
  | _ => None
  end.
