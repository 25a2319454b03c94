(** * Writing the attributes of a file

    - src/rdiff_backup/rpath.py:1550-1632 copy_attribs, copy_attribs_inc; 741-760 chmod,
      783-814 setmtime, 813-833 chown, 1227-1255 get_acl, write_acl, get_ea, write_ea
    - src/rdiffbackup/meta/ea.py:85-152 read_from_rp, write_to_rp, 168-205 _clear_rp,
      301-312 get_meta
    - src/rdiffbackup/meta/acl_posix.py:333-361 set_rp_acl, 364-410 get_acl_lists_from_rp,
      413-466 _acl_to_list, 469-550 _list_to_acl, 553-563 get_meta
    and what the system calls do to an inode (Linux: chown(2), chmod(2), xattr(7), acl(5)).

    Simplifications: the process is root or the owner of the file; resource forks, Carbon
    and Windows ACLs are left out (see M_Settings); errors reading the source (a file
    vanishing meanwhile) are left out. *)
From Coq Require Import List ZArith NArith Bool Ascii.
From Verif Require Import Base M_EaAcl.
Import List ListNotations.
Local Open Scope N_scope.

(** ** The system *)
Inductive kind : Type := KReg | KDir | KSym | KDev | KFifo | KSock.
(** entries of an ACL in the kernel; no id: ACL_UNDEFINED_ID *)
Inductive ktag : Type := TUser | TNamedUser (id : option Z) | TGroup | TNamedGroup (id : option Z) | TMask | TOther.
Definition kentry : Type := (ktag * N)%type.
Record inode : Type := mk_inode {
  i_kind : kind;
  i_uid : Z;
  i_gid : Z;
  i_mode : N;                        (* the 12 bits of chmod *)
  i_xattr : list (bytes * bytes);    (* without the two of the ACLs *)
  i_acl : option (list kentry);      (* only if it says more than the mode *)
  i_default : list kentry;
  i_mtime : Z;
  i_has_ea : bool }.                 (* the file system knows extended attributes *)

Definition is_kdir (k : kind) : bool := match k with KDir => true | _ => false end.
Definition is_ksym (k : kind) : bool := match k with KSym => true | _ => false end.

Definition with_owner (u g : Z) (n : inode) : inode :=
  mk_inode (i_kind n) u g (i_mode n) (i_xattr n) (i_acl n) (i_default n) (i_mtime n) (i_has_ea n).
Definition with_mode (m : N) (n : inode) : inode :=
  mk_inode (i_kind n) (i_uid n) (i_gid n) m (i_xattr n) (i_acl n) (i_default n) (i_mtime n) (i_has_ea n).
Definition with_xattr (x : list (bytes * bytes)) (n : inode) : inode :=
  mk_inode (i_kind n) (i_uid n) (i_gid n) (i_mode n) x (i_acl n) (i_default n) (i_mtime n) (i_has_ea n).
Definition with_acl (a : option (list kentry)) (n : inode) : inode :=
  mk_inode (i_kind n) (i_uid n) (i_gid n) (i_mode n) (i_xattr n) a (i_default n) (i_mtime n) (i_has_ea n).
Definition with_default (d : list kentry) (n : inode) : inode :=
  mk_inode (i_kind n) (i_uid n) (i_gid n) (i_mode n) (i_xattr n) (i_acl n) d (i_mtime n) (i_has_ea n).
Definition with_mtime (t : Z) (n : inode) : inode :=
  mk_inode (i_kind n) (i_uid n) (i_gid n) (i_mode n) (i_xattr n) (i_acl n) (i_default n) t (i_has_ea n).

(** permission classes of a mode *)
Definition class_u (m : N) : N := (m / 64) mod 8.
Definition class_g (m : N) : N := (m / 8) mod 8.
Definition class_o (m : N) : N := m mod 8.
Definition set_classes (m u g o : N) : N := (m / 512) * 512 + u * 64 + g * 8 + o.

Definition is_mask (e : kentry) : bool := match fst e with TMask => true | _ => false end.
Definition has_mask (l : list kentry) : bool := existsb is_mask l.
(** chmod on a file with an ACL: the group bits are the mask's *)
Definition acl_chmod (m : N) (l : list kentry) : list kentry :=
  map (fun e => match fst e with
                | TUser => (TUser, class_u m)
                | TMask => (TMask, class_g m)
                | TGroup => (TGroup, if has_mask l then snd e else class_g m)
                | TOther => (TOther, class_o m)
                | _ => e
                end) l.
Definition sys_chmod (m : N) (n : inode) : inode :=
  with_acl (option_map (acl_chmod m) (i_acl n)) (with_mode m n).

(** chown: set-user-id, set-group-id (of executables) and capabilities are lost; -1 leaves
    an id; who isn't root can't give a file away *)
Definition CAPABILITY : bytes := bs "security.capability".
Definition drop_attr (k : bytes) (x : list (bytes * bytes)) : list (bytes * bytes) :=
  filter (fun p => negb (beq_bytes (fst p) k)) x.
Definition kill_suid (m : N) : N :=
  let m := N.ldiff m 2048 in if N.testbit m 3 then N.ldiff m 1024 else m.
Definition sys_chown (root : bool) (u g : Z) (n : inode) : option inode :=
  let u' := if (u =? -1)%Z then i_uid n else u in
  let g' := if (g =? -1)%Z then i_gid n else g in
  if negb root && negb ((u' =? i_uid n)%Z && (g' =? i_gid n)%Z) then None
  else Some (with_owner u' g'
              (if is_kdir (i_kind n) then n
               else with_mode (kill_suid (i_mode n)) (with_xattr (drop_attr CAPABILITY (i_xattr n)) n))).

(** which extended attributes may be changed: RNo stands for EPERM, EACCES, EOPNOTSUPP *)
Definition writable (n : inode) : bool := N.testbit (i_mode n) 7.
Definition may_change (root : bool) (n : inode) (name : bytes) : bool :=
  if starts_with (bs "user.") name then
    match i_kind n with KReg | KDir => root || writable n | _ => false end
  else if starts_with (bs "trusted.") name || starts_with (bs "security.") name then root
  else false.
(** setxattr; [fits]: there is place for the value (else E2BIG or ENOSPC) *)
Definition sys_setxattr (fits : bytes -> bytes -> bool) (root : bool) (name value : bytes) (n : inode) : option inode :=
  if may_change root n name && fits name value then Some (with_xattr (ea_set (i_xattr n) name value) n) else None.
(** listxattr: the ACLs are listed, too *)
Definition POSIX_ACL : bytes := bs "system.posix_acl_access".
Definition POSIX_DEFAULT : bytes := bs "system.posix_acl_default".
Definition sys_listxattr (n : inode) : list bytes :=
  map fst (i_xattr n) ++ (match i_acl n with Some _ => [POSIX_ACL] | None => [] end)
  ++ (match i_default n with [] => [] | _ => [POSIX_DEFAULT] end).
(** removexattr; None: PermissionError, EINVAL or ENODATA *)
Definition sys_removexattr (root : bool) (name : bytes) (n : inode) : option inode :=
  if beq_bytes name POSIX_ACL then Some (with_acl None n)
  else if beq_bytes name POSIX_DEFAULT then Some (with_default [] n)
  else if may_change root n name then Some (with_xattr (drop_attr name (i_xattr n)) n)
  else None.

(** a valid ACL: one entry each for owner, group and others, at most one mask, one if there
    are named entries, which have ids *)
Definition count (f : ktag -> bool) (l : list kentry) : nat := length (filter (fun e => f (fst e)) l).
Definition named (t : ktag) : bool := match t with TNamedUser _ | TNamedGroup _ => true | _ => false end.
Definition no_id (t : ktag) : bool := match t with TNamedUser None | TNamedGroup None => true | _ => false end.
Definition valid_acl (l : list kentry) : bool :=
  Nat.eqb (count (fun t => match t with TUser => true | _ => false end) l) 1
  && Nat.eqb (count (fun t => match t with TGroup => true | _ => false end) l) 1
  && Nat.eqb (count (fun t => match t with TOther => true | _ => false end) l) 1
  && Nat.leb (count (fun t => match t with TMask => true | _ => false end) l) 1
  && (Nat.eqb (count named l) 0 || has_mask l)
  && Nat.eqb (count no_id l) 0.
Fixpoint perms_of (f : ktag -> bool) (l : list kentry) : N :=
  match l with [] => 0 | e :: r => if f (fst e) then snd e else perms_of f r end.
Definition p_user (l : list kentry) : N := perms_of (fun t => match t with TUser => true | _ => false end) l.
Definition p_group (l : list kentry) : N :=
  if has_mask l then perms_of (fun t => match t with TMask => true | _ => false end) l
  else perms_of (fun t => match t with TGroup => true | _ => false end) l.
Definition p_other (l : list kentry) : N := perms_of (fun t => match t with TOther => true | _ => false end) l.
Definition minimal (l : list kentry) : bool := Nat.eqb (length l) 3.
(** acl_set_file(ACL_TYPE_ACCESS): no entries remove the ACL, an ACL of three entries is
    the mode; None: EINVAL *)
Definition sys_setacl (l : list kentry) (n : inode) : option inode :=
  match l with
  | [] => Some (with_acl None n)
  | _ => if valid_acl l
         then Some (with_acl (if minimal l then None else Some l)
                      (with_mode (set_classes (i_mode n) (p_user l) (p_group l) (p_other l)) n))
         else None
  end.
(** the same, ACL_TYPE_DEFAULT *)
Definition sys_setdefault (l : list kentry) (n : inode) : option inode :=
  match l with
  | [] => Some (with_default [] n)
  | _ => if valid_acl l then Some (with_default l n) else None
  end.
(** acl_get_file *)
Definition sys_getacl (n : inode) : list kentry :=
  match i_acl n with
  | Some l => l
  | None => [(TUser, class_u (i_mode n)); (TGroup, class_g (i_mode n)); (TOther, class_o (i_mode n))]
  end.

(** ** The program *)
(** generics: change_ownership, eas_write, acls_write, never_drop_acls, permission_mask *)
Record config : Type := mk_config {
  c_own : bool; c_ea : bool; c_acl : bool; c_never_drop : bool; c_mask : N }.
(** what a RORPath tells: type, owner, permissions, extended attributes, ACLs, time *)
Record attrs : Type := mk_attrs {
  t_kind : kind; t_uid : Z; t_gid : Z; t_perms : N;
  t_ea : list (bytes * bytes); t_acl : list entry; t_default : list entry; t_mtime : Z }.

Section Copy.
Variable root : bool.
Variable fits : bytes -> bytes -> bool.
(** os.utime doesn't raise OverflowError *)
Variable timely : Z -> bool.
Variable cfg : config.
(** map_owners.map_rpath_owner; map_acl_user, map_acl_group (see M_Owners) *)
Variable own_u own_g : Z -> Z.
Variable acl_u acl_g : option Z -> option bytes -> option Z.

(** rpath.py:741-760 (the sticky bit is accepted) *)
Definition chmod (p : N) (n : inode) : inode := sys_chmod (N.land p (c_mask cfg)) n.
(** 783-814 setmtime *)
Definition setmtime (t : Z) (n : inode) : inode := if timely t then with_mtime t n else n.

(** ea.py:168-205 _clear_rp.  None: an exception; io.UnsupportedOperation isn't what the
    system raises without extended attributes *)
Fixpoint remove_all (names : list bytes) (n : inode) : inode :=
  match names with
  | [] => n
  | x :: r => remove_all r (match sys_removexattr root x n with Some n' => n' | None => n end)
  end.
Definition clear_rp (n : inode) : option inode :=
  if i_has_ea n then Some (remove_all (sys_listxattr n) n) else None.
(** ea.py:122-152 write_to_rp *)
Fixpoint set_all (d : list (bytes * bytes)) (n : inode) : inode :=
  match d with
  | [] => n
  | (x, v) :: r => set_all r (match sys_setxattr fits root x v n with Some n' => n' | None => n end)
  end.
Definition write_ea (d : list (bytes * bytes)) (n : inode) : option inode :=
  match clear_rp n with Some n1 => Some (set_all d n1) | None => None end.
(** ea.py:85-120 read_from_rp, 301-312 get_meta *)
Definition RESOURCE_FORK : bytes := bs "com.apple.ResourceFork".
Definition keeps (k : kind) (name : bytes) : bool :=
  negb (starts_with (bs "system.") name) && (is_kdir k || negb (beq_bytes name RESOURCE_FORK)).
Definition get_ea (n : inode) : list (bytes * bytes) :=
  match i_kind n with
  | KSock | KFifo => []
  | _ => if i_has_ea n then filter (fun p => keeps (i_kind n) (fst p)) (i_xattr n) else []
  end.

(** acl_posix.py:469-550 _list_to_acl; [mapped]: map_names.  None: ValueError, FatalError,
    AssertionError *)
Definition permset (p : N) : N := (if 4 <=? p then 4 else 0) + p mod 4.
Definition tag_of (t : ascii) (id : option Z) : option ktag :=
  if Ascii.eqb t (chr 85) then Some TUser
  else if Ascii.eqb t (chr 117) then Some (TNamedUser id)
  else if Ascii.eqb t (chr 71) then Some TGroup
  else if Ascii.eqb t (chr 103) then Some (TNamedGroup id)
  else if Ascii.eqb t (chr 77) then Some TMask
  else if Ascii.eqb t (chr 79) then Some TOther
  else None.
Fixpoint list_to_acl (mapped : bool) (l : list entry) : option (list kentry) :=
  match l with
  | [] => Some []
  | e :: r =>
      let add id := match tag_of (e_tag e) id with
                    | Some t => option_map (cons (t, permset (e_perms e))) (list_to_acl mapped r)
                    | None => None
                    end in
      match e_pair e with
      | None => add None
      | Some (id, name) =>
          if mapped then
            if Ascii.eqb (e_tag e) (chr 117) || Ascii.eqb (e_tag e) (chr 103) then
              match (if Ascii.eqb (e_tag e) (chr 117) then acl_u id name else acl_g id name) with
              | Some i => add (Some i)
              | None => if c_never_drop cfg then None else list_to_acl mapped r
              end
            else None
          else match id with Some i => add (Some i) | None => None end
      end
  end.
(** 333-361 set_rp_acl: an ACL which the system doesn't take is logged only (and the default
    ACL not looked at); a default ACL which it doesn't take is an exception *)
Definition set_rp_acl (mapped : bool) (l d : list entry) (n : inode) : option inode :=
  match list_to_acl mapped l with
  | None => None
  | Some kl =>
      match sys_setacl kl n with
      | None => Some n
      | Some n1 =>
          if is_kdir (i_kind n1) then
            match list_to_acl mapped d with Some kd => sys_setdefault kd n1 | None => None end
          else Some n1
      end
  end.
(** 413-466 _acl_to_list, with the names of the system *)
Definition entry_of (uname gname : Z -> option bytes) (e : kentry) : entry :=
  match fst e with
  | TUser => mk_entry (chr 85) None (snd e)
  | TNamedUser id => mk_entry (chr 117) (Some (id, match id with Some i => uname i | None => None end)) (snd e)
  | TGroup => mk_entry (chr 71) None (snd e)
  | TNamedGroup id => mk_entry (chr 103) (Some (id, match id with Some i => gname i | None => None end)) (snd e)
  | TMask => mk_entry (chr 77) None (snd e)
  | TOther => mk_entry (chr 79) None (snd e)
  end.

(** rpath.py:1550-1586 copy_attribs, one step after the other (the first is the file as it was) *)
Definition then_ (f : inode -> option inode) (h : option (list inode)) : option (list inode) :=
  match h with
  | Some (n :: r) => match f n with Some n' => Some (n' :: n :: r) | None => None end
  | _ => None
  end.
Definition steps_of (src : attrs) : list (inode -> option inode) :=
  (if c_own cfg then [sys_chown root (own_u (t_uid src)) (own_g (t_gid src))] else [])
  ++ (if c_ea cfg then
        (if is_ksym (t_kind src) then [] else [fun n => Some (chmod (N.lor (t_perms src) 438) n)])
        ++ [write_ea (t_ea src)]
      else [])
  ++ (if is_ksym (t_kind src) then []
      else [fun n => Some (chmod (t_perms src) n)]
        ++ (if c_acl cfg then [set_rp_acl true (t_acl src) (t_default src)] else [])
        ++ (match t_kind src with KDev => [] | _ => [fun n => Some (setmtime (t_mtime src) n)] end)).
Definition history (src : attrs) (n : inode) : option (list inode) :=
  fold_left (fun h f => then_ f h) (steps_of src) (Some [n]).
Definition copy_attribs (src : attrs) (n : inode) : option inode :=
  match history src n with Some (n' :: _) => Some n' | _ => None end.

(** 1589-1632 copy_attribs_inc: [n] is the increment *)
Definition inc_steps (src : attrs) : list (inode -> option inode) :=
  (if c_own cfg then [sys_chown root (t_uid src) (t_gid src)] else [])
  ++ (if c_ea cfg then [write_ea (t_ea src)] else [])
  ++ (if is_ksym (t_kind src) then []
      else [fun n => Some (chmod (if is_kdir (t_kind src) && negb (is_kdir (i_kind n))
                                  then N.land (t_perms src) 511 else t_perms src) n)]
        ++ (if c_acl cfg then [set_rp_acl false (t_acl src) (t_default src)] else [])
        ++ (match t_kind src with KDev => [] | _ => [fun n => Some (setmtime (t_mtime src) n)] end)).
Definition copy_attribs_inc (src : attrs) (n : inode) : option inode :=
  match fold_left (fun h f => then_ f h) (inc_steps src) (Some [n]) with Some (n' :: _) => Some n' | _ => None end.

(** what is read from a file on the source side (rpath.py make_file_dict, get_acl, get_ea;
    acl_posix.py:364-410, 553-563) *)
Definition attrs_of (uname gname : Z -> option bytes) (n : inode) : attrs :=
  mk_attrs (i_kind n) (i_uid n) (i_gid n) (i_mode n) (get_ea n)
    (if is_ksym (i_kind n) then [] else map (entry_of uname gname) (sys_getacl n))
    (if is_kdir (i_kind n) then map (entry_of uname gname) (i_default n) else [])
    (i_mtime n).
End Copy.
