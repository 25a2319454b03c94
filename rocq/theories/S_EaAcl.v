(** * What the files of extended attributes and ACLs have to preserve *)
From Coq Require Import List ZArith Bool Ascii Lia.
From Verif Require Import Base M_Iter S_Meta M_EaAcl.
Import List ListNotations.
Local Open Scope Z_scope.

(** printable ASCII without space, backslash and equal sign *)
Definition plain_byte (c : ascii) : Prop := (33 <= ord c <= 126)%N /\ c <> chr 92 /\ c <> chr 61.
(** attributes with names of such bytes, and any values *)
Definition plain_eas (e : eas) : Prop :=
  good_path (ea_index e) /\ NoDup (map fst (ea_dict e)) /\
  forall n, In n (map fst (ea_dict e)) -> n <> [] /\ forall c, In c n -> plain_byte c.

(** user and group names: a letter somewhere, no colon, "#" or line break *)
Definition letter (c : ascii) : Prop := (65 <= ord c <= 90)%N \/ (97 <= ord c <= 122)%N.
Definition login (n : bytes) : Prop :=
  (exists c, In c n /\ letter c) /\ ~ In (chr 58) n /\ ~ In (chr 35) n /\ ~ In nl n.
(** entries: user::, group::, mask::, other:: without an owner; user:X:, group:X: with an id
    and possibly a name *)
Definition entry_ok (e : entry) : Prop :=
  (e_perms e < 8)%N /\
  ((In (e_tag e) (bs "UGMO") /\ e_pair e = None) \/
   (In (e_tag e) (bs "ug") /\ exists id n, e_pair e = Some (Some id, n) /\
      match n with None => True | Some n => login n end)).
Definition acl_ok (a : acl) : Prop :=
  good_path (a_index a) /\ Forall entry_ok (a_list a) /\ Forall entry_ok (a_default a) /\
  (a_list a = [] /\ a_default a = [] \/ 3 <= length (a_list a))%nat.
(** an ACL which says more than the three permission triples *)
Definition extended (a : acl) : bool := (3 <? length (a_list a))%nat || negb (Nat.eqb (length (a_default a)) 0).

(** the same entry, for a reader: permissions, kind, and the owner by name if it has one,
    else by id *)
Definition same_entry (e f : entry) : Prop :=
  e_tag f = e_tag e /\ e_perms f = e_perms e /\
  e_pair f = match e_pair e with
             | None => None
             | Some (_, Some n) => Some (None, Some n)
             | Some (i, None) => Some (i, None)
             end.
Definition same_acl (a b : acl) : Prop :=
  a_index b = a_index a /\ Forall2 same_entry (a_list a) (a_list b) /\ Forall2 same_entry (a_default a) (a_default b).
