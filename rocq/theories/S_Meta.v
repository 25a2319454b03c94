(** * What the metadata file has to preserve

    Independent of how it is written and read. *)
From Coq Require Import List ZArith Bool Ascii Lia.
From Verif Require Import Base M_Iter M_Rorp.
Import List ListNotations.
Local Open Scope Z_scope.

(** a non-empty string on one line *)
Definition word (s : bytes) : Prop := s <> [] /\ ~ In nl s.
(** what a user, group or digest may be called: ":" and "None" are reserved *)
Definition a_name (v : val) : Prop :=
  match v with VStr s => word s /\ s <> bs ":" /\ s <> bs "None" | _ => False end.
Definition an_int (o : option val) : Prop := exists z, o = Some (VInt z).
Definition absent_or (P : val -> Prop) (o : option val) : Prop :=
  match o with None => True | Some v => P v end.

(** paths: components are neither empty nor contain "/" (they may contain newlines and
    backslashes) *)
Definition good_path (i : idx) : Prop :=
  i <> [bs "."] /\ forall c, In c i -> c <> [] /\ ~ In (chr 47) c.

Definition typed (d : dict) (t : bytes) : Prop := d KType = Some (VStr t).
(** a complete description of a file *)
Record described (d : dict) : Prop := mk_described {
  de_type : exists t, typed d t /\ In t [bs "reg"; bs "dir"; bs "sock"; bs "fifo"; bs "sym"; bs "dev"];
  de_owner : an_int (d KUid) /\ an_int (d KGid);
  de_names : forall k, k = KUname \/ k = KGname -> absent_or (fun v => v = VNone \/ a_name v) (d k);
  de_perms : absent_or (fun v => an_int (Some v)) (d KPerms);
  de_alt : forall k, k = KMirrorname \/ k = KIncname ->
             absent_or (fun v => exists s, v = VStr s /\ word s) (d k);
  de_reg : typed d (bs "reg") ->
             an_int (d KSize) /\ absent_or a_name (d KSha1) /\ absent_or (fun v => an_int (Some v)) (d KNlink)
             /\ (forall n, d KNlink = Some (VInt n) -> 1 < n -> an_int (d KInode) /\ an_int (d KDevloc));
  de_sym : typed d (bs "sym") -> exists s, d KLinkname = Some (VStr s) /\ s <> [];
  de_dev : typed d (bs "dev") -> exists c a b, d KDevnums = Some (VDev c a b) /\ word c /\ ~ In (chr 32) c;
  de_mtime : ~ typed d (bs "sym") -> ~ typed d (bs "dev") -> an_int (d KMtime) }.
(** "there is no such file" *)
Definition nothing (d : dict) : Prop := d KType = Some VNone.

(** The description after storage.  [hl]: hard links are recorded. *)
Definition linked_file (hl : bool) (d : dict) : bool :=
  hl && isreg d && match d KNlink with Some (VInt n) => 1 <? n | _ => false end.
Definition stored (hl : bool) (d : dict) (k : key) : option val :=
  match d KType with
  | Some VNone => match k with KType => Some VNone | _ => None end
  | _ =>
    match k with
    | KType | KUid | KGid | KMirrorname => d k
    | KUname | KGname => match d k with Some v => Some v | None => Some VNone end
    | KPerms => match d k with Some v => Some v | None => Some (VInt 0) end
    | KIncname => match d KMirrorname with None => d k | Some _ => None end
    | KSize | KSha1 => if isreg d then d k else None
    | KNlink | KInode | KDevloc => if linked_file hl d then d k else None
    | KMtime => if issym d || is_type (bs "dev") d then None else d k
    | KLinkname => if issym d then d k else None
    | KDevnums => if is_type (bs "dev") d then d k else None
    | _ => None
    end
  end.
Definition stored_as (hl : bool) (x y : rorp) : Prop :=
  r_index y = r_index x /\ forall k, r_data y k = stored hl (r_data x) k.
