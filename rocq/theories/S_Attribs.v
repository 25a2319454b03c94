(** * What it means that a file has the attributes of another one *)
From Coq Require Import List ZArith NArith Bool Ascii.
From Verif Require Import Base M_EaAcl M_Attribs.
Import List ListNotations.
Local Open Scope N_scope.

(** the value of an extended attribute *)
Fixpoint value (name : bytes) (x : list (bytes * bytes)) : option bytes :=
  match x with [] => None | (n, v) :: r => if beq_bytes n name then Some v else value name r end.

(** extended attributes a process may have on a file it owns: those of users on regular files
    and directories, for root also the trusted and security ones *)
Definition possible (root : bool) (k : kind) (name : bytes) : bool :=
  if starts_with (bs "user.") name then match k with KReg | KDir => true | _ => false end
  else (starts_with (bs "trusted.") name || starts_with (bs "security.") name) && root.

(** the ACL a list of entries stands for, on a system where users and groups are found by
    [acl_u] and [acl_g]; entries for nobody known are left out *)
Definition granted (acl_u acl_g : option Z -> option bytes -> option Z) (e : entry) : option kentry :=
  match e_pair e with
  | None =>
      if Ascii.eqb (e_tag e) "U" then Some (TUser, e_perms e)
      else if Ascii.eqb (e_tag e) "G" then Some (TGroup, e_perms e)
      else if Ascii.eqb (e_tag e) "M" then Some (TMask, e_perms e)
      else Some (TOther, e_perms e)
  | Some (id, name) =>
      if Ascii.eqb (e_tag e) "u"
      then option_map (fun i => (TNamedUser (Some i), e_perms e)) (acl_u id name)
      else option_map (fun i => (TNamedGroup (Some i), e_perms e)) (acl_g id name)
  end.
Fixpoint known {A} (l : list (option A)) : list A :=
  match l with [] => [] | Some x :: r => x :: known r | None :: r => known r end.
Definition stands_for (acl_u acl_g : option Z -> option bytes -> option Z) (l : list entry) : list kentry :=
  known (map (granted acl_u acl_g) l).

(** entries as they are read from files: U, G, M, O for nobody in particular, u and g for
    somebody *)
Definition plain_entry (e : entry) : Prop :=
  e_perms e < 8 /\
  ((In (e_tag e) ["U"; "G"; "M"; "O"]%char /\ e_pair e = None) \/
   (In (e_tag e) ["u"; "g"]%char /\ e_pair e <> None)).
(** an ACL and the permissions of the same file: none, or one which says the same about
    owner, group (or mask) and others *)
Definition agrees (l : list kentry) (perms : N) : Prop :=
  valid_acl l = true /\ p_user l = (perms / 64) mod 8 /\ p_group l = (perms / 8) mod 8 /\ p_other l = perms mod 8.
