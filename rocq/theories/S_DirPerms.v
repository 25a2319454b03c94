(** * Permissions of the mirror's directories after a session *)
From Coq Require Import List ZArith Bool Ascii.
From Verif Require Import Base M_Iter M_TreeFs M_DirPatch M_RepoPatch S_DirPatch S_RepoPatch M_DirPerms.
Import List ListNotations.
Local Open Scope Z_scope.

(** the mirror at a path: as the metadata say, or, if a directory, usable for its owner *)
Definition as_listed (root : bool) (mirror f : list entry) : Prop :=
  forall i n, get i mirror = Some n -> get i f = Some n \/ get i f = Some (opened root n).

Section Spec.
Variable root : bool.
Variable same : node -> node -> bool.
Variable made : idx -> option node -> option (option node).
Variables source mirror : list entry.
Variable f : list entry.          (* everything in the mirror directory *)

(** a directory which its owner couldn't use was there before *)
Definition was_closed (i : idx) : bool :=
  match get i mirror with Some (NDir b) => negb root && (a_perms b mod 512 <? 448) | _ => false end.

(** what is in the mirror at the end: as [mirror_after], with the permissions of the source for
    directories closed before; what didn't change is as listed *)
Definition mirror_closed (i : idx) : option node :=
  if differs same source mirror i then
    match get i source with
    | Some (NDir a) => Some (NDir (if was_closed i then a else kept_usable root a))
    | n => match made i n with Some r => r | None => get i mirror end
    end
  else match get i mirror with Some n => Some n | None => get i f end.
End Spec.

(** sessions as in S_RepoPatch, with the directories opened and closed *)
Definition run_session_p (root : bool) (same : node -> node -> bool) (s : session) (st : tree * list entry)
  : option (tree * list entry) :=
  let '(t, meta) := st in
  match dp_session root (s_now s) (s_increments s) (fun _ => true) (s_made s) same (s_source s) meta t with
  | None => None
  | Some (flags, t') => Some (t', new_metadata (s_source s) meta flags)
  end.
Fixpoint run_sessions_p (root : bool) (same : node -> node -> bool) (l : list session) (st : tree * list entry)
  : option (tree * list entry) :=
  match l with
  | [] => Some st
  | s :: l' => match run_session_p root same s st with None => None | Some st' => run_sessions_p root same l' st' end
  end.

(** the metadata describe the mirror, apart from what is [hidden], and directories may have the permissions to use them added *)
Definition describes_opened (root : bool) (hidden : idx -> bool) (t : tree) (meta : list entry) : Prop :=
  (forall i, hidden i = false -> get i (files t) = get i meta \/ get i (files t) = option_map (opened root) (get i meta))
  /\ (forall i, hidden i = true -> get i meta = None)
  /\ forall i, get i (temps t) = None.
