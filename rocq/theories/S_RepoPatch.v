(** * What the mirror is to become *)
From Coq Require Import List ZArith Bool Ascii.
From Verif Require Import Base M_Iter P_Iter M_TreeFs M_DirPatch M_RepoPatch S_DirPatch.
Import List ListNotations.
Local Open Scope Z_scope.

Section Spec.
Variable root : bool.
Variable same : node -> node -> bool.
Variable made : idx -> option node -> option (option node).
Variables source mirror : list entry.
Variable f : list entry.          (* everything in the mirror directory *)

(** source and mirror differ at [i] *)
Definition differs (i : idx) : bool :=
  match get i source, get i mirror with
  | Some m, Some t => negb (same m t)
  | None, None => false
  | _, _ => true
  end.

(** a directory with few permissions is kept usable for its owner until the end of the session *)
Definition kept_usable (a : attr) : attr :=
  if negb root && (a_perms a mod 512 <? 448) then mk_attr (Z.lor 448 (a_perms a)) (a_mtime a) (a_rest a) else a.

Definition opened (n : node) : node := match n with NDir a => NDir (kept_usable a) | _ => n end.

(** what is in the mirror after the session: at changed paths the directory of the source, or the file
    made, or, if that failed, what was there; at the others what was there *)
Definition mirror_after (i : idx) : option node :=
  if differs i then
    match get i source with
    | Some (NDir a) => Some (NDir (kept_usable a))
    | n => match made i n with Some r => r | None => get i mirror end
    end
  else get i f.

(** what the metadata of the session says: according to what the cache is told (C35), the source, or
    nothing, or as before *)
Definition recorded (flags : list flag) (i : idx) : option node :=
  match find (fun fl => idx_eqb (fst fl) i) flags with
  | None => get i mirror
  | Some (_, n) => if Nat.eqb n 1 then get i source else None
  end.
End Spec.

(** ** Sessions one after the other *)
Record session : Type := mk_session {
  s_now : idx -> Z;                                        (* the clock *)
  s_increments : bool;
  s_made : idx -> option node -> option (option node);     (* what is made of a file, or failure *)
  s_source : list entry }.

Definition pair_path (p : option entry * option entry) : idx :=
  match p with (Some x, _) => fst x | (None, Some y) => fst y | (None, None) => [] end.
(** the metadata written: of every path in source or old metadata, in order, what is recorded *)
Definition new_metadata (source mirror : list entry) (flags : list flag) : list entry :=
  flat_map (fun p => let i := pair_path p in
                     match recorded source mirror flags i with Some n => [(i, n)] | None => [] end)
           (collate2 fst fst source mirror).

(** one session: the differences found with the old metadata are applied to the mirror; new metadata *)
Definition run_session (root : bool) (same : node -> node -> bool) (s : session) (st : tree * list entry)
  : option (tree * list entry) :=
  let '(t, meta) := st in
  match rp_apply root (s_now s) (s_increments s) (fun i => get i meta) (fun _ => true) (s_made s)
          (get_diffs same (s_source s) meta) t with
  | None => None
  | Some (flags, t') => Some (t', new_metadata (s_source s) meta flags)
  end.
Fixpoint run_sessions (root : bool) (same : node -> node -> bool) (l : list session) (st : tree * list entry)
  : option (tree * list entry) :=
  match l with
  | [] => Some st
  | s :: l' => match run_session root same s st with None => None | Some st' => run_sessions root same l' st' end
  end.

(** everything in the directory [data] (rdiff-backup-data) at the top of the mirror *)
Definition in_data (data : bytes) (i : idx) : bool := match i with c :: _ => beq_bytes c data | [] => false end.
(** the metadata describe the mirror, apart from what is [hidden] in it *)
Definition describes (hidden : idx -> bool) (t : tree) (meta : list entry) : Prop :=
  (forall i, hidden i = false -> get i (files t) = get i meta) /\ (forall i, hidden i = true -> get i meta = None)
  /\ forall i, get i (temps t) = None.

(** a session whose source is readable and holds nothing at hidden paths; where a failure is the worst that can become of a file;
    where a failed deletion isn't in a directory to be removed *)
Definition sound_session (root : bool) (hidden : idx -> bool) (s : session) : Prop :=
  listing fst (s_source s) /\ a_tree (s_source s) /\ is_dir (get [] (s_source s)) = true
  /\ (forall i, hidden i = true -> get i (s_source s) = None)
  /\ (root = true \/ forall i a, get i (s_source s) = Some (NDir a) -> low (a_perms a) = false)
  /\ (forall i r, s_made s i None = Some r -> r = None)
  /\ (forall i n r, s_made s i (Some n) = Some r -> is_dir (Some n) = false /\ r = Some n)
  /\ (forall d c, s_made s (d ++ [c]) None = None -> is_dir (get d (s_source s)) = true).
