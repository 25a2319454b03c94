(** * What a user expects at every moment in the life of a repository (specification
      for C64) *)
From Coq Require Import List ZArith Bool.
From Verif Require Import Base M_Core P_Core M_Crash M_Iter P_Iter M_MetaMgr M_Global S_Global M_Life.
Import List ListNotations.
Local Open Scope Z_scope.

Section Spec.
Context {attr : Type}.
Notation action := (@action attr).
Notation tree := (@tree attr).
Notation repo := (@repo attr).

(** the source of a session, completed or not *)
Definition source_of (a : action) : list tree :=
  match a with
  | ASession _ src _ _ | AKilled _ src _ _ _ _ _ | AFirst _ src _ _ => [src]
  | AFirstKilled y => [y_src y]
  | _ => []
  end.

(** The sessions held, oldest first: those completed, and neither removed (a removal
    which was begun counts) nor undone by regress --force *)
Definition holding (l : list (Z * tree * (idx -> outcome attr))) (a : action) :=
  match a with
  | ASession t src o _ | AFirst t src o _ => l ++ [(t, src, o)]
  | ARemove rt _ | ARemoveKilled rt _ => filter (fun x => rt <=? fst (fst x)) l
  | AForce => removelast l
  | AKilled _ _ _ _ _ _ _ | AFirstKilled _ | ARegress _ _ | ARegressKilled _ _ _ _ => l
  end.
Definition holds_after (acts : list action) := fold_left holding acts [].

Section Runs.
Variable delta : bytes -> bytes -> bytes.
Variable patch : bytes -> bytes -> option bytes.
Variable sha1 : attr -> bytes -> option bytes.
Variables same loose : attr -> attr -> bool.
Variable deq : meta attr -> meta attr -> bool.
Variable fa : attr -> attr.
(** the files in the directory before the first call *)
Variable m0 : tree.

(** any calls one after the other; sources are listed in order, each path once; the
    order in which directories are listed is arbitrary *)
Inductive life : list action -> repo -> Prop :=
| L_new : life [] (plain_dir m0)
| L_act acts r a r' : life acts r -> Forall (listing fst) (source_of a) ->
    act delta patch sha1 same loose deq fa a r r' -> life (acts ++ [a]) r'
| L_list acts r r' : life acts r -> relisted r r' -> life acts r'.

(** the versions of a path: those of the sources and of the files found at the begin,
    also with the attributes read from the mirror *)
Definition seen (acts : list action) (p : idx) (n : node attr) : Prop :=
  exists src, (src = m0 \/ exists a, In a acts /\ In src (source_of a)) /\
    (n = node_at src p \/ n = as_found fa (node_at src p)).
Definition bytes_seen (acts : list action) (p : idx) (c : bytes) : Prop :=
  c = [] \/ exists a, seen acts p (Reg c a).
(** no two versions of a path have the same size and attributes taken for equal but
    different contents *)
Definition tells (cmp : attr -> attr -> bool) (acts : list action) : Prop :=
  forall p c a c' a', seen acts p (Reg c a) -> seen acts p (Reg c' a') ->
    length c = length c' -> cmp a a' = true -> c = c'.
(** also not when the attributes of both are taken for those of some third file *)
Definition tells_via (cmp : attr -> attr -> bool) (acts : list action) : Prop :=
  forall p c a c' a' b, seen acts p (Reg c a) -> seen acts p (Reg c' a') ->
    length c = length c' -> cmp a b = true -> cmp a' b = true -> c = c'.

(** the conditions of C44 *)
Record sound (acts : list action) : Prop := {
  o_librsync : forall p, librsync_works (bytes_seen acts p) delta patch;
  o_sha1 : forall p, no_collision (bytes_seen acts p) sha1;
  o_same : tells same acts;
  o_loose : tells loose acts;
  o_unhashed : forall a c, sha1 a c = None -> loose a a = true;
  o_found : forall a, loose (fa a) a = true /\ forall c, sha1 (fa a) c = None;
  o_out : forall t src o zd p, In (ASession t src o zd) acts \/ In (AFirst t src o zd) acts ->
    match o p with OIncFail _ | ORenameFail | OSpecialFail _ => False | _ => True end;
  o_forced : In AForce acts -> tells_via loose acts }.

(** every one of the sessions can be restored, each path which was updated in that
    session as it was in the source *)
Definition all_restored (l : list (Z * tree * (idx -> outcome attr))) (r : repo) : Prop :=
  forall t src o, In (t, src, o) l ->
  exists lt, restore_tree patch t [] r = Some lt /\ listing fst lt /\ (forall x, In x lt -> snd x <> Absent) /\
    forall p, updated (o p) -> same_state same (node_at src p) (node_at lt p).

(** regress --force with only one session left isn't called after a removal was killed:
    what is left of removed sessions would be taken for sessions (see
    C64_forced_after_killed_removal_refuted) *)
Definition careful (acts : list action) : Prop :=
  forall pre post, acts = pre ++ AForce :: post -> (exists rt u, In (ARemoveKilled rt u) pre) ->
    (2 <= length (holds_after pre))%nat.

Definition newest (l : list (Z * tree * (idx -> outcome attr))) (t : Z) : Prop :=
  exists l' src o, l = l' ++ [(t, src, o)].
End Runs.
End Spec.
