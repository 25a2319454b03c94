(** * What a user expects of a backup repository (specification for C44, C45, C46) *)
From Coq Require Import List ZArith Bool Sorting.Permutation.
From Verif Require Import Base M_Core P_Core M_Crash M_Iter L_Iter P_Iter M_MetaMgr M_Global.
Import List ListNotations.
Local Open Scope Z_scope.

Section Spec.
Context {attr : Type}.
Notation gevent := (@gevent attr).
Notation tree := (@tree attr).
Notation repo := (@repo attr).

(** the trees which an event brings in: the sources of sessions, completed or not, and
    the files which were in the directory before the first one *)
Definition trees_of (e : gevent) : list tree :=
  match e with
  | GSession _ src _ _ => [src]
  | GCrash _ src _ _ _ _ _ _ _ _ _ => [src]
  | GRemove _ _ | GForced _ _ _ => []
  | GFirst m0 _ tries _ src _ _ => m0 :: src :: map y_src tries
  end.

(** The sessions held by the repository, oldest first, with source tree and outcome per
    path: those completed and neither removed nor undone by regress --force; an
    interrupted session isn't one. *)
Definition held_step (l : list (Z * tree * (idx -> outcome attr))) (e : gevent) :=
  match e with
  | GSession t src o _ => l ++ [(t, src, o)]
  | GCrash _ _ _ _ _ _ _ rms _ _ _ => filter (fun x => forallb (fun rm => fst rm <=? fst (fst x)) rms) l
  | GRemove rt _ => filter (fun x => rt <=? fst (fst x)) l
  | GForced _ _ _ => removelast l
  | GFirst _ _ _ t src o _ => l ++ [(t, src, o)]
  end.
Definition held (evs : list gevent) := fold_left held_step evs [].

(** the versions of a path and its contents; a version may also be seen with the
    attributes found in the mirror *)
Definition brings (e : gevent) (p : idx) (n : node attr) : Prop :=
  exists src, In src (trees_of e) /\ node_at src p = n.
Definition found_as (e : gevent) (n n' : node attr) : Prop :=
  match e with GFirst _ fa _ _ _ _ _ => n' = as_found fa n | _ => False end.
Definition version (evs : list gevent) (p : idx) (n : node attr) : Prop :=
  exists e n0, In e evs /\ brings e p n0 /\ (n = n0 \/ found_as e n0 n).
Definition contents (evs : list gevent) (p : idx) (c : bytes) : Prop :=
  c = [] \/ exists a, version evs p (Reg c a).

(** no two versions of a path have the same size and attributes taken for equal but
    different contents *)
Definition differences_show (cmp : attr -> attr -> bool) (evs : list gevent) : Prop :=
  forall p c a c' a', version evs p (Reg c a) -> version evs p (Reg c' a') ->
    length c = length c' -> cmp a a' = true -> c = c'.

(** also not when the attributes of both are taken for those of some third file *)
Definition differences_show_via (cmp : attr -> attr -> bool) (evs : list gevent) : Prop :=
  forall p c a c' a' b, version evs p (Reg c a) -> version evs p (Reg c' a') ->
    length c = length c' -> cmp a b = true -> cmp a' b = true -> c = c'.

(** in completed sessions no error is caught between writing an increment and replacing
    the mirror file, and no special file is replaced by an empty regular one *)
Definition outcomes_ok (evs : list gevent) : Prop :=
  forall t src o p,
    (exists zd, In (GSession t src o zd) evs) \/ (exists m0 fa tries zd, In (GFirst m0 fa tries t src o zd) evs) ->
    match o p with OIncFail _ | ORenameFail | OSpecialFail _ => False | _ => True end.

(** sources are listed in order, each path once *)
Definition well_formed (e : gevent) : Prop :=
  Forall (listing fst) (trees_of e).

(** the same repository, with directories listed in another order *)
Definition relisted (r r' : repo) : Prop :=
  markers (r_data r') = markers (r_data r) /\ Permutation (mfiles (r_data r)) (mfiles (r_data r')) /\
  others (r_data r') = others (r_data r) /\ incs_used (r_data r') = incs_used (r_data r) /\
  forall p, fst (r_path r' p) = fst (r_path r p) /\ Permutation (snd (r_path r p)) (snd (r_path r' p)).

Section Runs.
Variable delta : bytes -> bytes -> bytes.
Variable patch : bytes -> bytes -> option bytes.
Variable sha1 : attr -> bytes -> option bytes.
Variables same loose : attr -> attr -> bool.
Variable deq : meta attr -> meta attr -> bool.

(** life of a repository: events one after the other, the listing order arbitrary *)
Inductive grun : list gevent -> repo -> Prop :=
| G_new : grun [] gempty
| G_step evs r e r' : grun evs r -> well_formed e ->
    gstep delta patch sha1 same loose deq e r r' -> grun (evs ++ [e]) r'
| G_relist evs r r' : grun evs r -> relisted r r' -> grun evs r'.
End Runs.

(** the conditions under which all of this is claimed *)
Record fine delta patch (sha1 : attr -> bytes -> option bytes) (same loose : attr -> attr -> bool) (evs : list gevent) : Prop := {
  f_librsync : forall p, librsync_works (contents evs p) delta patch;
  f_sha1 : forall p, no_collision (contents evs p) sha1;
  f_same : differences_show same evs;
  f_loose : differences_show loose evs;
  (** attributes under which no hash is recorded compare equal to themselves *)
  f_unhashed : forall a c, sha1 a c = None -> loose a a = true;
  (** the attributes found in the mirror are those of the mirror file, without a hash *)
  f_found : forall m0 fa tries t src o zd, In (GFirst m0 fa tries t src o zd) evs ->
    forall a, loose (fa a) a = true /\ forall c, sha1 (fa a) c = None;
  f_out : outcomes_ok evs;
  f_forced : (exists used att zl, In (GForced used att zl) evs) -> differences_show_via loose evs }.

(** ** Operations in any order *)
(** an operation on the data directory or on the files of a path *)
Definition gop : Type := (@dop (meta attr) + idx * pop attr)%type.
Fixpoint on_data (l : list gop) : list dop :=
  match l with [] => [] | inl o :: l' => o :: on_data l' | inr _ :: l' => on_data l' end.
Fixpoint on_path (p : idx) (l : list gop) : list (pop attr) :=
  match l with
  | [] => []
  | inl _ :: l' => on_path p l'
  | inr (q, o) :: l' => if idx_eqb q p then o :: on_path p l' else on_path p l'
  end.
Definition run_gop (t1 : Z) (o : gop) (r : repo) : repo :=
  match o with
  | inl o => mk_repo (run_dop o (r_data r)) (r_path r)
  | inr (q, o) =>
      mk_repo (r_data r)
        (fun p => if idx_eqb q p then files_of (run_pop t1 o (pst None None (r_path r p))) else r_path r p)
  end.
Fixpoint run_gops (t1 : Z) (l : list gop) (r : repo) : repo :=
  match l with [] => r | o :: l' => run_gops t1 l' (run_gop t1 o r) end.
End Spec.
