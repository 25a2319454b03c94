(** * Specification of the selection of files *)
From Coq Require Import List ZArith Bool Ascii.
From Verif Require Import Base M_Iter P_Iter M_Select.
Import List ListNotations.
Local Open Scope Z_scope.

(** Names are unique in every directory. *)
Inductive wf_tree : ftree -> Prop :=
| WF : forall i ch, NoDup (map fst ch) -> Forall (fun x => wf_tree (snd x)) ch -> wf_tree (FT i ch).

(** A decision about each file. *)
Definition decision := idx -> ftree -> option verdict.

(** An entry is looked into further if it is included, or if it is a directory
    to be scanned. *)
Definition accepted (D : decision) (i : idx) (t : ftree) : Prop :=
  t_gone t = false /\ (D i t = Some Include \/ D i t = Some Doscan /\ t_isdir t = true).

(** [visited D d ch i t]: starting in the directory [d] with entries [ch], one
    comes to the file [i] (being [t]) without passing through, or ending in, an
    entry which is not accepted. *)
Inductive visited (D : decision) : idx -> list (bytes * ftree) -> idx -> ftree -> Prop :=
| V_here : forall d ch n t, In (n, t) ch -> accepted D (d ++ [n]) t -> visited D d ch (d ++ [n]) t
| V_below : forall d ch n t i u, In (n, t) ch -> accepted D (d ++ [n]) t -> t_isdir t = true ->
    visited D (d ++ [n]) (t_ch t) i u -> visited D d ch i u.

(** What is to be selected below the directory [d]: what is visited and included,
    and the directories visited above such a file. *)
Definition chosen (D : decision) (d : idx) (ch : list (bytes * ftree)) (i : idx) (t : ftree) : Prop :=
  visited D d ch i t /\
  (D i t = Some Include \/
   exists r u, r <> [] /\ visited D d ch (i ++ r) u /\ D (i ++ r) u = Some Include).

(** The decision by the options alone, each file on its own: the options are
    consulted as if no other file had been looked at before. *)
Definition decide (c : sctx) (fs : list sf) : decision :=
  fun i t => fst (select_default c fs (real_rp c i t)).

(** A fresh selection function: nothing of its file list consumed yet. *)
Definition fresh (f : sf) : Prop := match f with SfFilelist _ _ i => i = O | _ => True end.

(** The options for which the claims are made: no --exclude-other-filesystems and
    no file list both excluding (by its default or by a line) and containing
    an including line. *)
Definition tame (f : sf) : Prop :=
  match f with
  | SfOtherFs _ inc => inc = true
  | SfFilelist l e _ => e = false \/ forall p, In p l -> snd p = false
  | _ => True
  end.

(** What an option says about a file. *)
Definition says (c : sctx) (f : sf) (rp : srp) : sres := fst (call c f rp).
Definition undecided (r : sres) : Prop := r = Says None \/ r = Says (Some Doscan).

(** ** Globs *)

(** The documented meaning of a glob without brackets and backslashes: [*] and
    [?] do not match a slash, [**] matches everything. *)
Inductive glob_matches : bytes -> bytes -> Prop :=
| G_end : glob_matches [] []
| G_char : forall c g p, is_special c = false -> glob_matches g p -> glob_matches (c :: g) (c :: p)
| G_quest : forall x g p, x <> slash -> glob_matches g p -> glob_matches (c_quest :: g) (x :: p)
| G_star : forall g s p, (forall g', g <> c_star :: g') -> ~ In slash s ->
    glob_matches g p -> glob_matches (c_star :: g) (s ++ p)
| G_dstar : forall g s p, glob_matches g p -> glob_matches (c_star :: c_star :: g) (s ++ p).
Definition plain_glob (g : bytes) : Prop :=
  ~ In c_open g /\ ~ In c_bs g /\ has_ignorecase g = false.

(** The file [i] (being [t]) is in the tree below the directory [d]. *)
Inductive located : idx -> list (bytes * ftree) -> idx -> ftree -> Prop :=
| L_here : forall d ch n t, In (n, t) ch -> t_gone t = false -> located d ch (d ++ [n]) t
| L_below : forall d ch n t i u, In (n, t) ch -> t_gone t = false -> t_isdir t = true ->
    located (d ++ [n]) (t_ch t) i u -> located d ch i u.

(** The glob matches the path of the file or the path of a directory above it. *)
Definition covered (c : sctx) (g : bytes) (i : idx) : Prop :=
  exists p rest, path_of c i = p ++ rest /\ glob_matches g p /\ (rest = [] \/ exists r, rest = slash :: r).

(** The file belongs to rdiff-backup's own data. *)
Definition own_data (i : idx) : Prop := exists r, i = rbdir :: r.

(** For filtered listings: the decision about one entry. *)
Definition decide_item (c : sctx) (fs : list sf) (x : idx * finfo) : option verdict :=
  fst (select_default c fs (item_rp c x)).
