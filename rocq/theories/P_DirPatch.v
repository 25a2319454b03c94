(** * C47: a restore turns the target directory into exactly what was asked for *)
From Coq Require Import List ZArith Bool Ascii Lia Sorted.
From Verif Require Import Base L_Base M_Iter L_Iter L_Tree M_TreeFs L_TreeFs M_DirPatch S_DirPatch L_DirPatch P_Iter.
Import List ListNotations.
Local Open Scope Z_scope.

(** For root as for any owner, whatever the directory [t] holds and whatever permissions its directories have, if [listed] is what
    is listed of it and [asked] the entries to restore, then, unless a directory holding something
    not listed has to go, the restore works and leaves at every path what is wanted there: type, content,
    permissions, times, those of the directories included; no temporary files; what isn't
    listed is untouched. *)
Theorem C47_restored_tree :
  forall (root : bool) (now : idx -> Z) (same : node -> node -> bool) (asked listed : list entry) (t : tree),
    (forall m n, same m n = true -> is_dir (Some m) = is_dir (Some n)) ->
    listing fst asked -> a_tree asked ->
    listing fst listed -> a_tree listed ->
    a_tree (files t) -> temps t = [] ->
    (forall i n, get i listed = Some n -> get i (files t) = Some n) ->
    (forall i, unlisted (files t) listed i -> get i asked = None) ->
    (forall d c, unlisted (files t) listed (d ++ [c]) -> get d listed <> None -> is_dir (get d asked) = true) ->
    exists t', apply root now (get_diffs same asked listed) t = Some t'
      /\ (forall i, get i (files t') = wanted same (files t) asked listed i)
      /\ (forall i, get i (temps t') = None).
Proof.
  intros root now same asked listed t Hsame H1 T1 H2 T2 T0 Ht Hl Hh Hk.
  apply apply_spec; try assumption; now apply listing_sorted.
Qed.
Print Assumptions C47_restored_tree.

(** The whole directory listed, and entries taken for the same only if they are: the directory becomes
    exactly what was asked for. *)
Theorem C47_exactly_what_was_asked :
  forall (root : bool) (now : idx -> Z) (same : node -> node -> bool) (asked : list entry) (t : tree),
    (forall m n, same m n = true -> m = n) ->
    listing fst asked -> a_tree asked ->
    listing fst (files t) -> a_tree (files t) -> temps t = [] ->
    exists t', apply root now (get_diffs same asked (files t)) t = Some t'
      /\ (forall i, get i (files t') = get i asked)
      /\ (forall i, get i (temps t') = None).
Proof.
  intros root now same asked t Hsame H1 T1 H2 T2 Ht.
  destruct (C47_restored_tree root now same asked (files t) t) as (t' & E & F & T); try assumption; auto.
  - intros m n S. now rewrite (Hsame m n S).
  - intros i (A & B). congruence.
  - intros d c (A & B). congruence.
  - exists t'. split; [assumption|]. split; [|assumption]. intros i. rewrite F. unfold wanted.
    destruct (get i asked) as [m|], (get i (files t)) as [n|]; try reflexivity.
    destruct (same m n) eqn:S; [|reflexivity]. now rewrite (Hsame m n S).
Qed.
Print Assumptions C47_exactly_what_was_asked.

(** Restoring into a directory twice, the second time nothing is a difference. *)
Theorem C47_restore_again_changes_nothing :
  forall (root : bool) (now : idx -> Z) (same : node -> node -> bool) (asked : list entry) (t : tree),
    (forall m, same m m = true) ->
    listing fst asked -> (forall i, get i (files t) = get i asked) ->
    get_diffs same asked asked = [] /\ apply root now (get_diffs same asked asked) t = Some t.
Proof.
  intros root now same asked t Hs H Hf.
  assert (E : get_diffs same asked asked = []).
  { destruct (get_diffs same asked asked) as [|[i d] l] eqn:E; [reflexivity|]. exfalso.
    assert (X : In (i, d) (get_diffs same asked asked)) by (rewrite E; now left).
    apply diffs_spec in X as (_ & X); try now apply listing_sorted. unfold differ in X.
    destruct (get i asked) as [m|]; [|assumption]. rewrite Hs in X. discriminate. }
  split; [assumption|]. now rewrite E.
Qed.
Print Assumptions C47_restore_again_changes_nothing.

(** ** Examples *)
Lemma a_tree_dec l : forallb (fun e : entry => match fst e with [] => true | _ => is_dir (get (removelast (fst e)) l) end) l = true ->
  a_tree l.
Proof.
  intros H d c n G. apply get_in in G. rewrite forallb_forall in H. apply H in G. cbn [fst] in G.
  destruct (d ++ [c]) as [|x r] eqn:E; [now destruct d|]. rewrite <- E, removelast_last in G.
  destruct (get d l) as [[a|? ?]|]; try discriminate. eauto.
Qed.
Lemma listing_dec (l : list entry) :
  (fix chk l := match l with [] => true | x :: l' => forallb (fun y : entry => idx_ltb (fst x) (fst y)) l' && chk l' end) l = true ->
  listing fst l.
Proof. apply sorted_dec. intros x y H. now apply before_lt, idx_ltb_lt. Qed.

Definition ex_a p m := mk_attr p m (bs "u:g").
(** a directory to be replaced by a file, a file by a directory, a closed directory with changed and
    unchanged content, times and permissions everywhere *)
Definition ex_old : list entry :=
  [([], NDir (ex_a 493 10)); ([bs "d"], NDir (ex_a 0 11)); ([bs "d"; bs "s"], NDir (ex_a 64 12));
   ([bs "d"; bs "s"; bs "f"], NOther (bs "one") (ex_a 420 13)); ([bs "d"; bs "x"], NOther (bs "x") (ex_a 256 14));
   ([bs "f"], NOther (bs "file") (ex_a 0 15)); ([bs "k"], NDir (ex_a 320 16)); ([bs "k"; bs "u"], NOther (bs "u") (ex_a 0 17));
   ([bs "k"; bs "v"], NOther (bs "v") (ex_a 0 18))].
Definition ex_new : list entry :=
  [([], NDir (ex_a 493 20)); ([bs "d"], NOther (bs "now a file") (ex_a 420 21)); ([bs "f"], NDir (ex_a 256 22));
   ([bs "f"; bs "n"], NDir (ex_a 0 23)); ([bs "f"; bs "n"; bs "m"], NOther (bs "m") (ex_a 0 24));
   ([bs "k"], NDir (ex_a 320 16)); ([bs "k"; bs "u"], NOther (bs "u") (ex_a 0 17));
   ([bs "k"; bs "v"], NOther (bs "new v") (ex_a 0 28))].
Definition bytes_same (x y : bytes) : bool := match bytes_cmp x y with Eq => true | _ => false end.
Definition attr_same (a b : attr) : bool :=
  (a_perms a =? a_perms b) && (a_mtime a =? a_mtime b) && bytes_same (a_rest a) (a_rest b).
Definition node_same (m n : node) : bool :=
  match m, n with
  | NDir a, NDir b => attr_same a b
  | NOther d a, NOther e b => bytes_same d e && attr_same a b
  | _, _ => false
  end.
Lemma bytes_same_eq x y : bytes_same x y = true -> x = y.
Proof. unfold bytes_same. intros H. apply (gc_eq _ bytes_good). now destruct (bytes_cmp x y). Qed.
Lemma node_same_eq m n : node_same m n = true -> m = n.
Proof.
  assert (A : forall a b, attr_same a b = true -> a = b).
  { intros [p m' r] [p' m'' r'] H. unfold attr_same in H. cbn in H. apply andb_true_iff in H as (H & H3).
    apply andb_true_iff in H as (H1 & H2). apply Z.eqb_eq in H1, H2. apply bytes_same_eq in H3. congruence. }
  destruct m as [a|d a], n as [b|e b]; cbn [node_same]; try discriminate.
  - intros H. apply A in H. now subst.
  - intros H. apply andb_true_iff in H as (H1 & H2). apply bytes_same_eq in H1. apply A in H2. congruence.
Qed.

Example ex_hypotheses :
  listing fst ex_new /\ a_tree ex_new /\ listing fst ex_old /\ a_tree ex_old.
Proof. repeat split; try (apply listing_dec; reflexivity); apply a_tree_dec; reflexivity. Qed.
Example ex_restored :
  exists t', apply false (fun _ => 99) (get_diffs node_same ex_new ex_old) (mk_tree ex_old []) = Some t'
    /\ (forall i, get i (files t') = get i ex_new) /\ (forall i, get i (temps t') = None).
Proof.
  destruct ex_hypotheses as (A & B & C & D).
  apply (C47_exactly_what_was_asked false (fun _ => 99) node_same ex_new (mk_tree ex_old [])); auto using node_same_eq.
Qed.
(** the same by computing *)
Example ex_restored_computed :
  match apply false (fun _ => 99) (get_diffs node_same ex_new ex_old) (mk_tree ex_old []) with
  | Some t' => forallb (fun e => match get (fst e) (files t') with Some n => node_same n (snd e) | None => false end) ex_new
               && (length (files t') =? length ex_new)%nat && match temps t' with [] => true | _ => false end
  | None => false
  end = true.
Proof. reflexivity. Qed.

(** The condition on what isn't listed is needed: an excluded file in a directory which is to be
    removed stops the restore. *)
Definition ex_hidden : list entry := [([], NDir (ex_a 493 1)); ([bs "d"], NDir (ex_a 493 2)); ([bs "d"; bs "x"], NOther (bs "x") (ex_a 420 3))].
Theorem C47_excluded_file_in_the_way_refuted :
  ~ (forall (root : bool) (now : idx -> Z) (same : node -> node -> bool) (asked listed : list entry) (t : tree),
      (forall m n, same m n = true -> m = n) ->
      listing fst asked -> a_tree asked -> listing fst listed -> a_tree listed -> a_tree (files t) -> temps t = [] ->
      (forall i n, get i listed = Some n -> get i (files t) = Some n) ->
      (forall i, unlisted (files t) listed i -> get i asked = None) ->
      exists t', apply root now (get_diffs same asked listed) t = Some t').
Proof.
  intros H.
  destruct (H false (fun _ => 9) node_same [([], NDir (ex_a 493 1))] (firstn 2 ex_hidden) (mk_tree ex_hidden [])) as (t' & E).
  - apply node_same_eq.
  - apply listing_dec. reflexivity.
  - apply a_tree_dec. reflexivity.
  - apply listing_dec. reflexivity.
  - apply a_tree_dec. reflexivity.
  - apply a_tree_dec. reflexivity.
  - reflexivity.
  - intros i n G. cbn [files]. unfold ex_hidden in *. cbn [firstn get] in *.
    destruct (idx_eqb [] i); [assumption|]. destruct (idx_eqb [bs "d"] i); [assumption|discriminate].
  - intros i (_ & G). cbn [firstn ex_hidden get] in *. destruct (idx_eqb [] i); [discriminate|reflexivity].
  - vm_compute in E. discriminate.
Qed.
Print Assumptions C47_excluded_file_in_the_way_refuted.
