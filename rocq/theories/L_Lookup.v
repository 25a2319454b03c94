(** Lookups in sorted listings; listings as finite maps *)
From Coq Require Import List Bool Lia Sorting.Sorted.
From Verif Require Import Base L_Base M_Iter L_Iter L_Tree.
Import List ListNotations.

Lemma sorted_ext {A} (key : A -> idx) l1 : forall l2, sorted_by key l1 -> sorted_by key l2 ->
  (forall i, find_key key i l1 = find_key key i l2) -> l1 = l2.
Proof.
  induction l1 as [|x l1 IH]; intros [|y l2] S1 S2 H; auto.
  - specialize (H (key y)). cbn in H. now rewrite idx_eqb_refl in H.
  - specialize (H (key x)). cbn in H. now rewrite idx_eqb_refl in H.
  - pose proof (sorted_inv _ _ _ S1) as [S1' F1]. pose proof (sorted_inv _ _ _ S2) as [S2' F2].
    assert (Ek : key x = key y).
    { destruct (idx_trichotomy (key x) (key y)) as [L|[E|L]]; auto; exfalso.
      - specialize (H (key x)). cbn in H. rewrite idx_eqb_refl in H.
        rewrite (proj2 (idx_eqb_neq _ _)) in H by (intros E; symmetry in E; revert E; now apply idx_lt_neq).
        symmetry in H. apply find_key_some in H as [Hi _].
        apply idx_lt_irrefl with (x := key x). eapply idx_lt_trans; [exact L|]. apply F2, Hi.
      - specialize (H (key y)). cbn in H. rewrite idx_eqb_refl in H.
        rewrite (proj2 (idx_eqb_neq _ _)) in H by (intros E; symmetry in E; revert E; now apply idx_lt_neq).
        apply find_key_some in H as [Hi _].
        apply idx_lt_irrefl with (x := key y). eapply idx_lt_trans; [exact L|]. apply F1, Hi. }
    assert (x = y) as ->.
    { specialize (H (key x)). cbn in H. rewrite idx_eqb_refl, Ek, idx_eqb_refl in H. congruence. }
    f_equal. apply IH; auto. intros i. specialize (H i). cbn in H.
    destruct (idx_eqb (key y) i) eqn:E; [|assumption].
    apply idx_eqb_eq in E. subst i.
    transitivity (@None A); [|symmetry]; apply find_key_none; intros z Hz E.
    + specialize (F1 z Hz). rewrite E in F1. now apply idx_lt_irrefl in F1.
    + specialize (F2 z Hz). rewrite E in F2. now apply idx_lt_irrefl in F2.
Qed.

Lemma find_key_unique {A} (key : A -> idx) l x y : sorted_by key l -> In x l -> In y l -> key x = key y -> x = y.
Proof.
  intros S Hx Hy E. pose proof (find_key_in key l x S Hx) as H1. pose proof (find_key_in key l y S Hy) as H2.
  rewrite E, H2 in H1. congruence.
Qed.

Lemma find_key_iff {A} (key : A -> idx) l i x : sorted_by key l ->
  find_key key i l = Some x <-> In x l /\ key x = i.
Proof.
  intros S. split; [apply find_key_some|]. intros [H <-]. now apply find_key_in.
Qed.

(** rows giving at most one element each *)
Lemma flat_sorted {R X} (kr : R -> idx) (kx : X -> idx) (g : R -> list X) rows :
  sorted_by kr rows -> (forall r x, In r rows -> In x (g r) -> kx x = kr r) ->
  (forall r, length (g r) <= 1) -> sorted_by kx (flat_map g rows).
Proof.
  intros S Hk Hl. induction rows as [|r rows IH]; cbn; [constructor|].
  apply sorted_inv in S as [S F].
  assert (HS : sorted_by kx (flat_map g rows)) by (apply IH; auto; intros; apply Hk; auto; now right).
  pose proof (Hl r). destruct (g r) as [|x [|]] eqn:E; cbn in *; [assumption| |lia].
  apply sorted_cons; [assumption|]. intros y Hy. apply in_flat_map in Hy as (r' & Hr' & Hy).
  rewrite (Hk r x), (Hk r' y); auto. rewrite E. now left.
Qed.

Lemma flat_find {R X} (kr : R -> idx) (kx : X -> idx) (g : R -> list X) rows i :
  sorted_by kr rows -> (forall r x, In r rows -> In x (g r) -> kx x = kr r) ->
  (forall r, length (g r) <= 1) ->
  find_key kx i (flat_map g rows) = match find_key kr i rows with Some r => hd_error (g r) | None => None end.
Proof.
  intros S Hk Hl. induction rows as [|r rows IH]; cbn; [reflexivity|].
  apply sorted_inv in S as [S F].
  assert (IH' : find_key kx i (flat_map g rows) = match find_key kr i rows with Some r => hd_error (g r) | None => None end)
    by (apply IH; auto; intros; apply Hk; auto; now right).
  assert (Hnone : idx_eqb (kr r) i = true -> find_key kr i rows = None).
  { intros E. apply idx_eqb_eq in E. subst i. apply find_key_none. intros z Hz E.
    specialize (F z Hz). rewrite E in F. now apply idx_lt_irrefl in F. }
  pose proof (Hl r). destruct (g r) as [|x [|]] eqn:E; cbn in *; [| |lia].
  - rewrite IH'. destruct (idx_eqb (kr r) i) eqn:Ei; [|reflexivity]. rewrite (Hnone eq_refl). now rewrite E.
  - rewrite (Hk r x) by (auto; rewrite E; now left). destruct (idx_eqb (kr r) i); [now rewrite E|assumption].
Qed.

Lemma filter_find {A} (key : A -> idx) (f : idx -> bool) l i :
  find_key key i (filter (fun x => f (key x)) l) = if f i then find_key key i l else None.
Proof.
  induction l as [|x l IH]; cbn; [now destruct (f i)|].
  destruct (f (key x)) eqn:E; cbn.
  - destruct (idx_eqb (key x) i) eqn:Ei; [|assumption]. apply idx_eqb_eq in Ei. subst i. now rewrite E.
  - rewrite IH. destruct (idx_eqb (key x) i) eqn:Ei; [|reflexivity]. apply idx_eqb_eq in Ei. subst i. now rewrite E.
Qed.
Lemma filter_sorted_by {A} (key : A -> idx) f l : sorted_by key l -> sorted_by key (filter f l).
Proof. apply ss_filter. Qed.

Lemma collate2_find {A B} (ka : A -> idx) (kb : B -> idx) l1 l2 i :
  sorted_by ka l1 -> sorted_by kb l2 ->
  find_key (pair_key ka kb) i (collate2 ka kb l1 l2) =
  match find_key ka i l1, find_key kb i l2 with
  | None, None => None
  | a, b => Some (a, b)
  end.
Proof.
  intros S1 S2. pose proof (collate2_sorted ka kb l1 l2 S1 S2) as S.
  destruct (find_key ka i l1) as [x|] eqn:E1.
  - apply find_key_some in E1 as [H1 <-].
    destruct (collate2_complete_l ka kb l1 l2 x S1 S2 H1) as [(y & H2 & H3 & H4)|[H2 H4]].
    + rewrite <- H3. rewrite (find_key_in kb l2 y S2 H2). apply find_key_iff; auto.
    + rewrite (proj2 (find_key_none kb (ka x) l2)) by auto. apply find_key_iff; auto.
  - destruct (find_key kb i l2) as [y|] eqn:E2.
    + apply find_key_some in E2 as [H2 <-].
      destruct (collate2_complete_r ka kb l1 l2 y S1 S2 H2) as [(x & H1 & H3 & H4)|[H1 H4]].
      * exfalso. rewrite <- H3 in E1. rewrite (find_key_in ka l1 x S1 H1) in E1. discriminate.
      * apply find_key_iff; auto.
    + apply find_key_none. intros p Hp E. apply collate2_sound in Hp.
      pose proof (proj1 (find_key_none _ _ _) E1) as N1. pose proof (proj1 (find_key_none _ _ _) E2) as N2. destruct p as [[x|] [y|]]; cbn in *.
      * apply (N1 x); tauto.
      * apply (N1 x); tauto.
      * apply (N2 y); tauto.
      * destruct Hp.
Qed.

Lemma map_find {A B} (ka : A -> idx) (kb : B -> idx) (f : A -> B) l i :
  (forall x, In x l -> kb (f x) = ka x) ->
  find_key kb i (map f l) = option_map f (find_key ka i l).
Proof.
  induction l as [|x l IH]; intros H; cbn; [reflexivity|].
  rewrite H by now left. destruct (idx_eqb (ka x) i); [reflexivity|]. apply IH. intros; apply H; now right.
Qed.
Lemma map_sorted_by {A B} (ka : A -> idx) (kb : B -> idx) (f : A -> B) l :
  (forall x, In x l -> kb (f x) = ka x) -> sorted_by ka l -> sorted_by kb (map f l).
Proof.
  induction l as [|x l IH]; intros H S; cbn; [constructor|]. apply sorted_inv in S as [S F].
  apply sorted_cons.
  - apply IH; auto. intros; apply H; now right.
  - intros y Hy. apply in_map_iff in Hy as (z & <- & Hz). rewrite !H; auto; [now right|now left].
Qed.
