From Coq Require Import List ZArith Bool Ascii Lia Sorted.
From Verif Require Import Base L_Base M_Iter L_Iter M_Quoting M_Time M_IncName M_CachedRF S_CachedRF L_CachedRF.
Import List ListNotations.
Local Open Scope Z_scope.

Definition blt (x y : bytes) : Prop := bytes_cmp x y = Lt.
Lemma blt_trans x y z : blt x y -> blt y z -> blt x z.
Proof. apply (gc_trans _ bytes_good). Qed.
Lemma insert_u_in x l y : In y (insert_u x l) <-> y = x \/ In y l.
Proof.
  induction l as [|z r IH]; cbn [insert_u]; [cbn; intuition|].
  destruct (bytes_cmp x z) eqn:E; cbn [In] in *.
  - apply (gc_eq _ bytes_good) in E. subst. cbn. intuition.
  - intuition.
  - rewrite IH. intuition.
Qed.
Lemma insert_u_sorted x l : StronglySorted blt l -> StronglySorted blt (insert_u x l).
Proof.
  induction 1 as [|z r S1 IH S2]; cbn [insert_u]; [repeat constructor|].
  destruct (bytes_cmp x z) eqn:E.
  - now constructor.
  - constructor; [now constructor|]. constructor; [exact E|]. eapply Forall_impl; [|exact S2]. intros y Hy. eapply blt_trans; [exact E|exact Hy].
  - constructor; [exact IH|]. apply Forall_forall. intros y Hy. apply insert_u_in in Hy. destruct Hy as [->|Hy].
    + unfold blt. rewrite (gc_opp _ bytes_good), E. reflexivity.
    + rewrite Forall_forall in S2. now apply S2.
Qed.
Lemma usort_in l y : In y (usort l) <-> In y l.
Proof. induction l as [|x l IH]; [reflexivity|]. cbn [usort fold_right]. rewrite insert_u_in. cbn. unfold usort in IH. rewrite IH. intuition. Qed.
Lemma usort_sorted l : StronglySorted blt (usort l).
Proof. induction l as [|x l IH]; [constructor|]. now apply insert_u_sorted. Qed.
Lemma blt_idx d x y : blt x y -> idx_lt (d ++ [x]) (d ++ [y]).
Proof. intros H. apply idx_lt_app. unfold idx_lt, idx_cmp. cbn. unfold blt in H. now rewrite H. Qed.
Lemma map_sorted d l : StronglySorted blt l -> StronglySorted idx_lt (map (fun n => d ++ [n]) l).
Proof.
  induction 1 as [|x l S1 IH S2]; [constructor|]. cbn [map]. constructor; [exact IH|].
  apply Forall_map. eapply Forall_impl; [|exact S2]. intros y. apply blt_idx.
Qed.
Lemma filter_sorted {A} (R : A -> A -> Prop) f l : StronglySorted R l -> StronglySorted R (filter f l).
Proof.
  induction 1 as [|x l S1 IH S2]; [constructor|]. cbn. destruct (f x); [|exact IH]. constructor; [exact IH|].
  apply Forall_forall. intros y Hy. apply filter_In in Hy. rewrite Forall_forall in S2. now apply S2.
Qed.
Lemma mirror_subs_sorted d ns : StronglySorted idx_lt (mirror_subs d ns).
Proof. apply filter_sorted, map_sorted, usort_sorted. Qed.
Lemma inc_subs_sorted d es : StronglySorted idx_lt (inc_subs d es).
Proof. apply map_sorted, usort_sorted. Qed.
Lemma mirror_subs_in d ns x : In x (mirror_subs d ns) <-> x <> [bs "rdiff-backup-data"] /\ exists n, x = d ++ [n] /\ In n ns.
Proof.
  unfold mirror_subs. rewrite filter_In, negb_true_iff, idx_eqb_neq, in_map_iff. split.
  - intros [(n & <- & H) K]. split; [exact K|]. exists n. split; [reflexivity|now apply (usort_in ns n)].
  - intros [K (n & -> & H)]. split; [|exact K]. exists n. split; [reflexivity|now apply (usort_in ns n)].
Qed.
Lemma inc_subs_in d es x : In x (inc_subs d es) <-> exists n e, x = d ++ [n] /\ In e es /\ inc_key e = Some n.
Proof.
  unfold inc_subs. rewrite in_map_iff. split.
  - intros (n & <- & H). apply (proj1 (usort_in _ _)) in H. apply in_flat_map in H. destruct H as (e & He & H).
    destruct (inc_key e) as [b|] eqn:E; [|destruct H]. destruct H as [<-|[]]. now exists b, e.
  - intros (n & e & -> & He & E). exists n. split; [reflexivity|]. apply usort_in, in_flat_map. exists e. split; [exact He|]. rewrite E. now left.
Qed.

Lemma inc_key_spec name isdir n : inc_key (name, isdir) = Some n <->
  inc_file_of name n \/ (isdir = true /\ name = n /\ forall m, ~ inc_file_of name m).
Proof.
  unfold inc_key, inc_file_of. cbn [fst snd].
  destruct (parse_increment_name name) as [[[[[c ts] t] ty] b]|] eqn:E.
  - destruct (beq_bytes ty (bs "data")) eqn:D.
    + apply beq_bytes_true in D. split.
      * intros H. right. destruct isdir; [|discriminate]. injection H as <-. repeat split.
        intros m (c' & ts' & t' & ty' & H & N). congruence.
      * intros [(c' & ts' & t' & ty' & H & N)|(-> & -> & _)]; [congruence|reflexivity].
    + assert (N : ty <> bs "data") by (intros ->; rewrite beq_bytes_refl in D; discriminate). split.
      * intros [= <-]. left. now exists c, ts, t, ty.
      * intros [(c' & ts' & t' & ty' & H & N')|(_ & _ & H)]; [congruence|].
        exfalso. apply (H b). now exists c, ts, t, ty.
  - split.
    + intros H. right. destruct isdir; [|discriminate]. injection H as <-. repeat split.
      intros m (c' & ts' & t' & ty' & H & N). discriminate.
    + intros [(c' & ts' & t' & ty' & H & N)|(-> & -> & _)]; [discriminate|reflexivity].
Qed.

Section Sub.
Variable mirror : idx -> list bytes.
Variable incs : idx -> list (bytes * bool).
Let coll d := collate2 (fun i : idx => i) (fun i : idx => i) (mirror_subs d (mirror d)) (inc_subs d (incs d)).
Lemma sub_rfs_keys d : sub_rfs mirror incs d = map (pair_key (fun i => i) (fun i => i)) (coll d).
Proof. unfold sub_rfs, coll. apply map_ext. intros [[a|] [b|]]; reflexivity. Qed.
Lemma sub_rfs_sorted d : StronglySorted idx_lt (sub_rfs mirror incs d).
Proof.
  rewrite sub_rfs_keys.
  assert (K : sorted_by (pair_key (fun i => i) (fun i => i)) (coll d)).
  { apply collate2_sorted; [apply mirror_subs_sorted|apply inc_subs_sorted]. }
  induction K as [|x l S1 IH S2]; [constructor|]. cbn [map]. constructor; [exact IH|]. apply Forall_map. exact S2.
Qed.
Lemma sub_rfs_in d x : In x (sub_rfs mirror incs d) <-> In x (mirror_subs d (mirror d)) \/ In x (inc_subs d (incs d)).
Proof.
  rewrite sub_rfs_keys, in_map_iff. split.
  - intros (p & <- & H). destruct (collate2_key_sound _ _ _ _ _ H) as [(y & Hy & ->)|(y & Hy & ->)]; [now left|now right].
  - intros [H|H].
    + destruct (collate2_complete_l (fun i : idx => i) (fun i : idx => i) _ (inc_subs d (incs d)) x (mirror_subs_sorted d (mirror d)) (inc_subs_sorted d (incs d)) H) as [(y & _ & _ & K)|[_ K]];
      eexists; (split; [|exact K]); reflexivity.
    + destruct (collate2_complete_r (fun i : idx => i) (fun i : idx => i) (mirror_subs d (mirror d)) _ x (mirror_subs_sorted d (mirror d)) (inc_subs_sorted d (incs d)) H) as [(y & _ & E & K)|[_ K]].
      * exists (Some y, Some x). split; [exact E|exact K].
      * exists (None, Some x). split; [reflexivity|exact K].
Qed.
Lemma sub_rfs_shape d x : In x (sub_rfs mirror incs d) -> x <> [] /\ removelast x = d.
Proof.
  intros H. assert (K : exists n, x = d ++ [n]).
  { apply sub_rfs_in in H. rewrite mirror_subs_in, inc_subs_in in H. destruct H as [[_ (n & -> & _)]|(n & e & -> & _)]; now exists n. }
  destruct K as [n ->]. split; [intros K; now apply app_eq_nil in K|apply removelast_last].
Qed.
Lemma sub_rfs_data x : x <> [] -> (In x (sub_rfs mirror incs (removelast x)) <-> has_data mirror incs x).
Proof.
  intros Hx. rewrite sub_rfs_in, mirror_subs_in, inc_subs_in. unfold has_data. split.
  - intros [[K (n & E & H)]|(n & e & E & H)].
    + exists (removelast x), n. split; [exact E|]. left. now split.
    + exists (removelast x), n. split; [exact E|]. right. destruct e as [name isdir]. exists name, isdir. split; [apply H|]. now apply inc_key_spec.
  - intros (d & n & -> & H). rewrite removelast_last. destruct H as [[H K]|(name & isdir & H & K)].
    + left. split; [exact K|]. now exists n.
    + right. exists n, (name, isdir). split; [reflexivity|]. split; [exact H|]. now apply inc_key_spec.
Qed.
End Sub.
