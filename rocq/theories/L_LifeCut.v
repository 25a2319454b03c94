(** * Lemmas for P_Life: removals which were killed

    A repository in which some files of removed sessions are left behaves as the one
    without them ([clean]). *)
From Coq Require Import List ZArith Bool Lia Sorting.Permutation Sorting.Sorted.
From Verif Require Import Base L_Base M_Core L_Core P_Core M_Crash L_Crash M_Iter L_Iter L_Tree L_Lookup P_Iter
  M_MetaMgr L_MetaMgr L_MetaDir P_MetaMgr M_Global S_Global L_Global L_First P_Global M_Life S_Life.
Import List ListNotations.
Local Open Scope Z_scope.

(** ** Lists *)
Lemma thinned_filter {A} (old : A -> bool) l l' : thinned old l l' ->
  filter (fun x => negb (old x)) l' = filter (fun x => negb (old x)) l.
Proof. induction 1 as [|x l l' H IH|x l l' Ho H IH]; cbn; [reflexivity|now rewrite IH|now rewrite Ho, IH]. Qed.
Lemma thinned_in {A} (old : A -> bool) l l' x : thinned old l l' -> In x l' -> In x l.
Proof. induction 1 as [|y l l' H IH|y l l' Ho H IH]; cbn; intuition. Qed.
Lemma thinned_nodup {A B} (g : A -> B) (old : A -> bool) (f : A -> bool) l l' : thinned old l l' ->
  NoDup (map g (filter f l)) -> NoDup (map g (filter f l')).
Proof.
  induction 1 as [|y l l' H IH|y l l' Ho H IH]; cbn; auto.
  - destruct (f y); cbn; auto. intros Hn. inversion Hn as [|? ? Hi Hn']; subst. constructor; auto.
    intros Hx. apply Hi. apply in_map_iff in Hx as (z & E & Hz). apply filter_In in Hz as [Hz Hf]. apply in_map_iff. exists z.
    split; [exact E|]. apply filter_In. split; [eapply thinned_in; eauto|exact Hf].
  - destruct (f y); cbn; auto. intros Hn. inversion Hn; auto.
Qed.
Lemma has_dup_nodup l : has_dup l = false <-> NoDup l.
Proof.
  induction l as [|x l IH]; cbn; [split; [constructor|reflexivity]|]. rewrite orb_false_iff, IH. split.
  - intros [H1 H2]. constructor; [|exact H2]. intros Hi. apply Bool.not_true_iff_false in H1. apply H1.
    apply existsb_exists. exists x. split; [exact Hi|apply Z.eqb_refl].
  - intros H. inversion H as [|? ? Hi Hn]; subst. split; [|exact Hn]. apply Bool.not_true_iff_false. intros Hx.
    apply existsb_exists in Hx as (y & Hy & E). apply Z.eqb_eq in E. now subst.
Qed.
Lemma filter_all {A} (f : A -> bool) l : Forall (fun x => f x = true) l -> filter f l = l.
Proof. induction 1 as [|x l H _ IH]; cbn; [reflexivity|now rewrite H, IH]. Qed.
Lemma filter_none {A} (f : A -> bool) l : Forall (fun x => f x = false) l -> filter f l = [].
Proof. induction 1 as [|x l H _ IH]; cbn; [reflexivity|now rewrite H, IH]. Qed.
Lemma filter_twice {A} (f g : A -> bool) l : filter f (filter g l) = filter (fun x => f x && g x) l.
Proof. induction l as [|x l IH]; cbn; [reflexivity|]. destruct (g x) eqn:E; cbn; [|rewrite andb_false_r; exact IH]. rewrite andb_true_r. now rewrite IH. Qed.
Lemma filter_swap {A} (f g : A -> bool) l : filter f (filter g l) = filter g (filter f l).
Proof. rewrite !filter_twice. apply filter_ext. intros x. apply andb_comm. Qed.
Lemma filter_part {A} (f : A -> bool) l : Permutation l (filter (fun x => negb (f x)) l ++ filter f l).
Proof.
  induction l as [|x l IH]; cbn; [constructor|]. destruct (f x); cbn.
  - eapply perm_trans; [apply perm_skip, IH|]. apply Permutation_middle.
  - now apply perm_skip.
Qed.

Lemma nodup_app {A} (a b : list A) : NoDup (a ++ b) <-> NoDup a /\ NoDup b /\ forall x, In x a -> In x b -> False.
Proof.
  induction a as [|x a IH]; cbn.
  - split; [intros H; split; [constructor|split; [exact H|intros ? []]]|tauto].
  - split.
    + intros H. inversion H as [|? ? Hi Hn]; subst. apply IH in Hn as (H1 & H2 & H3). rewrite in_app_iff in Hi.
      split; [constructor; tauto|]. split; [exact H2|]. intros y [->|Hy] Hb; [tauto|eauto].
    + intros (H1 & H2 & H3). inversion H1 as [|? ? Hi Hn]; subst. constructor.
      * rewrite in_app_iff. intros [Hx|Hx]; [tauto|eapply H3; eauto].
      * apply IH. split; [exact Hn|]. split; [exact H2|]. eauto.
Qed.

(** ** The data directory *)
Section Data.
Context {D : Type}.
Notation mfile := (@mfile D).
Variable deq : D -> D -> bool.
Variable rt : Z.
Definition keepf (l : list mfile) := filter (fun f => negb (mf_time f <? rt)) l.
Definition junkf (l : list mfile) := filter (fun f => mf_time f <? rt) l.
Notation le_desc := (StronglySorted (fun a b : mfile => mf_time b <= mf_time a)).

Lemma ins_filter (f : mfile -> bool) x l : le_desc l ->
  filter f (ins_desc x l) = if f x then ins_desc x (filter f l) else filter f l.
Proof.
  induction l as [|y l IH]; intros Hs; cbn; [now destruct (f x)|].
  inversion Hs as [|? ? Hs' Hf]; subst. destruct (mf_time y <=? mf_time x) eqn:E.
  - cbn. destruct (f x); [|reflexivity]. destruct (f y); cbn; [now rewrite E|].
    assert (HF : Forall (fun b => mf_time b <= mf_time x) (filter f l)).
    { apply Forall_forall. intros b Hb. apply filter_In in Hb as [Hb _]. rewrite Forall_forall in Hf. specialize (Hf b Hb). lia. }
    destruct (filter f l) as [|z w]; cbn; [reflexivity|]. inversion HF as [|? ? Hz _]; subst. now rewrite (proj2 (Z.leb_le _ _) Hz).
  - cbn. rewrite IH by assumption. destruct (f y), (f x); cbn; rewrite ?E; reflexivity.
Qed.
Lemma sort_filter (f : mfile -> bool) l : filter f (sort_desc l) = sort_desc (filter f l).
Proof.
  induction l as [|x l IH]; cbn; [reflexivity|]. rewrite ins_filter by apply sort_desc_sorted. rewrite IH. now destruct (f x).
Qed.
Lemma desc_split l : le_desc l -> l = keepf l ++ junkf l.
Proof.
  induction 1 as [|x l Hs IH Hf]; cbn; [reflexivity|]. destruct (mf_time x <? rt) eqn:E; cbn.
  - rewrite (filter_none (fun f => negb (mf_time f <? rt)) l).
    + cbn. f_equal. symmetry. apply filter_all. apply Forall_forall. intros y Hy. rewrite Forall_forall in Hf. specialize (Hf y Hy).
      apply Z.ltb_lt in E. apply Z.ltb_lt. lia.
    + apply Forall_forall. intros y Hy. rewrite Forall_forall in Hf. specialize (Hf y Hy). apply Z.ltb_lt in E.
      rewrite (proj2 (Z.ltb_lt _ _)) by lia. reflexivity.
  - f_equal. exact IH.
Qed.
Lemma sort_split l : sort_desc l = sort_desc (keepf l) ++ sort_desc (junkf l).
Proof. rewrite (desc_split (sort_desc l)) at 1 by apply sort_desc_sorted. unfold keepf, junkf. now rewrite !sort_filter. Qed.

Definition junk_ok (l : list mfile) : Prop := NoDup (map mf_time (junkf l)).

Lemma nodup_parts l : junk_ok l -> (NoDup (map mf_time l) <-> NoDup (map mf_time (keepf l))).
Proof.
  intros HJ. assert (HP : Permutation (map mf_time l) (map mf_time (keepf l) ++ map mf_time (junkf l))).
  { rewrite <- map_app. apply Permutation_map. apply filter_part. }
  split; intros H.
  - apply (Permutation_NoDup HP) in H. apply nodup_app in H. tauto.
  - eapply Permutation_NoDup; [symmetry; exact HP|]. apply nodup_app. split; [exact H|]. split; [exact HJ|].
    intros x H1 H2. apply in_map_iff in H1 as (a & <- & Ha). apply in_map_iff in H2 as (b & E & Hb).
    apply filter_In in Ha as [_ Ha]. apply filter_In in Hb as [_ Hb]. rewrite <- E in Ha. now rewrite Hb in Ha.
Qed.
Lemma dup_clean l : junk_ok l -> has_dup (map mf_time (sort_desc l)) = has_dup (map mf_time (sort_desc (keepf l))).
Proof.
  intros HJ. assert (HQ : forall w : list mfile, has_dup (map mf_time (sort_desc w)) = false <-> NoDup (map mf_time w)).
  { intros w. rewrite has_dup_nodup. pose proof (Permutation_map mf_time (sort_desc_perm w)) as HP.
    split; intros H; [exact (Permutation_NoDup (Permutation_sym HP) H)|exact (Permutation_NoDup HP H)]. }
  pose proof (nodup_parts l HJ) as HN. rewrite <- !HQ in HN.
  destruct (has_dup (map mf_time (sort_desc l))), (has_dup (map mf_time (sort_desc (keepf l)))); intuition congruence.
Qed.
Lemma inclist_clean t l : junk_ok l -> rt <= t -> sorted_inclist t l = sorted_inclist t (keepf l).
Proof.
  intros HJ Ht. unfold sorted_inclist. rewrite dup_clean by assumption. destruct (has_dup _); [reflexivity|]. f_equal.
  rewrite (sort_split l), filter_app. rewrite (filter_none _ (sort_desc (junkf l))); [now rewrite app_nil_r|].
  apply Forall_forall. intros x Hx. assert (Hi : In x (junkf l)) by (eapply Permutation_in; [symmetry; apply sort_desc_perm|exact Hx]).
  apply filter_In in Hi as [_ Hi]. apply Z.ltb_lt in Hi. apply Z.leb_gt. lia.
Qed.
Lemma meta_clean t p l : junk_ok l -> rt <= t -> meta_at_time t p l = meta_at_time t p (keepf l).
Proof. intros HJ Ht. unfold meta_at_time, relevant_incs. now rewrite inclist_clean by assumption. Qed.

(** operations with times kept *)
Definition dop_ge (o : @dop D) : Prop :=
  match o with
  | DTouch t | DUnmark t | DDel t _ | DOther t | DDelOther t => rt <= t
  | DPut f => rt <= mf_time f
  | DInc | DIncUndo _ => True
  end.
Notation clean_dd := (remove_older_dd rt true).
Lemma ge_keep t : rt <= t -> negb (t <? rt) = true.
Proof. intros H. now rewrite (proj2 (Z.ltb_ge _ _) H). Qed.
Lemma run_dop_clean o d : dop_ge o -> clean_dd (run_dop o d) = run_dop o (clean_dd d).
Proof.
  intros H. destruct o as [t|t|f|t k|t|t| |b]; cbn in H; unfold remove_older_dd; cbn;
    rewrite ?(ge_keep _ H), ?andb_true_r; try reflexivity; f_equal; try (f_equal; apply filter_swap); try apply filter_swap.
  unfold put_file, del_file. rewrite filter_app. cbn. rewrite (ge_keep _ H). f_equal. apply filter_swap.
Qed.
Lemma run_dop_junk o d : dop_ge o -> junkf (mfiles (run_dop o d)) = junkf (mfiles d).
Proof.
  assert (HD : forall t k l, rt <= t -> junkf (del_file t k l) = junkf l).
  { intros t k l H. unfold junkf, del_file. rewrite filter_swap. apply filter_all. apply Forall_forall. intros f Hf. apply filter_In in Hf as [_ Hf].
    apply Z.ltb_lt in Hf. rewrite same_name_time by lia. reflexivity. }
  intros H. destruct o as [t|t|f|t k|t|t| |b]; cbn in *; try reflexivity; [|now apply HD].
  unfold put_file, junkf. rewrite filter_app. cbn. rewrite (proj2 (Z.ltb_ge _ _) H), app_nil_r. now apply HD.
Qed.
Lemma run_dop_marks o d : dop_ge o -> Forall (fun t => rt <= t) (markers d) -> Forall (fun t => rt <= t) (markers (run_dop o d)).
Proof.
  intros H HF. destruct o as [t|t|f|t k|t|t| |b]; cbn in *; auto; [constructor; auto|]; now apply forall_filter.
Qed.
Lemma run_dops_clean l : forall d, Forall dop_ge l -> clean_dd (run_dops l d) = run_dops l (clean_dd d).
Proof. induction l as [|o l IH]; intros d H; cbn; [reflexivity|]. inversion H; subst. rewrite IH by assumption. now rewrite run_dop_clean. Qed.
Lemma run_dops_junk l : forall d, Forall dop_ge l -> junkf (mfiles (run_dops l d)) = junkf (mfiles d).
Proof. induction l as [|o l IH]; intros d H; cbn; [reflexivity|]. inversion H; subst. rewrite IH by assumption. now rewrite run_dop_junk. Qed.
Lemma run_dops_marks l : forall d, Forall dop_ge l -> Forall (fun t => rt <= t) (markers d) -> Forall (fun t => rt <= t) (markers (run_dops l d)).
Proof. induction l as [|o l IH]; intros d H HF; cbn; [assumption|]. inversion H; subst. apply IH; auto. now apply run_dop_marks. Qed.

(** the decision whether a diff is written: another limit without the junk *)
Lemma diff_run_app a b : exists n, diff_run (a ++ b : list mfile) = (diff_run a + n)%nat.
Proof.
  induction a as [|f a [n IH]]; cbn; [eauto|]. destruct (is_snap f); [exists 0%nat; lia|]. exists n. rewrite IH. lia.
Qed.
Definition with_limit (n : nat) (z : @dnoise D) : dnoise := mk_dn (dn_snap z) (dn_diff z) (dn_others z) (dn_incs z) n.
Lemma check_clean lim l x : junk_ok l -> (2 <= length (filter (fun f => (0 <=? mf_time f)%Z) (keepf l)))%nat ->
  check_needs_diff lim l = Some x -> exists lim', check_needs_diff lim' (keepf l) = Some x.
Proof.
  intros HJ H2 E. unfold check_needs_diff in *.
  unfold sorted_inclist in *. rewrite dup_clean in E by assumption. destruct (has_dup _); [discriminate|].
  rewrite (sort_split l), filter_app in E.
  rewrite (sort_filter _ (keepf l)) in *.
  pose proof (Permutation_length (sort_desc_perm (filter (fun f => 0 <=? mf_time f) (keepf l)))) as HL. rewrite HL in H2.
  destruct (sort_desc (filter _ (keepf l))) as [|new [|old rest]]; [cbn in H2; lia|cbn in H2; lia|].
  cbn [app] in E. destruct (is_snap new && is_snap old); [|discriminate].
  destruct (Nat.leb lim _).
  - injection E as <-. exists 0%nat. reflexivity.
  - injection E as <-. exists (S (S (diff_run rest))). replace (Nat.leb _ _) with false; [reflexivity|]. symmetry. apply Nat.leb_gt. lia.
Qed.
Lemma check_junk lim lim' l x : junk_ok l -> (2 <= length (filter (fun f => (0 <=? mf_time f)%Z) (keepf l)))%nat ->
  check_needs_diff lim' (keepf l) = Some x -> exists x', check_needs_diff lim l = Some x'.
Proof.
  intros HJ H2 E. unfold check_needs_diff in *.
  unfold sorted_inclist in *. rewrite dup_clean by assumption. destruct (has_dup _); [discriminate|].
  rewrite (sort_split l), filter_app.
  rewrite (sort_filter _ (keepf l)) in *.
  pose proof (Permutation_length (sort_desc_perm (filter (fun f => 0 <=? mf_time f) (keepf l)))) as HL. rewrite HL in H2.
  destruct (sort_desc (filter _ (keepf l))) as [|new [|old rest]]; [cbn in H2; lia|cbn in H2; lia|].
  cbn [app]. destruct (is_snap new && is_snap old); [|discriminate]. destruct (Nat.leb lim _); eauto.
Qed.
Lemma check_old lim (l : list mfile) new old : check_needs_diff lim l = Some (Some (new, old)) -> In old l.
Proof.
  unfold check_needs_diff, sorted_inclist. destruct (has_dup _); [discriminate|].
  destruct (filter _ (sort_desc l)) as [|a [|b w]] eqn:E; [discriminate|discriminate|].
  destruct (_ && _); [|discriminate]. destruct (Nat.leb _ _); [discriminate|]. intros [= <- <-].
  assert (Hb : In b (filter (fun f => 0 <=? mf_time f) (sort_desc l))) by (rewrite E; right; now left).
  apply filter_In in Hb as [Hb _]. eapply Permutation_in; [symmetry; apply sort_desc_perm|exact Hb].
Qed.
End Data.

(** ** The files of a path *)
Section Path.
Context {attr : Type}.
Variable delta : bytes -> bytes -> bytes.
Variable patch : bytes -> bytes -> option bytes.
Variable sha1 : attr -> bytes -> option bytes.
Variables same loose : attr -> attr -> bool.
Variable rt : Z.
Notation pfiles := (@pfiles attr).
Definition cleanf (f : pfiles) : pfiles := (fst f, filter (fun x => negb (fst x <? rt)) (snd f)).
Definition cleanp (ps : @pstate attr) : pstate := mk_ps (mirror ps) (filter (fun x => negb (fst x <? rt)) (incs ps)) (metas ps).

Lemma add_clean t1 i l : rt <= t1 ->
  filter (fun x => negb (fst x <? rt)) (add_inc (Some t1) i l : list (Z * inc attr)) =
  add_inc (Some t1) i (filter (fun x => negb (fst x <? rt)) l).
Proof. intros H. cbn. rewrite filter_app. cbn. now rewrite (ge_keep _ _ H). Qed.
Lemma update_clean t1 src o ps : rt <= t1 ->
  update delta sha1 same (Some t1) src o (cleanp ps) =
  (let '(m, l, md) := update delta sha1 same (Some t1) src o ps in (m, filter (fun x => negb (fst x <? rt)) l, md)).
Proof.
  intros H. unfold update. cbn [mirror incs cleanp]. change (cur_meta (cleanp ps)) with (cur_meta ps).
  destruct (meta_same same src (cur_meta ps)).
  - destruct o, src; try reflexivity. now rewrite add_clean.
  - destruct o as [| | | | | |]; try destruct (hash_unchanged sha1 src (cur_meta ps)); try reflexivity; try (now rewrite add_clean);
      try (destruct src; now rewrite add_clean); try (destruct part; [now rewrite add_clean|reflexivity]).
Qed.
Lemma run_pop_clean t1 o ps : rt <= t1 -> run_pop t1 o (cleanp ps) = cleanp (run_pop t1 o ps).
Proof.
  intros H. destruct o as [n|i|]; unfold cleanp; cbn; [reflexivity| |]; f_equal.
  - rewrite filter_app. cbn. rewrite (ge_keep _ _ H). f_equal. apply filter_swap.
  - apply filter_swap.
Qed.
Lemma run_pops_clean t1 l : forall ps, rt <= t1 -> run_pops t1 l (cleanp ps) = cleanp (run_pops t1 l ps).
Proof. induction l as [|o l IH]; intros ps H; cbn; [reflexivity|]. rewrite run_pop_clean by assumption. now apply IH. Qed.
Lemma restore_fp_clean t mt ps : rt <= t -> restore_fp patch t mt (cleanp ps) = restore_fp patch t mt ps.
Proof.
  intros H. unfold restore_fp. replace (M_Core.relevant_incs t mt (cleanp ps)) with (M_Core.relevant_incs t mt ps); [reflexivity|].
  unfold M_Core.relevant_incs. cbn [incs mirror cleanp].
  assert (E : newer_incs t (filter (fun x => negb (fst x <? rt)) (incs ps)) = newer_incs t (incs ps)).
  { unfold newer_incs. f_equal. f_equal. rewrite filter_twice. apply filter_ext. intros x.
    destruct (t <=? fst x) eqn:Ex; [|reflexivity]. apply Z.leb_le in Ex. now rewrite ge_keep by lia. }
  rewrite E. destruct (incs ps) as [|x l] eqn:El; [reflexivity|].
  destruct (filter _ (x :: l)) as [|y w] eqn:Ef; [|reflexivity].
  destruct (mt <=? t); [reflexivity|]. rewrite <- E. reflexivity.
Qed.
Lemma regress_prog_clean t1 t2 md z ps : rt <= t1 ->
  regress_prog patch sha1 loose t1 t2 md z (cleanp ps) = regress_prog patch sha1 loose t1 t2 md z ps.
Proof. intros H. unfold regress_prog. rewrite restore_fp_clean by assumption. reflexivity. Qed.
End Path.

(** ** The repository *)
Section Repo.
Context {attr : Type}.
Variable delta : bytes -> bytes -> bytes.
Variable patch : bytes -> bytes -> option bytes.
Variable sha1 : attr -> bytes -> option bytes.
Variables same loose : attr -> attr -> bool.
Variable deq : meta attr -> meta attr -> bool.
Variable rt : Z.
Notation repo := (@repo attr).
Definition clean (r : repo) : repo := gremove rt true r.
Record junk (r : repo) : Prop := mk_junk {
  j_marks : Forall (fun t => rt <= t) (markers (r_data r));
  j_some : markers (r_data r) <> [];
  j_dup : junk_ok rt (mfiles (r_data r)) }.

Lemma clean_marks r : junk r -> markers (r_data (clean r)) = markers (r_data r).
Proof. intros H. cbn. apply filter_all. eapply Forall_impl; [|apply (j_marks _ H)]. intros t Ht. now apply ge_keep. Qed.
Lemma clean_used r : incs_used (r_data (clean r)) = incs_used (r_data r).
Proof. cbn. apply andb_true_r. Qed.
Lemma clean_start r t : junk r -> backup_start t false false (r_data (clean r)) = backup_start t false false (r_data r).
Proof. intros H. unfold backup_start, needs_regress, mirror_time. now rewrite (clean_marks r H), clean_used. Qed.
Lemma relisted_clean r r' : relisted r r' -> relisted (clean r) (clean r').
Proof.
  intros (H1 & H2 & H3 & H4 & H5). unfold relisted. cbn. rewrite H1, H3, H4. split; [reflexivity|].
  split; [now apply filter_perm|]. split; [reflexivity|]. split; [reflexivity|]. intros p. destruct (H5 p) as [A B]. split; [exact A|now apply filter_perm].
Qed.
Lemma relisted_junk r r' : relisted r r' -> junk r -> junk r'.
Proof.
  intros (H1 & H2 & _) [A B C]. constructor; [now rewrite H1|now rewrite H1|].
  unfold junk_ok in *. eapply Permutation_NoDup; [|exact C]. apply Permutation_map. now apply filter_perm.
Qed.
Lemma junk_mono ops r r' : Forall (dop_ge rt) ops -> junk r -> r_data r' = run_dops ops (r_data r) -> markers (r_data r') <> [] -> junk r'.
Proof.
  intros Hg [A B C] E Hn. constructor; [|exact Hn|].
  - rewrite E. now apply run_dops_marks.
  - rewrite E. unfold junk_ok in *. now rewrite run_dops_junk.
Qed.

Lemma find_clean t (l : list (@mfile (meta attr))) recs : meta_at_time t [] l = RdOk recs -> exists f, In f l /\ mf_time f = t.
Proof.
  unfold meta_at_time, relevant_incs, sorted_inclist. destruct (has_dup _); [discriminate|].
  destruct (filter _ (sort_desc l)) as [|a w] eqn:E; [discriminate|]. intros H.
  destruct (rev (a :: w)) as [|o u] eqn:Er; [discriminate|]. destruct (mf_time o =? t) eqn:Et; [|discriminate].
  exists o. apply Z.eqb_eq in Et. split; [|exact Et].
  assert (Ho : In o (a :: w)) by (apply in_rev; rewrite Er; now left). rewrite <- E in Ho. apply filter_In in Ho as [Ho _].
  eapply Permutation_in; [symmetry; apply sort_desc_perm|exact Ho].
Qed.

(** the operations of a session with and without the junk *)
Section Session.
Variables (r : repo) (t t1 : Z) (old : list (idx * option (meta attr))) (L : list (idx * meta attr)) (zd : @dnoise (meta attr)).
Hypothesis HJ : junk r.
Hypothesis Hpos : 0 <= t1.
Hypothesis Hrt : rt <= t1.
Hypothesis Ht : t1 < t.
Hypothesis Hold : meta_at_time t1 [] (mfiles (r_data r)) = RdOk old.
Let wsnap := repeat (@DOther (meta attr) t) (dn_others zd) ++ (if dn_incs zd then [DInc] else []) ++
    map (fun x => DPut (mk_mf t KSnap x)) (dn_snap zd) ++ [DPut (mk_mf t KSnap (recs_of L))].
Lemma wsnap_ge : Forall (dop_ge rt) (DTouch t :: wsnap).
Proof using Hrt Ht.
  constructor; [cbn; lia|]. apply Forall_app. split.
  - apply Forall_forall. intros x Hx. apply repeat_spec in Hx as ->. cbn. lia.
  - apply Forall_app. split; [destruct (dn_incs zd); repeat constructor|]. apply Forall_app. split; [|repeat constructor; cbn; lia].
    apply Forall_forall. intros x Hx. apply in_map_iff in Hx as (y & <- & _). cbn. lia.
Qed.
Lemma keeps_file ops f d : Forall (fun o => match o with DPut g => mf_time g <> mf_time f | DDel t' _ => t' <> mf_time f | _ => True end) ops ->
  In f (mfiles d) -> In f (mfiles (@run_dops (meta attr) ops d)).
Proof using.
  revert d. induction ops as [|o ops IH]; intros d H Hf; cbn; [exact Hf|]. inversion H as [|? ? Ho H']; subst. apply IH; [exact H'|].
  assert (HD : forall t' k, t' <> mf_time f -> In f (del_file t' k (mfiles d))).
  { intros t' k Hn. apply filter_In. split; [exact Hf|]. rewrite same_name_time by congruence. reflexivity. }
  destruct o; cbn; auto. unfold put_file. apply in_app_iff. auto.
Qed.
Lemma two_kept : (2 <= length (filter (fun f => (0 <=? mf_time f)%Z) (keepf rt (mfiles (run_dops (DTouch t :: wsnap) (r_data r))))))%nat.
Proof using Hold Ht Hpos Hrt HJ.
  set (d1 := run_dops _ _).
  destruct (find_clean _ _ _ Hold) as (f & Hf & Ef).
  assert (H1 : In f (mfiles d1)).
  { apply keeps_file; [|exact Hf]. rewrite Ef. constructor; [exact I|]. apply Forall_app. split.
    - apply Forall_forall. intros x Hx. apply repeat_spec in Hx as ->. exact I.
    - apply Forall_app. split; [destruct (dn_incs zd); repeat constructor|]. apply Forall_app. split; [|repeat constructor; cbn; lia].
      apply Forall_forall. intros x Hx. apply in_map_iff in Hx as (y & <- & _). cbn. lia. }
  assert (H2 : In (mk_mf t KSnap (recs_of L)) (mfiles d1)).
  { assert (E : exists d2, d1 = run_dop (DPut (mk_mf t KSnap (recs_of L))) d2).
    { unfold d1, wsnap. exists (run_dops (DTouch t :: repeat (DOther t) (dn_others zd) ++ (if dn_incs zd then [DInc] else []) ++
        map (fun x => DPut (mk_mf t KSnap x)) (dn_snap zd)) (r_data r)).
      change (run_dop ?x ?d) with (run_dops [x] d). rewrite <- run_dops_app. f_equal. cbn. now rewrite <- !app_assoc. }
    destruct E as [d2 ->]. cbn. unfold put_file. apply in_app_iff. right. now left. }
  assert (HK : forall g, In g (mfiles d1) -> rt <= mf_time g -> 0 <= mf_time g -> In g (filter (fun f => (0 <=? mf_time f)%Z) (keepf rt (mfiles d1)))).
  { intros g Hg H3 H4. apply filter_In. split; [|now apply Z.leb_le]. apply filter_In. split; [exact Hg|]. now apply ge_keep. }
  apply HK in H1; [|lia..]. apply HK in H2; [|cbn; lia..].
  destruct (filter _ (keepf _ _)) as [|a [|b w]]; [destruct H1| |cbn; lia].
  destruct H1 as [<-|[]]. destruct H2 as [E|[]]. rewrite E in Ef. cbn in Ef. lia.
Qed.

Lemma session_dops_clean ops : session_dops deq (Some t1) t L zd (r_data r) = Some ops ->
  Forall (dop_ge rt) ops /\ exists n, session_dops deq (Some t1) t L (with_limit n zd) (r_data (clean r)) = Some ops.
Proof using Hold Ht Hpos Hrt HJ.
  unfold session_dops. fold wsnap. set (d1 := run_dops (DTouch t :: wsnap) (r_data r)).
  destruct (check_needs_diff (dn_limit zd) (mfiles d1)) as [x|] eqn:E; [|discriminate].
  assert (HJ1 : junk_ok rt (mfiles d1)).
  { unfold d1, junk_ok. rewrite run_dops_junk by apply wsnap_ge. apply (j_dup _ HJ). }
  destruct (check_clean rt _ _ _ HJ1 two_kept E) as [n En].
  assert (Ed : run_dops (DTouch t :: wsnap) (r_data (clean r)) = remove_older_dd rt true d1).
  { unfold d1. rewrite run_dops_clean by apply wsnap_ge. reflexivity. }
  intros H. split.
  - pose proof wsnap_ge as Hw. destruct x as [[new old']|]; injection H as <-.
    + assert (Ho : rt <= mf_time old').
      { pose proof (check_old _ _ _ _ En) as Hi. apply filter_In in Hi as [_ Hi]. now apply negb_true_iff, Z.ltb_ge in Hi. }
      inversion Hw as [|? ? Hw1 Hw2]; subst. constructor; [exact Hw1|]. apply Forall_app. split; [exact Hw2|]. apply Forall_app.
      split; [|repeat constructor; cbn; auto]. apply Forall_forall. intros y Hy. apply in_map_iff in Hy as (q & <- & _). exact Ho.
    + inversion Hw as [|? ? Hw1 Hw2]; subst. constructor; [exact Hw1|]. apply Forall_app. split; [exact Hw2|]. repeat constructor. exact Hrt.
  - exists n. cbn [dn_snap dn_diff dn_others dn_incs dn_limit with_limit]. fold wsnap. cbn zeta. rewrite Ed.
    change (mfiles (remove_older_dd rt true d1)) with (keepf rt (mfiles d1)). rewrite En. exact H.
Qed.
Lemma session_dops_junk n ops : session_dops deq (Some t1) t L (with_limit n zd) (r_data (clean r)) = Some ops ->
  exists ops', session_dops deq (Some t1) t L zd (r_data r) = Some ops'.
Proof using Hold Ht Hpos Hrt HJ.
  unfold session_dops. cbn [dn_snap dn_diff dn_others dn_incs dn_limit with_limit]. fold wsnap.
  assert (Ed : run_dops (DTouch t :: wsnap) (r_data (clean r)) = remove_older_dd rt true (run_dops (DTouch t :: wsnap) (r_data r))).
  { rewrite run_dops_clean by apply wsnap_ge. reflexivity. }
  cbn zeta. rewrite Ed. set (d1 := run_dops (DTouch t :: wsnap) (r_data r)) in *.
  change (mfiles (remove_older_dd rt true d1)) with (keepf rt (mfiles d1)).
  destruct (check_needs_diff n (keepf rt (mfiles d1))) as [x|] eqn:E; [|discriminate]. intros _.
  assert (HJ1 : junk_ok rt (mfiles d1)).
  { unfold d1, junk_ok. rewrite run_dops_junk by apply wsnap_ge. apply (j_dup _ HJ). }
  destruct (check_junk rt (dn_limit zd) n _ _ HJ1 two_kept E) as [x' ->]. destruct x' as [[a b]|]; eauto.
Qed.
End Session.
End Repo.
