(** * Lemmas for P_Life: every call on a repository with files of removed sessions left *)
From Coq Require Import List ZArith Bool Lia Sorting.Permutation Sorting.Sorted.
From Verif Require Import Base L_Base M_Core L_Core P_Core M_Crash L_Crash M_Iter L_Iter L_Tree L_Lookup P_Iter
  M_MetaMgr L_MetaMgr L_MetaDir P_MetaMgr M_Global S_Global L_Global L_First P_Global M_Life S_Life L_LifeCut.
Import List ListNotations.
Local Open Scope Z_scope.

Section Sim.
Context {attr : Type}.
Variable delta : bytes -> bytes -> bytes.
Variable patch : bytes -> bytes -> option bytes.
Variable sha1 : attr -> bytes -> option bytes.
Variables same loose : attr -> attr -> bool.
Variable deq : meta attr -> meta attr -> bool.
Variable rt : Z.
Notation repo := (@repo attr).
Notation clean := (@clean attr rt).
Notation junk := (@junk attr rt).

Lemma start_some (d : @ddir (meta attr)) t prev : backup_start t false false d = StBackup prev -> markers d <> [] ->
  (forall t1, markers d = [t1] -> 0 < t1) -> exists t1, markers d = [t1] /\ prev = Some t1 /\ t1 < t /\ 0 < t1.
Proof using.
  intros E Hn Hp. unfold backup_start in E.
  assert (E' : (if (mirror_time d <? 0) || (t <=? mirror_time d) then StAbort
     else StBackup (if mirror_time d =? 0 then None else Some (mirror_time d))) = StBackup prev).
  { destruct (needs_regress d false false); try discriminate; exact E. }
  clear E. unfold mirror_time in E'. destruct (markers d) as [|t1 [|t2 l]] eqn:Em; [congruence| |discriminate].
  exists t1. specialize (Hp t1 eq_refl). destruct (t1 <? 0); [discriminate|]. cbn in E'. destruct (t <=? t1) eqn:Et; [discriminate|].
  apply Z.leb_gt in Et. rewrite (proj2 (Z.eqb_neq _ _)) in E' by lia. injection E' as <-. auto.
Qed.

(** results with the same operations *)
Lemma same_ops ops r r' rc' : Forall (dop_ge rt) ops -> junk r -> r_data r' = run_dops ops (r_data r) ->
  r_data rc' = run_dops ops (r_data (clean r)) -> (forall p, r_path rc' p = cleanf rt (r_path r' p)) ->
  relisted rc' (clean r') /\ (markers (r_data rc') <> [] -> junk r').
Proof using.
  intros Hg HJ E1 E2 Hp. assert (Ed : r_data (clean r') = r_data rc').
  { rewrite E2. cbn [r_data L_LifeCut.clean gremove]. rewrite <- run_dops_clean by assumption. now rewrite E1. }
  split.
  - unfold relisted. rewrite Ed. repeat (split; [reflexivity || apply Permutation_refl|]). intros p. rewrite Hp. split; reflexivity.
  - intros Hn. eapply (junk_mono rt ops); eauto. intros E. apply Hn. rewrite <- Ed. cbn. now rewrite E.
Qed.

Lemma old_clean r t1 : junk r -> rt <= t1 -> old_listing (Some t1) (clean r) = old_listing (Some t1) r.
Proof using. intros HJ Ht. unfold old_listing. rewrite (meta_clean rt t1 [] (mfiles (r_data r)) (j_dup _ _ HJ) Ht). reflexivity. Qed.
Lemma listing_clean r t1 old src o : rt <= t1 -> new_listing delta sha1 same (Some t1) old src o (clean r) = new_listing delta sha1 same (Some t1) old src o r.
Proof using.
  intros Ht. unfold new_listing, listing_with. apply flat_map_ext. intros x.
  change (pst (Some t1) (pair_md x) (r_path (clean r) (pair_path x))) with (cleanp rt (pst (Some t1) (pair_md x) (r_path r (pair_path x)))).
  rewrite update_clean by assumption. now destruct (update _ _ _ _ _ _ _) as [[m l] md].
Qed.

Lemma gsession_clean r t src o zd r' : junk r -> (forall t1, markers (r_data r) = [t1] -> 0 < t1) ->
  gsession delta sha1 same deq t src o zd r = Some r' ->
  exists n rc', gsession delta sha1 same deq t src o (with_limit n zd) (clean r) = Some rc' /\
    relisted rc' (clean r') /\ (markers (r_data rc') <> [] -> junk r').
Proof using.
  intros HJ Hp E. unfold gsession in *. rewrite (clean_start rt r t HJ).
  destruct (backup_start t false false (r_data r)) as [prev| |] eqn:Eb; try discriminate.
  destruct (start_some _ _ _ Eb (j_some _ _ HJ) Hp) as (t1 & Em & -> & Ht & H0).
  assert (Hrt : rt <= t1) by (pose proof (j_marks _ _ HJ) as HF; rewrite Em in HF; exact (Forall_inv HF)).
  rewrite (old_clean r t1 HJ Hrt). destruct (old_listing (Some t1) r) as [old|] eqn:Eo; [|discriminate].
  rewrite (listing_clean r t1 old src o Hrt).
  destruct (session_dops deq (Some t1) t _ zd (r_data r)) as [ops|] eqn:Es; [|discriminate]. injection E as <-.
  assert (Hold : meta_at_time t1 [] (mfiles (r_data r)) = RdOk old).
  { unfold old_listing in Eo. destruct (meta_at_time t1 [] (mfiles (r_data r))); congruence. }
  destruct (session_dops_clean deq rt r t t1 old _ zd HJ ltac:(lia) Hrt Ht Hold ops Es) as (Hg & n & En).
  exists n. rewrite En. eexists. split; [reflexivity|]. eapply same_ops; [exact Hg|exact HJ|reflexivity|reflexivity|].
  intros p. cbn [r_path]. unfold session. 
  change (pst (Some t1) (find_md p old) (r_path (clean r) p)) with (cleanp rt (pst (Some t1) (find_md p old) (r_path r p))).
  change (last_time (cleanp rt (pst (Some t1) (find_md p old) (r_path r p)))) with (Some t1).
  change (last_time (pst (Some t1) (find_md p old) (r_path r p))) with (Some t1).
  rewrite update_clean by assumption. now destruct (update _ _ _ _ _ _ _) as [[m l] md].
Qed.
Lemma gsession_junk r t src o zd n rc' : junk r -> (forall t1, markers (r_data r) = [t1] -> 0 < t1) ->
  gsession delta sha1 same deq t src o (with_limit n zd) (clean r) = Some rc' ->
  exists r', gsession delta sha1 same deq t src o zd r = Some r'.
Proof using.
  intros HJ Hp E. unfold gsession in *. rewrite (clean_start rt r t HJ) in E.
  destruct (backup_start t false false (r_data r)) as [prev| |] eqn:Eb; try discriminate.
  destruct (start_some _ _ _ Eb (j_some _ _ HJ) Hp) as (t1 & Em & -> & Ht & H0).
  assert (Hrt : rt <= t1) by (pose proof (j_marks _ _ HJ) as HF; rewrite Em in HF; exact (Forall_inv HF)).
  rewrite (old_clean r t1 HJ Hrt) in E. destruct (old_listing (Some t1) r) as [old|] eqn:Eo; [|discriminate].
  rewrite (listing_clean r t1 old src o Hrt) in E.
  assert (Hold : meta_at_time t1 [] (mfiles (r_data r)) = RdOk old).
  { unfold old_listing in Eo. destruct (meta_at_time t1 [] (mfiles (r_data r))); congruence. }
  destruct (session_dops deq (Some t1) t _ (with_limit n zd) _) as [ops|] eqn:Es; [|discriminate].
  destruct (session_dops_junk deq rt r t t1 old _ zd HJ ltac:(lia) Hrt Ht Hold n ops Es) as [ops' ->]. eauto.
Qed.

Lemma gcrash_clean r t src o z zd kd kp r' : junk r -> (forall t1, markers (r_data r) = [t1] -> 0 < t1) ->
  gcrash delta sha1 same deq t src o z zd kd kp r = Some r' ->
  exists n rc', gcrash delta sha1 same deq t src o z (with_limit n zd) kd kp (clean r) = Some rc' /\
    relisted rc' (clean r') /\ (markers (r_data rc') <> [] -> junk r').
Proof using.
  intros HJ Hp E. unfold gcrash in *. rewrite (clean_start rt r t HJ).
  destruct (backup_start t false false (r_data r)) as [prev| |] eqn:Eb; try discriminate.
  destruct (start_some _ _ _ Eb (j_some _ _ HJ) Hp) as (t1 & Em & -> & Ht & H0).
  assert (Hrt : rt <= t1) by (pose proof (j_marks _ _ HJ) as HF; rewrite Em in HF; exact (Forall_inv HF)).
  rewrite (old_clean r t1 HJ Hrt). destruct (old_listing (Some t1) r) as [old|] eqn:Eo; [|discriminate].
  rewrite (listing_clean r t1 old src o Hrt).
  destruct (session_dops deq (Some t1) t _ zd (r_data r)) as [ops|] eqn:Es; [|discriminate].
  assert (Hold : meta_at_time t1 [] (mfiles (r_data r)) = RdOk old).
  { unfold old_listing in Eo. destruct (meta_at_time t1 [] (mfiles (r_data r))); congruence. }
  destruct (session_dops_clean deq rt r t t1 old _ zd HJ ltac:(lia) Hrt Ht Hold ops Es) as (Hg & n & En).
  exists n. rewrite En. destruct (Nat.ltb 0 kd && Nat.ltb kd (length ops)); [|discriminate]. injection E as <-.
  eexists. split; [reflexivity|]. eapply (same_ops (firstn kd ops)); [|exact HJ|reflexivity|reflexivity|].
  - apply Forall_forall. intros x Hx. rewrite Forall_forall in Hg. apply Hg. rewrite <- (firstn_skipn kd ops). apply in_app_iff. now left.
  - intros p. cbn [r_path].
    change (pst (Some t1) (find_md p old) (r_path (clean r) p)) with (cleanp rt (pst (Some t1) (find_md p old) (r_path r p))).
    unfold crash. rewrite run_pops_clean by assumption. reflexivity.
Qed.

(** regress *)
Lemma name_clean t k (l : list (@mfile (meta attr))) : rt <= t -> existsb (same_name t k) (keepf rt l) = existsb (same_name t k) l.
Proof using.
  intros H. unfold keepf. induction l as [|f l IH]; cbn; [reflexivity|]. destruct (mf_time f <? rt) eqn:E; cbn; rewrite IH; [|reflexivity].
  apply Z.ltb_lt in E. now rewrite same_name_time by lia.
Qed.
Lemma marks_ge r a b : junk r -> two_markers (r_data r) = Some (a, b) -> rt <= a /\ rt <= b.
Proof using.
  intros HJ. pose proof (j_marks _ _ HJ) as HF. unfold two_markers. destruct (markers (r_data r)) as [|x [|y [|]]]; try discriminate.
  destruct (x =? y); [discriminate|]. intros [= <- <-]. inversion HF as [|? ? H1 H2]; subst. inversion H2; subst. lia.
Qed.
Lemma two_clean r : junk r -> two_markers (r_data (clean r)) = two_markers (r_data r).
Proof using. intros HJ. unfold two_markers. now rewrite (clean_marks rt r HJ). Qed.
Lemma regress_dops_clean r used : junk r -> regress_dops used (r_data (clean r)) = regress_dops used (r_data r) /\
  forall l, regress_dops used (r_data r) = Some l -> Forall (dop_ge rt) l.
Proof using.
  intros HJ. unfold regress_dops. rewrite (two_clean r HJ). destruct (two_markers (r_data r)) as [[bad good]|] eqn:E2; [|split; [reflexivity|discriminate]].
  destruct (marks_ge r bad good HJ E2) as [Hb Hg].
  change (mfiles (r_data (clean r))) with (keepf rt (mfiles (r_data r))). rewrite !name_clean by assumption.
  rewrite <- (meta_clean rt good [] (mfiles (r_data r)) (j_dup _ _ HJ) Hg). split; [reflexivity|].
  intros l. set (diffs := existsb _ _). set (snaps := existsb (same_name good KSnap) _).
  assert (Hr : Forall (dop_ge rt) ([DDel bad KSnap; DDel bad KDiff; DDelOther bad] ++ (if diffs then [DDel good KDiff] else []) ++ [DIncUndo used; @DUnmark (meta attr) bad])).
  { destruct diffs; repeat constructor; assumption. }
  destruct (diffs && negb snaps).
  - destruct (meta_at_time good [] _); try discriminate. intros [= <-]. constructor; [exact Hg|exact Hr].
  - intros [= <-]. exact Hr.
Qed.
Lemma firstn_ge n (l : list (@dop (meta attr))) : Forall (dop_ge rt) l -> Forall (dop_ge rt) (firstn n l).
Proof using. intros H. apply Forall_forall. intros x Hx. rewrite Forall_forall in H. apply H. rewrite <- (firstn_skipn n l). apply in_app_iff. now left. Qed.

Lemma plan_iff r used z good l : junk r ->
  ((exists prog, regress_plan patch sha1 loose used z r good l prog) <-> exists prog, regress_plan patch sha1 loose used z (clean r) good l prog) /\
  (forall prog progc, regress_plan patch sha1 loose used z r good l prog -> regress_plan patch sha1 loose used z (clean r) good l progc -> forall p, progc p = prog p) /\
  (forall prog, regress_plan patch sha1 loose used z r good l prog -> Forall (dop_ge rt) l /\ rt <= good).
Proof using.
  intros HJ. destruct (regress_dops_clean r used HJ) as [Ed Hge].
  assert (Hrp : forall bad recs p, rt <= good -> regress_prog patch sha1 loose good bad (find_md p recs) (z p) (pst (Some good) (find_md p recs) (r_path (clean r) p)) =
    regress_prog patch sha1 loose good bad (find_md p recs) (z p) (pst (Some good) (find_md p recs) (r_path r p))).
  { intros bad recs p Hg. change (pst (Some good) (find_md p recs) (r_path (clean r) p)) with (cleanp rt (pst (Some good) (find_md p recs) (r_path r p))).
    now apply regress_prog_clean. }
  assert (Hmeta : rt <= good -> regress_dops used (r_data r) = Some l ->
    meta_at_time good [] (mfiles (run_dops (firstn (length l - 2) l) (r_data (clean r)))) = meta_at_time good [] (mfiles (run_dops (firstn (length l - 2) l) (r_data r)))).
  { intros Hg Hl. change (r_data (clean r)) with (remove_older_dd rt true (r_data r)).
    rewrite <- run_dops_clean by (apply firstn_ge; auto). symmetry. apply meta_clean; [|exact Hg]. unfold junk_ok. rewrite run_dops_junk by (apply firstn_ge; auto). apply (j_dup _ _ HJ). }
  split; [|split].
  - split.
    + intros (prog & bad & recs & E1 & E2 & E3 & -> & Hp). destruct (marks_ge r bad good HJ E1) as [Hb Hg].
      eexists. exists bad, recs. rewrite (two_clean r HJ), Ed, (Hmeta Hg E2). repeat (split; [eassumption || reflexivity|]).
      intros p. cbv beta. rewrite Hrp by assumption. apply Hp.
    + intros (prog & bad & recs & E1 & E2 & E3 & -> & Hp). rewrite (two_clean r HJ) in E1. destruct (marks_ge r bad good HJ E1) as [Hb Hg].
      rewrite Ed in E2. rewrite (Hmeta Hg E2) in E3.
      eexists. exists bad, recs. repeat (split; [eassumption || reflexivity|]).
      intros p. cbv beta. rewrite <- Hrp by assumption. apply Hp.
  - intros prog progc (bad & recs & E1 & E2 & E3 & -> & Hp) (bad' & recs' & E1' & E2' & E3' & -> & Hp') p.
    rewrite (two_clean r HJ), E1 in E1'. injection E1' as <-. destruct (marks_ge r bad good HJ E1) as [Hb Hg].
    rewrite (Hmeta Hg E2), E3 in E3'. injection E3' as <-. now apply Hrp.
  - intros prog (bad & recs & E1 & E2 & _). split; [auto|]. now apply (marks_ge r bad good HJ E1).
Qed.
Lemma regress_full_clean r good l prog progc : junk r -> Forall (dop_ge rt) l -> rt <= good -> (forall p, progc p = prog p) ->
  relisted (regress_full good l progc (clean r)) (clean (regress_full good l prog r)) /\
  (markers (r_data (regress_full good l progc (clean r))) <> [] -> junk (regress_full good l prog r)).
Proof using.
  intros HJ Hl Hg Hp. eapply (same_ops l); [exact Hl|exact HJ|reflexivity|reflexivity|].
  intros p. cbn [r_path regress_full]. rewrite Hp.
  change (pst None None (r_path (clean r) p)) with (cleanp rt (pst None None (r_path r p))). rewrite run_pops_clean by assumption. reflexivity.
Qed.
Lemma regress_part_clean r good l prog progc kd kp : junk r -> Forall (dop_ge rt) l -> rt <= good -> (forall p, progc p = prog p) ->
  relisted (regress_part good l progc kd kp (clean r)) (clean (regress_part good l prog kd kp r)) /\
  (markers (r_data (regress_part good l progc kd kp (clean r))) <> [] -> junk (regress_part good l prog kd kp r)).
Proof using.
  intros HJ Hl Hg Hp. eapply (same_ops (firstn (Nat.min kd (length l - 1)) l)); [now apply firstn_ge|exact HJ|reflexivity|reflexivity|].
  intros p. cbn [r_path regress_part]. rewrite Hp.
  change (pst None None (r_path (clean r) p)) with (cleanp rt (pst None None (r_path r p))). unfold crash. rewrite run_pops_clean by assumption. reflexivity.
Qed.

(** restore *)
Lemma restore_clean r t q : junk r -> rt <= t -> restore_tree patch t q (clean r) = restore_tree patch t q r.
Proof using.
  intros HJ Ht. unfold restore_tree, mirror_time_must. rewrite (clean_marks rt r HJ). destruct (hd_error (markers (r_data r))) as [mt|]; [|reflexivity].
  change (mfiles (r_data (clean r))) with (keepf rt (mfiles (r_data r))). rewrite <- (meta_clean rt t q (mfiles (r_data r)) (j_dup _ _ HJ) Ht).
  destruct (meta_at_time t q (mfiles (r_data r))) as [| |recs]; try reflexivity. f_equal. apply map_ext. intros [i [[sz h a|a|d a]|]]; unfold restore_rec; cbn [snd fst]; try reflexivity.
  change (pst None None (r_path (clean r) i)) with (cleanp rt (pst None None (r_path r i))). now rewrite restore_fp_clean.
Qed.

(** regress --force *)
Lemma times_clean m roots (files : list Z) : rt <= m -> exists js,
  M_Core.get_increment_times m roots files =
  js ++ M_Core.get_increment_times m (filter (fun t => negb (t <? rt)) roots) (filter (fun t => negb (t <? rt)) files).
Proof using.
  intros Hm. set (js := M_Core.zsort (M_Core.zdedup (filter (fun t => t <? rt) (roots ++ files)))). exists js.
  set (K := M_Core.get_increment_times m (filter _ roots) (filter _ files)).
  assert (HKin : forall x, In x K <-> x = m \/ (rt <= x /\ (In x roots \/ In x files))).
  { intros x. unfold K, M_Core.get_increment_times.
    assert (E : In x (M_Core.zsort (M_Core.zdedup (m :: filter (fun t => negb (t <? rt)) roots ++ filter (fun t => negb (t <? rt)) files))) <->
      In x (m :: filter (fun t => negb (t <? rt)) roots ++ filter (fun t => negb (t <? rt)) files)).
    { rewrite <- (zdedup_in x (m :: filter _ roots ++ filter _ files)). split; apply Permutation_in; [symmetry|]; apply zsort_perm. }
    rewrite E. cbn. rewrite in_app_iff, !filter_In, !negb_true_iff, !Z.ltb_ge. intuition. }
  assert (HJin : forall x, In x js <-> x < rt /\ (In x roots \/ In x files)).
  { intros x. unfold js.
    assert (E : In x (M_Core.zsort (M_Core.zdedup (filter (fun t => t <? rt) (roots ++ files)))) <-> In x (filter (fun t => t <? rt) (roots ++ files))).
    { rewrite <- (zdedup_in x (filter _ _)). split; apply Permutation_in; [symmetry|]; apply zsort_perm. }
    rewrite E, filter_In, in_app_iff, Z.ltb_lt. tauto. }
  assert (HS : forall l, StronglySorted Z.lt (M_Core.zsort (M_Core.zdedup l))).
  { intros l. pose proof (zsort_sorted (M_Core.zdedup l)) as H1.
    assert (H2 : NoDup (M_Core.zsort (M_Core.zdedup l))) by (eapply Permutation_NoDup; [apply zsort_perm|apply zdedup_nodup]).
    revert H1 H2. generalize (M_Core.zsort (M_Core.zdedup l)). intros w. induction w as [|x w IH]; intros H1 H2; [constructor|].
    inversion H1 as [|? ? H3 H4]; subst. inversion H2 as [|? ? H5 H6]; subst. constructor; [auto|]. apply Forall_forall. intros y Hy.
    rewrite Forall_forall in H4. specialize (H4 y Hy). assert (x <> y) by congruence. lia. }
  apply increment_times_eq.
  - apply ss_app; [apply HS|apply HS|]. intros a b Ha Hb. apply HJin in Ha. apply HKin in Hb. destruct Hb as [->|Hb]; lia.
  - intros x. rewrite in_app_iff, HJin, HKin. cbn. rewrite in_app_iff. split; [|intuition].
    intros [<-|Hx]; [auto|]. destruct (Z.lt_ge_cases x rt); auto.
Qed.
Lemma filter_map_fst {A} (l : list (Z * A)) : map fst (filter (fun x => negb (fst x <? rt)) l) = filter (fun t => negb (t <? rt)) (map fst l).
Proof using. induction l as [|x l IH]; cbn; [reflexivity|]. destruct (negb (fst x <? rt)); cbn; now rewrite IH. Qed.
Lemma filter_map_mf (l : list (@mfile (meta attr))) : map mf_time (keepf rt l) = filter (fun t => negb (t <? rt)) (map mf_time l).
Proof using. unfold keepf. induction l as [|x l IH]; cbn; [reflexivity|]. destruct (negb (mf_time x <? rt)); cbn; now rewrite IH. Qed.
Lemma gforce_clean r rc' : junk r -> gforce (clean r) = Some rc' ->
  exists r', gforce r = Some r' /\ relisted rc' (clean r') /\ (markers (r_data rc') <> [] -> junk r').
Proof using.
  intros HJ. unfold gforce, force_regress, mirror_time_must. rewrite (clean_marks rt r HJ).
  destruct (hd_error (markers (r_data r))) as [m|] eqn:Em; [|discriminate].
  assert (Hm : rt <= m).
  { pose proof (j_marks _ _ HJ) as HF. destruct (markers (r_data r)); [discriminate|]. injection Em as <-. exact (Forall_inv HF). }
  change (mfiles (r_data (clean r))) with (keepf rt (mfiles (r_data r))). cbn [r_path L_LifeCut.clean gremove].
  change (snd (files_of (remove_older rt (pst None None (r_path r []))))) with (filter (fun x => negb (fst x <? rt)) (snd (r_path r []))).
  rewrite filter_map_fst, filter_map_mf.
  destruct (times_clean m (map fst (snd (r_path r []))) (map mf_time (mfiles (r_data r))) Hm) as [js ->].
  set (K := M_Core.get_increment_times _ _ _). rewrite rev_app_distr.
  assert (HK : forall x, In x K -> rt <= x).
  { intros x Hx. unfold K, M_Core.get_increment_times in Hx. eapply Permutation_in in Hx; [|symmetry; apply zsort_perm]. apply (proj1 (zdedup_in _ _)) in Hx.
    destruct Hx as [<-|Hx]; [exact Hm|]. apply in_app_iff in Hx as [Hx|Hx]; apply filter_In in Hx as [_ Hx]; now apply negb_true_iff, Z.ltb_ge in Hx. }
  destruct (rev K) as [|newest [|second w]] eqn:Er; try discriminate. cbn [app].
  destruct (newest =? m); [|discriminate]. intros [= <-]. eexists. split; [reflexivity|].
  eapply (same_ops [DTouch second]); [|exact HJ|reflexivity|reflexivity|reflexivity].
  constructor; [|constructor]. cbn. apply HK. apply in_rev. rewrite Er. right. now left.
Qed.

(** removals *)
Lemma gremove_clean rt2 u r : relisted (gremove rt2 u (clean r)) (clean (gremove rt2 u r)).
Proof using.
  unfold relisted. cbn. rewrite !andb_true_r. split; [apply filter_swap|]. split; [rewrite filter_swap; apply Permutation_refl|].
  split; [apply filter_swap|]. split; [reflexivity|]. intros p. split; [reflexivity|]. rewrite filter_swap. apply Permutation_refl.
Qed.
End Sim.
