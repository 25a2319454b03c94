(** * C73: the metadata files under power failures *)
From Coq Require Import List ZArith Bool Lia Sorting.Sorted Sorting.Permutation.
From Verif Require Import Base L_Base M_Iter L_Iter L_Tree L_Lookup L_Core M_MetaMgr L_MetaMgr L_MetaDir P_Iter P_MetaMgr
  M_PowerDir L_PowerDir L_PowerDir2 L_PowerDir3.
From Verif Require M_Power.
Import List ListNotations.
Local Open Scope Z_scope.

(** ** Specification *)
(** what may be found when the power fails during a session, with the operations [ops] *)
Definition session_cut {D} (force : bool) (ops : list (@dop D)) (d d' : ddir) : Prop :=
  exists k, found (run_pops (firstn k (session_pops force ops)) (of_dir d)) d'.
(** what may be found when the power fails in any number of attempts to go back *)
Inductive going_back {D} (deq : D -> D -> bool) : @ddir D -> @ddir D -> Prop :=
| GB_none d : going_back deq d d
| GB_cut d u ops k d1 d2 :
    regress_dops u d = Some ops ->
    found (run_pops (firstn k (regress_pops true ops)) (of_dir d)) d1 ->
    going_back deq d1 d2 -> going_back deq d d2.

(** ** Proofs *)
Section Back.
Context {D : Type}.
Variable deq : D -> D -> bool.
Hypothesis deq_ok : forall x y, deq x y = true <-> x = y.
Notation ddir := (@ddir D).
Notation listing_ := (list (idx * D)).
Variables (h : list (Z * listing_)) (d0 : ddir) (fs0 : list (@mfile D)) (h0 : list (Z * listing_))
          (t1 : Z) (l0 : listing_) (t : Z).
Hypothesis HI : inv deq h d0 (fs0 ++ [mk_mf t1 KSnap (recs_of l0)]).
Hypothesis Hh : h = h0 ++ [(t1, l0)].
Hypothesis Ht : t1 < t.
Hypothesis HR : reach deq h d0.
Hypothesis Hm : markers d0 = [t1].

Lemma back_reach d : markers d = [t1] -> Permutation (mfiles d) (fs0 ++ [mk_mf t1 KSnap (recs_of l0)]) -> reach deq h d.
Proof using HI HR Hm.
  intros M P. apply (R_listing deq h d0); [assumption| |congruence]. rewrite P. apply (i_perm _ _ _ _ HI).
Qed.
Lemma back_ok u d d2 : going_back deq d d2 -> NoDup (map nm (mfiles d)) ->
  mid deq (fs0 ++ [mk_mf t1 KSnap (recs_of l0)]) h t1 t d \/ reach deq h d /\ markers d = [t1] ->
  reach deq h d2 \/ exists ops, regress_dops u d2 = Some ops /\ reach deq h (run_dops ops d2).
Proof using HI Hh Ht HR Hm deq_ok.
  intros G. induction G as [d|d u' ops k d1 d2 E F G IH]; intros ND [M|[Hr Hmk]].
  - right. destruct (regress_form deq deq_ok h d0 fs0 h0 t1 l0 t HI Hh Ht u d M) as (pre & diffs & E & _).
    eexists. split; [exact E|]. destruct (attempt_done deq deq_ok h d0 fs0 h0 t1 l0 t HI Hh Ht u d _ M E) as (A & B & _). now apply back_reach.
  - now left.
  - pose proof (regress_stage deq deq_ok h d0 fs0 h0 t1 l0 t HI Hh Ht u' d ops ND M E k) as S1.
    destruct (found_r deq deq_ok h d0 fs0 h0 t1 l0 t HI Hh Ht _ d1 S1 F) as [M1|[A B]].
    + apply IH; [apply F|]. now left.
    + apply IH; [apply F|]. right. split; [now apply back_reach|assumption].
  - exfalso. revert E. unfold regress_dops, two_markers. rewrite Hmk. discriminate.
Qed.
End Back.

(** When the power fails during a backup, at any moment, then (unless --no-fsync is given)
    either the repository is as before the backup or as after it, or there are two markers,
    and the next call goes back to the state before the backup, even if the power fails in
    any number of attempts to do so. *)
Theorem C73_power_failure :
  forall D (deq : D -> D -> bool), (forall x y, deq x y = true <-> x = y) ->
  forall h d t l z prev ops d',
  reach deq h d -> backup_start t false false d = StBackup prev -> listing fst l ->
  session_dops deq prev t l z d = Some ops ->
  session_cut true ops d d' ->
  reach deq h d' \/ reach deq (h ++ [(t, l)]) d' \/
  (length (markers d') = 2%nat /\
   forall used d2, going_back deq d' d2 ->
   reach deq h d2 \/ exists ops2, regress_dops used d2 = Some ops2 /\ reach deq h (run_dops ops2 d2)).
Proof.
  intros D deq Hdeq h d t l z prev ops d' HR Hst Hl E [k F].
  pose proof (proj1 (listing_sorted _ _) Hl) as Hs.
  destruct (reach_inv deq Hdeq h d HR) as [fs HI].
  destruct (start_last deq h d fs t prev HI Hst) as (t1' & Hm & -> & Hlt & _).
  destruct (inv_last deq h d fs HI) as (fs0 & h0 & t1 & l0 & -> & Hh & Hm' & _). rewrite Hm in Hm'. injection Hm' as ->.
  pose proof (session_stage deq Hdeq h d fs0 h0 t1 l0 t l z HI Hh Hm Hlt Hs ops E k) as S1.
  destruct (found_s deq Hdeq h d fs0 h0 t1 l0 t l z HI Hh Hm Hlt Hs ops E _ d' S1 F) as [M|[[A B]|[A B]]].
  - right. right. split; [destruct M as [[-> | ->] _]; reflexivity|]. intros used d2 G.
    apply (back_ok deq Hdeq h d fs0 h0 t1 l0 t HI Hh Hlt HR Hm used d' d2 G); [apply F|]. now left.
  - left. apply (back_reach deq h d fs0 t1 l0 HI HR Hm); assumption.
  - right. left. apply (R_listing deq _ (run_dops ops d)); [|now symmetry|].
    + now apply (R_session deq h d t l z (Some t1)).
    + destruct (session_done deq h d fs0 h0 t1 l0 t l z HI Hh Hm Hlt Hs ops E) as [fs' HI'].
      destruct (i_mark _ _ _ _ HI') as (h1 & t' & l' & Eh & Em). apply app_inj_tail in Eh as [_ [= <- _]]. congruence.
Qed.
Print Assumptions C73_power_failure.

(** histories with power failures *)
Inductive preach {D} (deq : D -> D -> bool) : list (Z * list (idx * D)) -> ddir -> Prop :=
| PR_quiet h d : reach deq h d -> preach deq h d
| PR_session h d t l z prev ops :
    preach deq h d -> backup_start t false false d = StBackup prev -> listing fst l ->
    session_dops deq prev t l z d = Some ops -> preach deq (h ++ [(t, l)]) (run_dops ops d)
(** the power fails, but there is a single marker *)
| PR_one h d t l z prev ops d' x :
    preach deq h d -> backup_start t false false d = StBackup prev -> listing fst l ->
    session_dops deq prev t l z d = Some ops -> session_cut true ops d d' ->
    markers d' = [x] -> preach deq (if x =? t then h ++ [(t, l)] else h) d'
(** two markers: the power may fail while going back *)
| PR_back h d t l z prev ops d' d2 used ops2 :
    preach deq h d -> backup_start t false false d = StBackup prev -> listing fst l ->
    session_dops deq prev t l z d = Some ops -> session_cut true ops d d' ->
    length (markers d') = 2%nat -> going_back deq d' d2 ->
    regress_dops used d2 = Some ops2 -> preach deq h (run_dops ops2 d2)
(** ... even after the marker was removed *)
| PR_back_one h d t l z prev ops d' d2 :
    preach deq h d -> backup_start t false false d = StBackup prev -> listing fst l ->
    session_dops deq prev t l z d = Some ops -> session_cut true ops d d' ->
    length (markers d') = 2%nat -> going_back deq d' d2 ->
    length (markers d2) = 1%nat -> preach deq h d2.

Lemma reach_marker {D} (deq : D -> D -> bool) (Hdeq : forall x y, deq x y = true <-> x = y) h d : reach deq h d ->
  exists h0 t l, h = h0 ++ [(t, l)] /\ markers d = [t].
Proof. intros HR. destruct (reach_inv deq Hdeq h d HR) as [fs HI]. apply (i_mark _ _ _ _ HI). Qed.
Lemma single_no_regress {D} u (d : @ddir D) x : markers d = [x] -> regress_dops u d = None.
Proof. intros E. unfold regress_dops, two_markers. now rewrite E. Qed.
Lemma regress_two {D} u (d : @ddir D) ops : regress_dops u d = Some ops -> length (markers d) = 2%nat.
Proof. unfold regress_dops, two_markers. destruct (markers d) as [|a [|b [|c m]]]; try discriminate. reflexivity. Qed.

Lemma preach_reach {D} (deq : D -> D -> bool) (Hdeq : forall x y, deq x y = true <-> x = y) h d : preach deq h d -> reach deq h d.
Proof.
  induction 1 as [h d HR|h d t l z prev ops HP IH Hst Hl E|h d t l z prev ops d' x HP IH Hst Hl E Hc Hx
                 |h d t l z prev ops d' d2 used ops2 HP IH Hst Hl E Hc Hm G E2|h d t l z prev ops d' d2 HP IH Hst Hl E Hc Hm G Hm2].
  - assumption.
  - now apply (R_session deq h d t l z prev).
  - destruct (C73_power_failure D deq Hdeq h d t l z prev ops d' IH Hst Hl E Hc) as [A|[A|[A _]]].
    + destruct (reach_marker deq Hdeq _ _ A) as (h0 & t1 & l1 & Eh & Em). rewrite Hx in Em. injection Em as ->.
      destruct (reach_inv deq Hdeq h d IH) as [fs HI].
      destruct (start_last deq h d fs t prev HI Hst) as (t1' & Hm & _ & Hlt & _).
      destruct (i_mark _ _ _ _ HI) as (h1 & t' & l' & Eh' & Em'). rewrite Eh in Eh'. apply app_inj_tail in Eh' as [_ [= <- _]].
      rewrite Hm in Em'. injection Em' as ->. destruct (Z.eqb_spec t1 t); [lia|assumption].
    + destruct (reach_marker deq Hdeq _ _ A) as (h0 & t1 & l1 & Eh & Em). rewrite Hx in Em. injection Em as ->.
      apply app_inj_tail in Eh as [_ [= <- _]]. now rewrite Z.eqb_refl.
    + rewrite Hx in A. discriminate.
  - destruct (C73_power_failure D deq Hdeq h d t l z prev ops d' IH Hst Hl E Hc) as [A|[A|[_ A]]].
    + destruct (reach_marker deq Hdeq _ _ A) as (? & ? & ? & _ & Em). rewrite Em in Hm. discriminate.
    + destruct (reach_marker deq Hdeq _ _ A) as (? & ? & ? & _ & Em). rewrite Em in Hm. discriminate.
    + destruct (A used d2 G) as [B|(o & Eo & B)].
      * destruct (reach_marker deq Hdeq _ _ B) as (? & ? & ? & _ & Em). rewrite (single_no_regress used d2 _ Em) in E2. discriminate.
      * rewrite E2 in Eo. injection Eo as <-. assumption.
  - destruct (C73_power_failure D deq Hdeq h d t l z prev ops d' IH Hst Hl E Hc) as [A|[A|[_ A]]].
    + destruct (reach_marker deq Hdeq _ _ A) as (? & ? & ? & _ & Em). rewrite Em in Hm. discriminate.
    + destruct (reach_marker deq Hdeq _ _ A) as (? & ? & ? & _ & Em). rewrite Em in Hm. discriminate.
    + destruct (A true d2 G) as [B|(o & Eo & B)]; [assumption|]. apply regress_two in Eo. lia.
Qed.

(** After any number of sessions and power failures the metadata of every completed session
    can be read, exactly as recorded. *)
Theorem C73_metadata_kept :
  forall D (deq : D -> D -> bool), (forall x y, deq x y = true <-> x = y) ->
  forall h d, preach deq h d ->
  forall t l p, In (t, l) h -> meta_at_time t p (mfiles d) = RdOk (map (fun x => (fst x, Some (snd x))) (filter (fun x => is_prefix p (fst x)) l)).
Proof.
  intros D deq Hdeq h d HP t l p Hin. apply (C12_every_session_recovered D deq Hdeq h d); [|assumption].
  now apply preach_reach.
Qed.
Print Assumptions C73_metadata_kept.

(** ** The first session *)
Lemma first_cut {D} (deq : D -> D -> bool) t l z ops d' :
  0 < t -> listing fst l -> session_dops deq None t l z empty_dd = Some ops -> session_cut true ops empty_dd d' ->
  (markers d' = [] /\ clean_initial d' = empty_dd) \/ reach deq [(t, l)] d'.
Proof.
  intros Hp Hl E [k F]. pose proof E as E0. cbn in E. injection E as E.
  set (W := @wr D t KSnap (dn_snap z) (recs_of l)).
  assert (Ep : session_pops true ops = W ++ [PTouch t; PForceMark t]).
  { rewrite <- E, <- !app_assoc, session_others, session_incs. cbn [app].
    now rewrite (session_series t KSnap (dn_snap z) (recs_of l) [DTouch t]). }
  rewrite Ep in F.
  set (Qs := fun x y (v : option (list (idx * option D))) => nameb t KSnap x y = true \/ v = None).
  set (Qe := fun x y (v : option (list (idx * option D))) => v = lookup x y [mk_mf t KSnap (recs_of l)]).
  set (M0 := fun (x : Z) (b : bool) => b = false). set (M1 := fun (x : Z) (b : bool) => x = t \/ b = false).
  assert (A : always (fun p => (mwithin p M0 /\ within p Qs) \/ (mwithin p M1 /\ within p Qe)) (W ++ [PTouch t; PForceMark t]) (of_dir empty_dd)).
  { assert (F0 : within (@of_dir D empty_dd) Qs) by (intros x y v; cbn; intros <-; right; reflexivity).
    assert (G0 : mwithin (@of_dir D empty_dd) M0) by (intros x b; cbn; intros <-; reflexivity).
    assert (F1 : within (run_pops W (of_dir empty_dd)) Qe).
    { intros x y v Hv. pose proof (wr_exact t KSnap (dn_snap z) (recs_of l) (of_dir empty_dd) (fun _ _ v => v = None) (wf_of _) F0 x y v Hv) as H.
      cbn beta in H. unfold Qe. rewrite lookup_cons. cbn [mf_time mf_kind mf_recs]. rewrite nameb_sym. destruct (nameb t KSnap x y); exact H. }
    assert (WW : wf (run_pops W (@of_dir D empty_dd))) by (apply wf_run, wf_of).
    assert (G1 : mwithin (run_pops W (@of_dir D empty_dd)) M1).
    { apply mwithin_run; [apply wr_okm|apply wf_of|]. intros x b Hb. right. exact (G0 x b Hb). }
    apply always_app.
    - eapply always_weaken; [apply (within_always W Qs M0)|]; auto using wf_of.
      + apply wr_okf. intros v. left. now apply nameb_eq.
      + apply wr_okm.
    - eapply always_weaken; [apply (within_always _ Qe M1)|]; auto.
      + repeat constructor.
      + constructor; [now left|repeat constructor].
    }
  specialize (A k). destruct F as (N1 & N2 & Fm & Ff). destruct A as [[Hm Hf]|[Hm Hf]].
  - left. assert (Em : markers d' = []).
    { destruct (markers d') as [|x m] eqn:Em; [reflexivity|]. specialize (Fm x). unfold marked in Fm. rewrite Em in Fm. cbn in Fm.
      rewrite Z.eqb_refl in Fm. discriminate (Hm x _ Fm). }
    split; [assumption|]. unfold clean_initial, failed_initial. rewrite Em.
    replace (Nat.leb (length (mfiles d')) 1) with true; [reflexivity|]. symmetry. apply Nat.leb_le.
    assert (H : forall f, In f (mfiles d') -> nm f = (t, KSnap)).
    { intros f Hf'. pose proof (lookup_in _ _ N2 Hf') as Hlk. specialize (Ff (mf_time f) (mf_kind f)). rewrite Hlk in Ff.
      destruct (Hf _ _ _ Ff) as [H|H]; [|discriminate]. apply nameb_eq in H as [H1 H2]. unfold nm. congruence. }
    destruct (mfiles d') as [|f [|g fs]]; cbn; [lia|lia|]. exfalso. cbn in N2. inversion N2 as [|? ? Hn _]; subst.
    apply Hn. left. pose proof (H f (or_introl eq_refl)) as Hf1. pose proof (H g (or_intror (or_introl eq_refl))) as Hg1. unfold nm in *. congruence.
  - assert (P : Permutation (mfiles d') [mk_mf t KSnap (recs_of l)]).
    { apply perm_lookup; [assumption|repeat constructor; intros []|]. intros x y. exact (Hf _ _ _ (Ff x y)). }
    destruct (marked t d') eqn:Em.
    + right. apply (R_listing deq _ (run_dops ops empty_dd)); [now apply (R_first deq t l z)| |].
      * rewrite P. rewrite <- E. rewrite run_dops_app. cbn [run_dops run_dop mfiles]. rewrite (run_dops_app (repeat _ _)), (run_dops_app (if dn_incs z then _ else _)).
        apply (put_series t KSnap [] (dn_snap z) (fun f H => match H with end) _ []); [|now left].
        cbn [app]. rewrite files_same, files_same; [reflexivity| |now destruct (dn_incs z)].
        apply forallb_forall. intros o Ho. apply repeat_spec in Ho. now rewrite Ho.
      * transitivity [t].
        -- rewrite <- E, run_dops_app. cbn [run_dops run_dop markers]. rewrite markers_same; [reflexivity|].
           rewrite !forallb_app. apply andb_true_iff. split; [apply forallb_forall; intros o Ho; apply repeat_spec in Ho; now rewrite Ho|].
           apply andb_true_iff. split; [now destruct (dn_incs z)|]. apply andb_true_iff. split; [|reflexivity].
           apply forallb_forall. intros o Ho. apply in_map_iff in Ho as (r & <- & _). reflexivity.
        -- symmetry. apply found_marks1; [assumption|]. intros x. destruct (Hm _ _ (Fm x)) as [->|Ex]; [now rewrite Z.eqb_refl|].
           rewrite Ex. symmetry. apply Z.eqb_neq. intros ->. congruence.
    + left. assert (Em' : markers d' = []).
      { destruct (markers d') as [|x m] eqn:Em'; [reflexivity|]. pose proof (Fm x) as Fx. unfold marked in Fx, Em. rewrite Em' in Fx, Em. cbn in Fx.
        rewrite Z.eqb_refl in Fx. destruct (Hm x _ Fx) as [->|]; [|discriminate]. cbn in Em. rewrite Z.eqb_refl in Em. discriminate. }
      split; [assumption|]. unfold clean_initial, failed_initial. rewrite Em', (Permutation_length P). reflexivity.
Qed.

(** When the power fails during the first session, either it's complete, or what is found
    is recognised as the remains of a failed first session, and removed. *)
Theorem C73_first_session :
  forall D (deq : D -> D -> bool) t l z ops d',
  0 < t -> listing fst l -> session_dops deq None t l z empty_dd = Some ops -> session_cut true ops empty_dd d' ->
  (markers d' = [] /\ clean_initial d' = empty_dd) \/ reach deq [(t, l)] d'.
Proof. intros D deq. exact (first_cut deq). Qed.
Print Assumptions C73_first_session.

(** ** Examples *)
Definition ex_z : @dnoise nat := mk_dn [[([], Some 5%nat)]] [[]] 1 true 9.
Definition ex_l1 : list (idx * nat) := [([], 1%nat)].
Definition ex_l2 : list (idx * nat) := [([], 2%nat)].
Definition ex_dir (o : option (list (@dop nat))) (d : ddir) : ddir := match o with Some l => run_dops l d | None => d end.
Definition ex_d1 : ddir := Eval vm_compute in ex_dir (session_dops Nat.eqb None 10 ex_l1 ex_z empty_dd) empty_dd.
Definition ex_ops2 : list (@dop nat) := Eval vm_compute in match session_dops Nat.eqb (Some 10) 20 ex_l2 ex_z ex_d1 with Some l => l | None => [] end.
Lemma ex_reach : reach Nat.eqb [(10, ex_l1)] ex_d1.
Proof.
  destruct (session_dops Nat.eqb None 10 ex_l1 ex_z empty_dd) as [o|] eqn:E; [|discriminate E].
  pose proof (R_first Nat.eqb 10 ex_l1 ex_z o ltac:(lia) ltac:(apply listing_sorted; repeat constructor) E) as R.
  assert (Ed : run_dops o empty_dd = ex_d1) by (vm_compute in E; injection E as <-; reflexivity). now rewrite Ed in R.
Qed.
Ltac found_files :=
  let x := fresh "x" in let y := fresh "y" in
  intros x y; destruct (Z.eq_dec x 20) as [->|N20]; [destruct y; vm_compute; auto|];
  destruct (Z.eq_dec x 10) as [->|N10]; [destruct y; vm_compute; auto|];
  assert (E1 : (x =? 20) = false) by (now apply Z.eqb_neq); assert (E2 : (x =? 10) = false) by (now apply Z.eqb_neq);
  assert (E3 : (20 =? x) = false) by (apply Z.eqb_neq; congruence); assert (E4 : (10 =? x) = false) by (apply Z.eqb_neq; congruence).
Ltac found_goal :=
  split; [repeat constructor; cbn; intuition (try discriminate; try lia)|
  split; [repeat constructor; cbn; intuition (try discriminate; try congruence)|split]].

(** With --no-fsync the metadata of the last complete session can be lost: the old snapshot
    is deleted, and neither its replacement by a difference nor the new snapshot is on the
    disk. *)
Theorem C73_no_fsync_refuted :
  exists h d t l z prev ops d' ops2, reach Nat.eqb h d /\ backup_start t false false d = StBackup prev /\
  listing fst l /\ session_dops Nat.eqb prev t l z d = Some ops /\
  session_cut false ops d d' /\ regress_dops true d' = Some ops2 /\
  exists t1 l1, In (t1, l1) h /\ meta_at_time t1 [] (mfiles (run_dops ops2 d')) = RdNone.
Proof.
  exists [(10, ex_l1)], ex_d1, 20, ex_l2, ex_z, (Some 10), ex_ops2, (mk_dd [20; 10] [] [] true). eexists.
  split; [exact ex_reach|]. split; [reflexivity|]. split; [apply listing_sorted; repeat constructor|]. split; [reflexivity|].
  split; [|split; [reflexivity|exists 10, ex_l1; split; [now left|reflexivity]]].
  exists 6%nat. found_goal.
  - intros x. cbn. unfold marked. cbn. destruct (x =? 20); cbn; [auto|]. reflexivity.
  - found_files.
    do 3 (try (cbn -[Z.eqb lookup]; unfold lookup, same_name; cbn -[Z.eqb]; rewrite ?E1, ?E2, ?E3, ?E4; cbn; auto)).
Qed.
Print Assumptions C73_no_fsync_refuted.

(** a power failure while the new snapshot is being written, another one while going back *)
Example C73_hypotheses :
  let d' := mk_dd [20; 10] [mk_mf 10 KSnap (recs_of ex_l1); mk_mf 20 KSnap [([], Some 77%nat)]] [] true in
  session_cut true ex_ops2 ex_d1 d' /\
  going_back Nat.eqb d' (mk_dd [10; 20] [mk_mf 10 KSnap (recs_of ex_l1)] [] true) /\
  preach Nat.eqb [(10, ex_l1)] (mk_dd [10] [mk_mf 10 KSnap (recs_of ex_l1)] [] true).
Proof.
  cbn zeta.
  assert (A : session_cut true ex_ops2 ex_d1 (mk_dd [20; 10] [mk_mf 10 KSnap (recs_of ex_l1); mk_mf 20 KSnap [([], Some 77%nat)]] [] true)).
  { exists 3%nat. found_goal.
    - intros x. cbn. unfold marked. cbn. destruct (x =? 20); reflexivity.
    - found_files.
    do 3 (try (cbn -[Z.eqb lookup]; unfold lookup, same_name; cbn -[Z.eqb]; rewrite ?E1, ?E2, ?E3, ?E4; cbn; auto)). }
  assert (B : going_back Nat.eqb (mk_dd [20; 10] [mk_mf 10 KSnap (recs_of ex_l1); mk_mf 20 KSnap [([], Some 77%nat)]] [] true)
                (mk_dd [10; 20] [mk_mf 10 KSnap (recs_of ex_l1)] [] true)).
  { eapply GB_cut with (u := true) (k := 1%nat); [reflexivity| |apply GB_none]. found_goal.
    - intros x. cbn. unfold marked. cbn. destruct (x =? 20), (x =? 10); reflexivity.
    - found_files.
    do 3 (try (cbn -[Z.eqb lookup]; unfold lookup, same_name; cbn -[Z.eqb]; rewrite ?E1, ?E2, ?E3, ?E4; cbn; auto)). }
  split; [exact A|]. split; [exact B|].
  apply (PR_back Nat.eqb [(10, ex_l1)] ex_d1 20 ex_l2 ex_z (Some 10) ex_ops2 _ (mk_dd [10; 20] [mk_mf 10 KSnap (recs_of ex_l1)] [] true) true
    [DDel 20 KSnap; DDel 20 KDiff; DDelOther 20; DIncUndo true; DUnmark 20]) with (1 := PR_quiet _ _ _ ex_reach) in A; auto.
  - apply listing_sorted; repeat constructor.
Qed.
